(** Seasonality detection. *)
From Verif Require Import Common MedianSpec.
From Coq Require Import Sorted.
Open Scope nat_scope.

(** [kept] are the fundamental lengths of the candidates: candidates themselves, none a
    multiple of another, and every candidate a multiple of one of them *)
Definition fundamental (candidates kept : list nat) : Prop :=
  (forall k, In k kept -> In k candidates) /\
  (forall j k, In j kept -> In k kept -> Nat.divide j k -> j = k) /\
  (forall c, In c candidates -> exists k, In k kept /\ Nat.divide k c).

(** a lag with an interval whose lower end is not negative *)
Definition significant_lag (confint : list (Q * Q)) (i : nat) : Prop :=
  2 <= i /\ exists lo up, nth_error confint i = Some (lo, up) /\ (0 <= lo)%Q.

(** differences of order d: d-fold application of x(i+1) - x(i) *)
Fixpoint difference (d : nat) (x : nat -> Q) (i : nat) : Q :=
  match d with O => x i | S k => (difference k x (S i) - difference k x i)%Q end.

(** a ratio within a hundredth of a whole number *)
Definition nearly_multiple (g f : Q) : Prop := exists m : Z, (Qabs (g / f - inject_Z m) < 1#100)%Q.

(** the amplitude a peak must exceed: the median of the positive amplitudes plus a multiple of
    the mean absolute deviation of those above the median *)
Definition average (l : list Q) (m : Q) : Prop := l <> [] /\ (m * inject_Z (Z.of_nat (length l)) == qsum l)%Q.
Definition above (l : list Q) (v : Q) : list Q := filter (fun a => negb (Qle_bool a v)) l.
Definition peak_bar (ampl : list Q) (k bar : Q) : Prop :=
  exists med m mad, median_of (above ampl 0) med /\ average (above (above ampl 0) med) m /\
    average (map (fun a => Qabs (a - m)) (above (above ampl 0) med)) mad /\ (bar == med + mad * k)%Q.
