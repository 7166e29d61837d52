(** What the robust statistics detector computes. *)
From Verif Require Import Common.
Open Scope nat_scope.

(** mean of the w entries that end at position e *)
Definition window_mean (w : nat) (l : list Q) (e : nat) (m : Q) : Prop :=
  w <= S e /\ e < length l /\ (m * inject_Z (Z.of_nat w) == sumn w (fun j => nth (S e - w + j) l 0))%Q.
(** the smoothed value at i: before the first full window, that window's mean *)
Definition smoothed (w : nat) (l : list Q) (i : nat) (m : Q) : Prop := i < length l /\ window_mean w l (Nat.max i (w - 1)) m.
(** the spike at i: difference of the smoothed values at i and at i - k, 0 where one is missing *)
Definition spike (w : nat) (k : Z) (l : list Q) (i : nat) (d : Q) : Prop :=
  i < length l /\
  ((exists j a b, (Z.of_nat j = Z.of_nat i - k)%Z /\ smoothed w l i a /\ smoothed w l j b /\ (d == a - b)%Q) \/
   ((forall j b, (Z.of_nat j = Z.of_nat i - k)%Z -> ~ smoothed w l j b) /\ (d == 0)%Q)).

Definition mean_is (l : list Q) (m : Q) : Prop := (m * inject_Z (Z.of_nat (length l)) == qsum l)%Q.
Definition variance_is (l : list Q) (m v : Q) : Prop := (v * inject_Z (Z.of_nat (length l)) == qsum (map (fun x => (x - m) * (x - m)) l))%Q.
(** the squared z-score of the entry at i *)
Definition zscore_squared (l : list Q) (i : nat) (z : Q) : Prop :=
  exists x m v, nth_error l i = Some x /\ mean_is l m /\ variance_is l m v /\ (0 < v)%Q /\ (z * v == (x - m) * (x - m))%Q.
