(** Specification vocabulary for C32-C34 and C80-C84, independent of [MetricsModel]. *)
From Verif Require Import Common.
Open Scope nat_scope.

(** the pairs of an actual and a predicted value where neither is missing *)
Definition present (yt yp : list (option Q)) : list (Q * Q) :=
  flat_map (fun p => match p with (Some a, Some b) => [(a, b)] | _ => [] end) (combine yt yp).
(** [r] is the mean of [l]; None (NaN) for the empty list *)
Definition is_mean (r : option Q) (l : list Q) : Prop :=
  match r with
  | None => l = []
  | Some m => l <> [] /\ (m * inject_Z (Z.of_nat (length l)) == qsum l)%Q
  end.
Definition same_value (a b : option Q) : Prop :=
  match a, b with Some x, Some y => (x == y)%Q | None, None => True | _, _ => False end.

(** the relative error of the symmetric metrics, 0/0 read as 0 *)
Definition sym_rel (num a b : Q) : Q :=
  if Qeq_bool (Qabs a + Qabs b) 0 then 0%Q else (num / (Qabs a + Qabs b))%Q.

(** a complete series *)
Definition full (l : list Q) : list (option Q) := map Some l.

(** number of list members with a property *)
Definition count {A} (P : A -> bool) (l : list A) : nat := length (filter P l).
(** [q] is a t-quantile of [ys] *)
Definition is_quantile (t q : Q) (ys : list Q) : Prop :=
  (inject_Z (Z.of_nat (count (fun y => negb (Qle_bool q y)) ys)) <= t * inject_Z (Z.of_nat (length ys))
   /\ t * inject_Z (Z.of_nat (length ys)) <= inject_Z (Z.of_nat (count (fun y => Qle_bool y q) ys)))%Q.

Definition pinball_of (t y q : Q) : Q := if Qle_bool q y then ((y - q) * t)%Q else ((q - y) * (1 - t))%Q.

(** observation inside an interval *)
Definition inside (y l u : Q) : bool := Qle_bool l y && Qle_bool y u.
(** every interval of the second list contains that of the first *)
Definition wider (lo up lo' up' : list Q) : Prop :=
  Forall2 (fun a b => (fst b <= fst a)%Q /\ (snd a <= snd b)%Q) (combine lo up) (combine lo' up').

Definition is_wmean (m : Q) (l : list Q) (w : list Q) : Prop :=
  (m * qsum w == qsum (map (fun p => fst p * snd p) (combine l w)))%Q.
Definition scaled (c : Q) (l : list (option Q)) : list (option Q) := map (option_map (Qmult c)) l.
(** complete pairs with their weights *)
Definition present_w (yt yp : list (option Q)) (w : list Q) : list (Q * Q * Q) :=
  flat_map (fun p => match p with (Some a, Some b, c) => [(a, b, c)] | _ => [] end) (combine (combine yt yp) w).

(** relative error; a non-zero error over a zero actual counts as plus or minus one, 0/0 as zero *)
Definition relative (num den : Q) : Q :=
  if Qeq_bool den 0 then (if Qeq_bool num 0 then 0 else if Qle_bool 0 num then 1 else -(1))%Q else (num / den)%Q.
(** share of a sample at or below a value *)
Definition share_below (s : list Q) (x : Q) : Q :=
  (inject_Z (Z.of_nat (count (fun y => Qle_bool y x) s)) / inject_Z (Z.of_nat (length s)))%Q.
(** changes from one value to the next *)
Definition steps_of (a : list Q) : list Q :=
  map (fun i => (nth (S i) a 0 - nth i a 0)%Q) (seq 0 (length a - 1)).
