(** Percentile lists as distributions. *)
From Verif Require Import Common.
From Coq Require Import Sorted.
Open Scope Q_scope.

Definition size (l : list Q) : Q := inject_Z (Z.of_nat (length l)).
(** share of the entries equal to x, and of those at most x *)
Definition share_eq (l : list Q) (x : Q) : Q := inject_Z (Z.of_nat (length (filter (fun y => Qeq_bool y x) l))) / size l.
Definition share_le (l : list Q) (x : Q) : Q := inject_Z (Z.of_nat (length (filter (fun y => Qle_bool y x) l))) / size l.

(** the distinct values of [l] in increasing order, with their shares *)
Definition distribution_of (l : list Q) (d : list (Q * Q)) : Prop :=
  StronglySorted Qlt (map fst d) /\
  (forall x p, In (x, p) d -> In x l /\ p == share_eq l x) /\
  (forall y, In y l -> exists x p, In (x, p) d /\ x == y).
Definition is_distribution (p : list Q) : Prop := (forall v, In v p -> 0 < v) /\ qsum p == 1.

(** the distribution function of a percentile list as the code interpolates it: 0 below all
    entries, 1 from the largest on, and in between the share so far plus the fraction of one
    percentile step *)
Definition interpolated (l : list Q) (x v : Q) : Prop :=
  ((forall y, In y l -> x < y) /\ v == 0) \/
  ((forall y, In y l -> y <= x) /\ v == 1) \/
  (exists a b, In a l /\ In b l /\ a <= x /\ x < b /\ (forall y, In y l -> y <= a \/ b <= y) /\
     v == share_le l x + (x - a) / (b - a) / size l).

Definition prefix_sum (n : nat) (l : list Q) : Q := qsum (firstn n l).
Definition pointwise (a b : list Q) : Prop := Forall2 Qeq a b.

(** [p] gives, at the increasing points [s], the increments of the interpolated distribution
    function of [l] *)
Definition projection_of (l s p : list Q) : Prop :=
  length p = length s /\ (forall v, In v p -> 0 <= v) /\
  (forall k x, nth_error s k = Some x -> interpolated l x (prefix_sum (S k) p)).

(** ** The detector.  Times are in nanoseconds, windows in seconds. *)
Definition seconds (w : Z) : Z := (w * 1000000000)%Z.
(** [o] is the row a point at time [t] is compared with: the oldest one not older than the
    window, which must be older than nine tenths of it *)
Definition reference {A} (w : Z) (total : list (Z * A)) (t : Z) (o : Z * A) : Prop :=
  In o total /\ (t - seconds w <= fst o)%Z /\
  (forall r, In r total -> (t - seconds w <= fst r)%Z -> (fst o <= fst r)%Z) /\
  (9 * seconds w < 10 * (t - fst o))%Z.
Definition rising (l : list Q) : Prop := StronglySorted Qle l.
