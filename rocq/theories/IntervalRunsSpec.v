(** Independent specification of maximal runs of True values. *)
From Verif Require Import Common.

(** [s..e] (inclusive) is a maximal run of True in x. *)
Definition maximal_run (x : list bool) (s e : nat) : Prop :=
  s <= e /\ e < length x /\
  (forall i, s <= i <= e -> nth i x false = true) /\
  (s = 0 \/ nth (s - 1) x false = false) /\
  (S e = length x \/ nth (S e) x false = false).

(** Pairs are in increasing order with at least one index between consecutive pairs. *)
Fixpoint increasing_with_gaps (l : list (nat * nat)) : Prop :=
  match l with
  | (_, e) :: (((s', _) :: _) as t) => S e < s' /\ increasing_with_gaps t
  | _ => True
  end.
