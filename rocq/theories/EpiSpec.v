From Coq Require Import Reals List.
From Verif Require Import PercChangeSpec.
Import ListNotations.
Open Scope R_scope.

(** the [i]-th block of [b] values of a list *)
Definition block {A} (b i : nat) (l : list A) : list A := firstn b (skipn (i * b) l).
(** what the next block is forecast from: the block before it, or everything before it *)
Definition training (b : nat) (rolling : bool) (kept full : list R) (i : nat) : list R :=
  if rolling then kept ++ firstn (i * b) full
  else match i with O => skipn (length kept - b) kept | S i => block b i full end.
(** [full] is a chain of [m] blocks: each block is the forecast from its training data plus one draw *)
Definition is_chain (learn : list R -> nat -> list R) (b : nat) (rolling : bool) (kept : list R) (draw : nat -> list R) (m : nat) (full : list R) : Prop :=
  length full = (m * b)%nat /\
  forall i j, (i < m)%nat -> (j < b)%nat ->
    nth (i * b + j) full 0 = nth j (learn (training b rolling kept full i) b) 0 + nth j (draw i) 0.
(** the population standard deviation *)
Definition deviation_of (s : R) (l : list R) : Prop :=
  0 <= s /\ exists q, squares_of q l /\ s * s * INR (length l) = q.
