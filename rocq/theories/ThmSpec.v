(** Specification for C50-C52, C90-C92. *)
From Verif Require Import Common.
From Coq Require Import Sorted.
Open Scope nat_scope.

(** the levels of a hierarchy: positive, distinct, largest first, with level 1 *)
Definition hierarchy (levels : list nat) : Prop :=
  StronglySorted gt levels /\ In 1 levels /\ forall k, In k levels -> 1 <= k.

(** sum of the [j]-th block of [k] consecutive values *)
Definition block_sum (k j : nat) (l : list Q) : Q := qsum (firstn k (skipn (j * k) l)).
(** all levels of one period [b] of level 1 values *)
Definition level_vector (levels : list nat) (m : nat) (b : list Q) : list Q :=
  flat_map (fun k => map (fun j => block_sum k j b) (seq 0 (m / k))) levels.
Definition dot (a b : list Q) : Q := qsum (map (fun p => (fst p * snd p)%Q) (combine a b)).
(** the base forecasts of all levels are the block sums of one series *)
Definition coherent (levels : list nat) (m h : nat) (orig : nat -> list Q) (b : list Q) : Prop :=
  length b = h * m /\ forall k j, In k levels -> j < m / k * h -> (nth j (orig k) 0 == block_sum k j b)%Q.
(** weighted squared distance *)
Definition distance (w y v : list Q) : Q :=
  qsum (map (fun t => ((fst (fst t) - snd (fst t)) * (fst (fst t) - snd (fst t)) / snd t)%Q) (combine (combine y v) w)).
(** period [c] of a level 1 series *)
Definition period (m c : nat) (l : list Q) : list Q := firstn m (skipn (c * m) l).

(** What exact linear solving returns: the solution of a system with a unique one *)
Definition solves (solve : nat -> nat -> (nat -> nat -> Q) -> (nat -> nat -> Q) -> option (nat -> nat -> Q)) : Prop :=
  forall n p A B X, solve n p A B = Some X ->
    (forall i j, i < n -> j < p -> (sumn n (fun k => A i k * X k j) == B i j)%Q)
    /\ forall x, (forall i, i < n -> (sumn n (fun k => A i k * x k) == 0)%Q) -> forall k, k < n -> (x k == 0)%Q.
(** a solver that answers whenever the solution is unique *)
Definition complete (solve : nat -> nat -> (nat -> nat -> Q) -> (nat -> nat -> Q) -> option (nat -> nat -> Q)) : Prop :=
  forall n p A B,
    (forall x, (forall i, i < n -> (sumn n (fun k => A i k * x k) == 0)%Q) -> forall k, k < n -> (x k == 0)%Q) ->
    exists X, solve n p A B = Some X.
(** the base forecasts for period [c], level by level *)
Definition base_vector (levels : list nat) (m : nat) (orig : nat -> list Q) (c : nat) : list Q :=
  flat_map (fun k => map (fun i => nth (c * (m / k) + i) (orig k) 0%Q) (seq 0 (m / k))) levels.
