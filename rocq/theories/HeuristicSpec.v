From Coq Require Import List ZArith QArith Permutation Sorted.
From Verif Require Import Common MedianSpec RollingSpec HeuristicModel.
Import ListNotations.
Open Scope nat_scope.

(** the observations one, two, ... whole horizons before the future step [j] (0-based), as far back as
    whole horizons go *)
Definition lagged (steps j : nat) (v : list Q) : list Q :=
  map (fun k => nth (List.length v - (S k) * steps + j) v 0%Q) (seq 0 (List.length v / steps)).
(** the q-th percentile, interpolating linearly between the order statistics *)
Definition percentile_of (q : nat) (l : list Q) (v : Q) : Prop :=
  exists s i r, Permutation l s /\ StronglySorted Qle s /\ (List.length l - 1) * q = 100 * i + r /\ r < 100 /\
    (100 * (v - nth i s 0) == inject_Z (Z.of_nat r) * (nth (S i) s 0 - nth i s 0))%Q.
Definition summary (m : heuristic) (l : list Q) (v : Q) : Prop :=
  match m with
  | Last => v = nth 0 l 0%Q
  | Mean => mean_of l v
  | Median => median_of l v
  | Percentile q => percentile_of q l v
  end.
(** the [n]-th grid time after a grid time *)
Fixpoint after (next : Z -> Z) (n : nat) (t : Z) : Z := match n with O => t | S n => after next n (next t) end.
