From Coq Require Import List ZArith QArith Sorted.
From Verif Require Import Common PostModel.
Import ListNotations.
Open Scope nat_scope.

(** the times are strictly increasing *)
Definition increasing (rows : list (Z * Q)) : Prop := StronglySorted Z.lt (map fst rows).
Definition time (rows : list (Z * Q)) (i : nat) : Z := fst (nth i rows (0%Z, 0%Q)).
Definition score (rows : list (Z * Q)) (i : nat) : Q := snd (nth i rows (0%Z, 0%Q)).
(** the score is beyond the threshold in the direction asked for *)
Definition beyond (p : post_params) (x : Q) : Prop :=
  match dir p with Up => (high p < x)%Q | Down => (x < low p)%Q | Both => (x < low p)%Q \/ (high p < x)%Q end.
(** how many of the rows a, a+1, ..., b satisfy P (decided by f) *)
Definition count_rows (f : nat -> bool) (a b : nat) : nat := List.length (filter f (seq a (S b - a))).
(** Row [i] is in the alert state: at least the window has passed since the first row, and among the rows of the window ending
    at it (those a, ..., i with time above t_i - w) at least the fraction is beyond the threshold. *)
Definition alerting (p : post_params) (rows : list (Z * Q)) (i : nat) : Prop :=
  (time rows 0 + window_sec p <= time rows i)%Z /\
  exists a f, a <= i /\ (forall j, j <= i -> (time rows i - window_sec p < time rows j)%Z <-> a <= j) /\
    (forall j, j <= i -> f j = true <-> beyond p (score rows j)) /\
    (fraction p * inject_Z (Z.of_nat (S i - a)) <= inject_Z (Z.of_nat (count_rows f a i)))%Q.
(** rows a, ..., b-1 are a maximal run of alerts, ended by the row b that is not alerting, or by the last row *)
Definition run (alert : nat -> Prop) (n a b : nat) : Prop :=
  a < b < n /\ (forall i, a <= i < b -> alert i) /\ (a = 0 \/ ~ alert (a - 1)) /\ (~ alert b \/ b = n - 1).
(** how far a score is beyond the thresholds *)
Definition excess_of (p : post_params) (x e : Q) : Prop :=
  match dir p with
  | Up => (e == x - high p)%Q
  | Down => (e == low p - x)%Q
  | Both => (0 <= e /\ x - high p <= e /\ low p - x <= e)%Q /\ (e == 0 \/ e == x - high p \/ e == low p - x)%Q
  end.
(** the sum of f over the rows a, ..., b-1 *)
Definition sum_rows (f : nat -> Q) (a b : nat) : Q := qsum (map f (seq a (b - a))).
(** x is the largest of the values f a, ..., f b *)
Definition largest (f : nat -> Q) (a b : nat) (x : Q) : Prop :=
  (exists j, a <= j <= b /\ (x == f j)%Q) /\ forall j, a <= j <= b -> (f j <= x)%Q.
