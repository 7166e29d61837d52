(** Independent specification: probability of a run of successes in n independent trials. *)
From Verif Require Import Common.
Open Scope Q_scope.

(** All 2^n outcome sequences of n trials (true = rejection). *)
Fixpoint outcomes (n : nat) : list (list bool) :=
  match n with
  | O => [[]]
  | S k => map (cons true) (outcomes k) ++ map (cons false) (outcomes k)
  end.

(** Probability of one outcome sequence when every trial rejects with probability p. *)
Fixpoint weight (p : Q) (l : list bool) : Q :=
  match l with
  | [] => 1
  | true :: t => p * weight p t
  | false :: t => (1 - p) * weight p t
  end.

(** The sequence contains m consecutive rejections, starting at some position i. *)
Definition all_true (l : list bool) : bool := forallb (fun b => b) l.
Definition has_run_at (m : nat) (l : list bool) (i : nat) : bool :=
  all_true (firstn m (skipn i l)).
Definition has_run (m : nat) (l : list bool) : bool :=
  existsb (has_run_at m l) (seq 0 (S (length l - m))) && Nat.leb m (length l).

(** Probability of the event "at least one run of m rejections in n trials". *)
Definition true_run_probability (p : Q) (n m : nat) : Q :=
  qsum (map (weight p) (filter (has_run m) (outcomes n))).

(** Readable characterisation of [has_run], for the reader. *)
Definition has_run_prop (m : nat) (l : list bool) : Prop :=
  exists i, (i + m <= length l)%nat /\ forall j, (j < m)%nat -> nth (i + j) l false = true.
