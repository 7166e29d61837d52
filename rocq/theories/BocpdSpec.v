(** Specification for C44-C46, C85-C89. *)
From Verif Require Import Common.
From Coq Require Import FinFun Lia.
Open Scope nat_scope.

(** A history says, newest point first, at which of the points 1, 2, ... a new run
    started.  [run c] is the number of points since then. *)
Fixpoint run (c : list bool) : nat :=
  match c with false :: t => S (run t) | _ => 0 end.
(** all histories of [n] points *)
Fixpoint histories (n : nat) : list (list bool) :=
  match n with
  | O => [[]]
  | S k => map (cons true) (histories k) ++ map (cons false) (histories k)
  end.
Lemma histories_all n c : In c (histories n) <-> length c = n.
Proof.
  revert c. induction n as [|n IH]; intros c; cbn [histories].
  - destruct c; cbn; split; intros H; try discriminate; auto. destruct H as [H|[]]; discriminate.
  - rewrite in_app_iff, !in_map_iff. split.
    + intros [(x & <- & H)|(x & <- & H)]; apply IH in H; cbn; lia.
    + destruct c as [|[] c]; cbn; intros H; [discriminate|left|right]; exists c; (split; [reflexivity|apply IH; lia]).
Qed.
Lemma histories_once n : NoDup (histories n).
Proof.
  induction n as [|n IH]; cbn [histories]; [repeat constructor; auto|].
  assert (M : forall b, NoDup (map (cons b) (histories n))).
  { intros b. apply FinFun.Injective_map_NoDup; [intros x y; congruence|exact IH]. }
  assert (A : forall (l1 l2 : list (list bool)), NoDup l1 -> NoDup l2 -> (forall x, In x l1 -> ~ In x l2) -> NoDup (l1 ++ l2)).
  { induction l1 as [|x l1 IHl]; intros l2 H1 H2 D; [exact H2|]. cbn. inversion H1; subst. constructor.
    - rewrite in_app_iff. intros [H|H]; [contradiction|]. exact (D x (or_introl eq_refl) H).
    - apply IHl; [assumption|assumption|]. intros y Hy. apply D. right. exact Hy. }
  apply A; [apply M|apply M|]. intros x H1 H2. apply in_map_iff in H1 as (y & <- & _). apply in_map_iff in H2 as (z & E & _). discriminate.
Qed.

(** Joint weight of a history: each point is drawn from the predictive density of the run
    it finds, then a new run starts at it with probability [h]. *)
Fixpoint weight (h : Q) (pred : nat -> nat -> Q) (c : list bool) : Q :=
  match c with
  | [] => 1%Q
  | b :: past => (weight h pred past * pred (length c) (run past) * (if b then h else 1 - h))%Q
  end.
(** total weight of the histories of points 1..i, and of those with run length [r] *)
Definition total (h : Q) (pred : nat -> nat -> Q) (i : nat) : Q :=
  qsum (map (weight h pred) (histories i)).
Definition total_run (h : Q) (pred : nat -> nat -> Q) (i r : nat) : Q :=
  qsum (map (weight h pred) (filter (fun c => Nat.eqb (run c) r) (histories i))).

(** the last [k] of a list of observations *)
Definition lastn {A} (k : nat) (l : list A) : list A := skipn (length l - k) l.
