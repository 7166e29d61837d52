(** C322: the static threshold detector returns the series as its scores — specification, proofs and theorems. *)
From Coq Require Import List ZArith Lia Permutation.
From Verif Require Import ThresholdModel.
Import ListNotations.
Open Scope Z_scope.

(** ** Specification *)
Definition rows {V} (s : series V) : list (Z * V) := combine (s_time s) (s_value s).
Definition valid {V} (s : series V) : Prop := length (s_time s) = length (s_value s).
Definition in_order (l : list Z) : Prop := forall i j, (i <= j < length l)%nat -> nth i l 0 <= nth j l 0.

(** ** Proofs *)
Lemma in_order_cons t l : in_order (t :: l) <-> (forall u, In u l -> t <= u) /\ in_order l.
Proof.
  split.
  - intros H. split; [intros u I; apply (In_nth _ _ 0) in I; destruct I as (n & L & <-); apply (H 0%nat (S n)); cbn; lia | intros i j L; apply (H (S i) (S j)); cbn; lia].
  - intros (A & B) i j L. cbn [length] in L. destruct i as [|i], j as [|j]; cbn [nth]; try lia; [apply A, nth_In; lia | apply B; lia].
Qed.
Lemma insert_perm t l : Permutation (insert t l) (t :: l).
Proof. induction l as [|u l IH]; cbn; [reflexivity |]. destruct (t <=? u); [reflexivity |]. rewrite IH. constructor. Qed.
Lemma sort_perm l : Permutation (sort l) l.
Proof. induction l as [|t l IH]; cbn; [constructor |]. rewrite insert_perm, IH. reflexivity. Qed.
Lemma insert_order t l : in_order l -> in_order (insert t l).
Proof.
  induction l as [|u l IH]; cbn [insert]; intros H; [apply in_order_cons; split; [intros u [] | exact H] |]. destruct (Z.leb_spec t u) as [L|L].
  - apply in_order_cons. split; [| exact H]. apply in_order_cons in H. intros v [<-|I]; [exact L | specialize (proj1 H v I); lia].
  - apply in_order_cons in H. destruct H as (A & B). apply in_order_cons. split; [| apply IH; exact B]. intros v I. apply (Permutation_in _ (insert_perm t l)) in I. destruct I as [<-|I]; [lia | apply A; exact I].
Qed.
Lemma sort_order l : in_order (sort l).
Proof. induction l as [|t l IH]; cbn; [intros i j L; cbn in L; lia | apply insert_order, IH]. Qed.
Lemma sort_id l : in_order l -> sort l = l.
Proof.
  induction l as [|t l IH]; cbn; [reflexivity |]. intros H. apply in_order_cons in H. destruct H as (A & B). rewrite (IH B). destruct l as [|u l]; [reflexivity |]. cbn. destruct (Z.leb_spec t u) as [L|L]; [reflexivity |]. specialize (A u (or_introl eq_refl)). lia.
Qed.
Lemma differ_at (l m : list Z) : length l = length m -> l <> m -> exists i, (i < length l)%nat /\ nth i l 0 <> nth i m 0.
Proof.
  revert m. induction l as [|x l IH]; intros [|y m] L N; try discriminate; [congruence |]. destruct (Z.eq_dec x y) as [->|D].
  - destruct (IH m) as (i & A & B); [cbn in L; lia | congruence |]. exists (S i). cbn. split; [lia | exact B].
  - exists 0%nat. cbn. split; [lia | exact D].
Qed.
Lemma fit_predict_eq {V} (zero : V) d h : valid d ->
  fit_predict zero d h = Some {| scores := {| s_time := sort (s_time d); s_value := s_value d |};
                                 magnitude := {| s_time := sort (s_time d); s_value := repeat zero (length (s_value d)) |} |}.
Proof.
  intros L. unfold fit_predict, zeros_ts, make_constant. rewrite repeat_length, (proj2 (Nat.eqb_eq _ _) L). reflexivity.
Qed.
Lemma in_rows {V} (dv : V) (s : series V) i : valid s -> (i < length (s_time s))%nat -> In (nth i (s_time s) 0, nth i (s_value s) dv) (rows s).
Proof.
  intros L I. unfold rows. rewrite <- (combine_nth _ _ i 0 dv L). apply nth_In. rewrite combine_length, <- L. lia.
Qed.

(** ** Theorems *)
(** C322.  On a series in the order of time the scores are the series, whatever the history, and the magnitudes are zeros at the same times. *)
Theorem C322_scores_partial : forall (V : Type) (zero : V) d h, valid d -> in_order (s_time d) ->
  exists r, fit_predict zero d h = Some r /\ scores r = d /\ s_time (magnitude r) = s_time d /\ length (s_value (magnitude r)) = length (s_value d) /\ forall v, In v (s_value (magnitude r)) -> v = zero.
Proof.
  intros V zero d h L O. rewrite (fit_predict_eq zero d h L). eexists. split; [reflexivity |]. cbn. rewrite (sort_id _ O). destruct d as [t v]. cbn in *. split; [reflexivity |]. split; [reflexivity |]. split; [apply repeat_length |]. intros x I. apply repeat_spec in I. exact I.
Qed.
(** On any series the response has the times of the series in their order, and the values as they were. *)
Theorem C322_times : forall (V : Type) (zero : V) d h, valid d -> exists r, fit_predict zero d h = Some r /\
  in_order (s_time (scores r)) /\ Permutation (s_time (scores r)) (s_time d) /\ s_value (scores r) = s_value d /\ s_time (magnitude r) = s_time (scores r).
Proof.
  intros V zero d h L. rewrite (fit_predict_eq zero d h L). eexists. split; [reflexivity |]. cbn. split; [apply sort_order |]. split; [apply sort_perm |]. split; reflexivity.
Qed.
(** So on every series with distinct times out of order, and distinct values, some time gets the value of another time as its score. *)
Theorem C322_unsorted_refuted : forall (V : Type) (zero : V) d h, valid d -> NoDup (s_time d) -> NoDup (s_value d) -> ~ in_order (s_time d) ->
  exists r t v v', fit_predict zero d h = Some r /\ In (t, v) (rows d) /\ In (t, v') (rows (scores r)) /\ v <> v'.
Proof.
  intros V zero d h L NT NV O. rewrite (fit_predict_eq zero d h L). assert (PL := Permutation_length (sort_perm (s_time d))).
  destruct (differ_at (sort (s_time d)) (s_time d) PL) as (i & I & D); [intros E; apply O; rewrite <- E; apply sort_order |].
  assert (IN : In (nth i (sort (s_time d)) 0) (s_time d)) by (apply (Permutation_in _ (sort_perm _)), nth_In; exact I).
  destruct (In_nth _ _ 0 IN) as (j & J & E). eexists. exists (nth i (sort (s_time d)) 0), (nth j (s_value d) zero), (nth i (s_value d) zero). split; [reflexivity |]. split; [rewrite <- E; apply in_rows; assumption |]. split.
  - apply (in_rows zero {| s_time := sort (s_time d); s_value := s_value d |} i); [unfold valid in *; cbn; congruence | exact I].
  - unfold valid in L. intros X. apply (proj1 (NoDup_nth (s_value d) zero) NV) in X; [subst j; congruence | lia | lia].
Qed.
Example C322_case : let d := {| s_time := [1; 2; 5]; s_value := [10; 7; 12] |} in valid d /\ in_order (s_time d) /\ fit_predict 0 d None <> None.
Proof.
  split; [reflexivity |]. split; [| discriminate]. intros i j L. cbn in L. destruct i as [|[|[|i]]], j as [|[|[|j]]]; cbn; lia.
Qed.
Example C322_unsorted_case : let d := {| s_time := [5; 1]; s_value := [10; 7] |} in valid d /\ NoDup (s_time d) /\ NoDup (s_value d) /\ ~ in_order (s_time d) /\
  option_map (fun r => rows (scores r)) (fit_predict 0 d None) = Some [(1, 10); (5, 7)].
Proof.
  split; [reflexivity |]. split; [repeat constructor; cbn; lia |]. split; [repeat constructor; cbn; lia |]. split; [| reflexivity]. intros H. specialize (H 0%nat 1%nat). cbn in H. lia.
Qed.

Print Assumptions C322_scores_partial.
Print Assumptions C322_times.
Print Assumptions C322_unsorted_refuted.
