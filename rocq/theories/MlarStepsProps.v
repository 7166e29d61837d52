(** Theorems about predict(steps) of the autoregressive forecaster (C193, C194). *)
From Coq Require Import List Bool Arith Lia.
From Verif Require Import MlarModel MlarStepsModel.
Import ListNotations.

Lemma mem_in k l : mem k l = true <-> In k l.
Proof. unfold mem. rewrite existsb_exists. split; [intros (x & I & E); apply Nat.eqb_eq in E; subst; exact I|]. intros I. exists k. split; [exact I|apply Nat.eqb_refl]. Qed.
Lemma mem_not k l : mem k l = false <-> ~ In k l.
Proof. rewrite <- mem_in. destruct (mem k l); split; congruence. Qed.
Lemma filter_head {A} (f : A -> bool) : forall l x t, filter f l = x :: t -> exists b a, l = b ++ x :: a /\ f x = true /\ forall y, In y b -> f y = false.
Proof.
  induction l as [|y l IH]; intros x t E; [discriminate|]. cbn in E. destruct (f y) eqn:F.
  - injection E as -> <-. exists [], l. split; [reflexivity|]. split; [exact F|intros ? []].
  - destruct (IH x t E) as (b & a & -> & P & N). exists (y :: b), a. split; [reflexivity|]. split; [exact P|]. intros z [<-|I]; [exact F|apply N; exact I].
Qed.
Lemma filter_none {A} (f : A -> bool) : forall l, filter f l = [] -> forall x, In x l -> f x = false.
Proof. induction l as [|y l IH]; cbn; intros E x I; [destruct I|]. destruct (f y) eqn:F; [discriminate|]. destruct I as [<-|I]; [exact F|apply IH; assumption]. Qed.
(** the first of a range not in a list *)
Lemma gap_spec s n l k t : filter (fun k => negb (mem k l)) (seq s n) = k :: t -> s <= k < s + n /\ ~ In k l /\ forall j, s <= j < k -> In j l.
Proof.
  intros E. destruct (filter_head _ _ _ _ E) as (b & a & S & P & N). assert (I : In k (seq s n)) by (rewrite S; apply in_or_app; right; left; reflexivity).
  apply in_seq in I. split; [exact I|]. split; [apply negb_true_iff, mem_not in P; exact P|]. intros j J.
  assert (IJ : In j (seq s n)) by (apply in_seq; lia). rewrite S in IJ. apply in_app_or in IJ as [IJ|IJ].
  - specialize (N j IJ). apply negb_false_iff, mem_in in N. exact N.
  - exfalso. assert (LB : length b = k - s).
    { assert (NB : nth (length b) (seq s n) 0 = k) by (rewrite S, app_nth2, Nat.sub_diag by lia; reflexivity).
      rewrite seq_nth in NB; [lia|]. rewrite <- (seq_length n s), S, app_length. cbn. lia. }
    apply (In_nth _ _ 0) in IJ as (i & LI & EI). assert (NA : nth (length b + i) (seq s n) 0 = j) by (rewrite S, app_nth2_plus; exact EI).
    rewrite seq_nth in NA; [lia|]. rewrite <- (seq_length n s), S, app_length. lia.
Qed.

(** C193.  The number found is the smallest positive integer that is not in the array; there always is one. *)
Theorem C193_first_missing : forall nums, exists m, first_missing nums = Some m /\ 1 <= m /\ ~ In m nums /\ forall k, 1 <= k < m -> In k nums.
Proof.
  intros nums. unfold first_missing. change (fun k => negb (existsb (Nat.eqb k) nums)) with (fun k => negb (mem k nums)).
  destruct (filter (fun k => negb (mem k nums)) (seq 1 (length nums + 1))) as [|m t] eqn:E.
  - exfalso. assert (I : incl (seq 1 (length nums + 1)) nums).
    { intros x X. pose proof (filter_none _ _ E x X) as N. apply negb_false_iff, mem_in in N. exact N. }
    apply (NoDup_incl_length (seq_NoDup _ _)) in I. rewrite seq_length in I. lia.
  - exists m. split; [reflexivity|]. destruct (gap_spec _ _ _ _ _ E) as (B & N & L). split; [lia|]. split; [exact N|exact L].
Qed.
Example C193_case : first_missing [3; 1; 7; 2; 2] = Some 4.
Proof. reflexivity. Qed.

Section Steps.
Variable V : Type.
Variable pass : nat -> list (nat * V) -> nat -> V.
Notation lookup := (lookup V).
Notation iterate := (iterate V pass).
Notation predict := (predict V pass).
Notation predict_steps := (predict_steps V pass).
Notation predict_all := (predict_all V pass).

Lemma missing_nil steps covered : missing steps covered = [] <-> incl steps covered.
Proof.
  unfold missing. split.
  - intros E x I. pose proof (filter_none _ _ E x I) as N. apply negb_false_iff, mem_in in N. exact N.
  - intros I. destruct (filter (fun k => negb (mem k covered)) steps) as [|x t] eqn:E; [reflexivity|]. exfalso.
    assert (X : In x (x :: t)) by (left; reflexivity). rewrite <- E in X. apply filter_In in X as [X N]. apply negb_true_iff, mem_not in N. exact (N (I x X)).
Qed.
Lemma lookup_app k a b : lookup k (a ++ b) = match lookup k a with Some v => Some v | None => lookup k b end.
Proof. unfold MlarStepsModel.lookup. induction a as [|q a IH]; [reflexivity|]. cbn. destruct (fst q =? k); [reflexivity|exact IH]. Qed.
Lemma lookup_in k a : lookup k a <> None <-> In k (map fst a).
Proof.
  unfold MlarStepsModel.lookup. induction a as [|q a IH]; cbn; [tauto|]. destruct (Nat.eqb_spec (fst q) k) as [E|E]; cbn; [split; [intros _; left; exact E|discriminate]|].
  rewrite IH. split; [right; assumption|]. intros [H|H]; [contradiction|exact H].
Qed.
(** Rows that are there stay as they are, in every round. *)
Lemma iterate_keeps : forall fuel H steps covered i res out k v,
  iterate fuel H steps covered i res = Some out -> lookup k res = Some v -> lookup k out = Some v.
Proof.
  induction fuel as [|fuel IH]; intros H steps covered i res out k v E L; cbn in E; destruct (missing steps covered); try discriminate; try (injection E as <-; exact L).
  eapply IH; [exact E|]. unfold combine_first. rewrite lookup_app, L. reflexivity.
Qed.
(** C194.  Asking for more steps changes no forecast that is made without asking. *)
Theorem C194_prefix : forall fuel H steps out k v, predict_steps fuel H steps = Some out -> lookup k (predict_all H) = Some v -> lookup k out = Some v.
Proof. intros fuel H steps out k v E L. eapply iterate_keeps; [exact E|exact L]. Qed.
(** It comes to an end if one step ahead is among the horizons and the steps are positive. *)
Theorem C194_terminates : forall H steps, In 1 H -> (forall k, In k steps -> 1 <= k) -> exists fuel out, predict_steps fuel H steps = Some out.
Proof.
  intros H steps O P. destruct (C193_first_missing H) as (m & E & M1 & M2 & M3). assert (M : 2 <= m) by (destruct (Nat.eq_dec m 1); [congruence|lia]).
  set (N := fold_right Nat.max 0 steps). assert (B : forall k, In k steps -> k <= N).
  { unfold N. clear. induction steps as [|x l IH]; intros k []; cbn; [lia|]. specialize (IH k H). lia. }
  assert (X : forall fuel i covered res, N <= i * (m - 1) + fuel -> 1 <= i -> (forall k, 1 <= k <= i * (m - 1) -> In k covered) ->
    exists out, iterate fuel H steps covered i res = Some out).
  { induction fuel as [|fuel IH]; intros i covered res F I C; cbn.
    - replace (missing steps covered) with (@nil nat); [eexists; reflexivity|]. symmetry. apply missing_nil. intros k K. apply C. specialize (B k K). specialize (P k K). lia.
    - destruct (missing steps covered); [eexists; reflexivity|]. apply IH; [nia|lia|]. rewrite E. intros k K. apply in_or_app.
      destruct (Nat.le_gt_cases k (i * (m - 1))) as [L|L]; [left; apply C; lia|]. right. apply in_map_iff. exists (k - i * (m - 1)). split; [nia|]. apply M3. nia. }
  destruct (X N 1 H (rows_from V pass H 0 [])) as [out R]; [lia|lia| |exists N, out; exact R]. intros k K. apply M3. lia.
Qed.
(** Otherwise it never ends, whenever a step is asked for that is not among the horizons. *)
Theorem C194_hangs_refuted : forall H steps k, ~ In 1 H -> In k steps -> ~ In k H -> forall fuel, predict_steps fuel H steps = None.
Proof.
  intros H steps k O I N. destruct (C193_first_missing H) as (m & E & M1 & M2 & M3).
  assert (M : m = 1) by (destruct (Nat.eq_dec m 1) as [X|X]; [exact X|]; exfalso; apply O; apply M3; lia). subst m.
  assert (X : forall fuel covered i res, ~ In k covered -> iterate fuel H steps covered i res = None).
  { induction fuel as [|fuel IH]; intros covered i res C; cbn; destruct (missing steps covered) eqn:MS; try (exfalso; apply C; apply (proj1 (missing_nil steps covered) MS); exact I); [reflexivity|].
    apply IH. rewrite E, in_app_iff, in_map_iff. intros [J|(h & J & IH')]; [exact (C J)|]. apply N. rewrite Nat.sub_diag, Nat.mul_0_r, Nat.add_0_r in J. congruence. }
  intros fuel. apply X. exact N.
Qed.
Lemma next_origin_full res c : 1 <= c -> (forall k, In k (map fst res) <-> 1 <= k <= c) -> next_origin V res = c.
Proof.
  intros C1 A. unfold next_origin. set (steps := map fst res) in *.
  assert (MX : fold_right Nat.max 0 steps = c).
  { assert (U : forall l, (forall k, In k l -> k <= c) -> fold_right Nat.max 0 l <= c) by (induction l as [|x l IH]; cbn; intros B; [lia|]; apply Nat.max_lub; [apply B; left; reflexivity|apply IH; intros; apply B; right; assumption]).
    assert (W : forall l k, In k l -> k <= fold_right Nat.max 0 l) by (induction l as [|x l IH]; cbn; intros k []; [lia|]; specialize (IH k H); lia).
    apply Nat.le_antisymm; [apply U; intros k K; apply A in K; lia|]. destruct c as [|c]; [lia|]. apply W. apply A. lia. }
  rewrite MX. destruct (filter (fun k => negb (mem k steps)) (seq (fold_right Nat.min c steps) (c + 1 - fold_right Nat.min c steps))) as [|k t] eqn:F; [reflexivity|].
  destruct (gap_spec _ _ _ _ _ F) as (B & N & L). exfalso. apply N. apply A.
  assert (MN : forall l d, (forall x, In x l -> 1 <= x) -> 1 <= d -> 1 <= fold_right Nat.min d l) by (induction l as [|x l IH]; cbn; intros d Q W; [exact W|]; apply Nat.min_glb; [apply Q; left; reflexivity|apply IH; [intros; apply Q; right; assumption|exact W]]).
  split; [|lia]. apply Nat.le_trans with (fold_right Nat.min c steps); [|lia]. apply MN; [|exact C1]. intros x X. apply A in X. lia.
Qed.
Lemma first_missing_seq c : first_missing (seq 1 c) = Some (c + 1).
Proof.
  destruct (C193_first_missing (seq 1 c)) as (m & E & M1 & M2 & M3). rewrite E. f_equal. rewrite in_seq in M2.
  destruct (Nat.lt_trichotomy m (c + 1)) as [L|[L|L]]; [exfalso; apply M2; lia|exact L|]. exfalso. specialize (M3 (c + 1) ltac:(lia)). apply in_seq in M3. lia.
Qed.
(** For horizons 1 .. c (an integer horizon), every step asked for is forecast; the forecasts fill whole passes. *)
Theorem C194_all_steps_partial : forall c n, 1 <= c -> exists fuel out q, predict fuel (seq 1 c) n = Some out /\
  1 <= q /\ n <= q * c /\ (q = 1 \/ (q - 1) * c < n) /\ forall k, lookup k out <> None <-> 1 <= k <= q * c.
Proof.
  intros c n C1.
  assert (X : forall fuel i covered res, n <= i * c + fuel -> 1 <= i -> (i = 1 \/ (i - 1) * c < n) ->
    (forall k, In k covered <-> 1 <= k <= i * c) -> (forall k, In k (map fst res) <-> 1 <= k <= i * c) ->
    exists out q, iterate fuel (seq 1 c) (seq 1 n) covered i res = Some out /\ 1 <= q /\ n <= q * c /\ (q = 1 \/ (q - 1) * c < n) /\ forall k, lookup k out <> None <-> 1 <= k <= q * c).
  { induction fuel as [|fuel IH]; intros i covered res F I L CV RS; cbn [MlarStepsModel.iterate].
    - replace (missing (seq 1 n) covered) with (@nil nat).
      + exists res, i. split; [reflexivity|]. split; [exact I|]. split; [lia|]. split; [exact L|]. intros k. rewrite lookup_in. apply RS.
      + symmetry. apply missing_nil. intros k K. apply in_seq in K. apply CV. lia.
    - destruct (missing (seq 1 n) covered) as [|x t] eqn:MS.
      + exists res, i. split; [reflexivity|]. split; [exact I|]. split; [|split; [exact L|intros k; rewrite lookup_in; apply RS]].
        destruct n as [|n]; [lia|]. apply (proj1 (missing_nil _ _)) in MS. assert (K : In (S n) covered) by (apply MS; apply in_seq; lia). apply CV in K. lia.
      + assert (NI : i * c < n). { destruct (Nat.lt_ge_cases (i * c) n) as [G|G]; [exact G|]. exfalso. assert (E : missing (seq 1 n) covered = []) by (apply missing_nil; intros k K; apply in_seq in K; apply CV; lia). congruence. }
        rewrite first_missing_seq, (next_origin_full res (i * c)) by (try exact RS; nia). apply IH; [nia|lia|right; cbn; lia| |].
        * intros k. rewrite in_app_iff, CV, in_map_iff. cbn [Nat.mul]. split.
          -- intros [H|(h & <- & H)]; [nia|]. apply in_seq in H. nia.
          -- intros H. destruct (Nat.le_gt_cases k (i * c)) as [G|G]; [left; lia|]. right. exists (k - i * c). rewrite in_seq. nia.
        * intros k. unfold combine_first. rewrite map_app, in_app_iff, RS. cbn [Nat.mul]. split.
          -- intros [H|H]; [nia|]. apply in_map_iff in H as (q & <- & H). apply filter_In in H as [H _]. apply in_map_iff in H as (h & <- & H). apply in_seq in H. cbn. nia.
          -- intros H. destruct (Nat.le_gt_cases k (i * c)) as [G|G]; [left; lia|]. right. apply in_map_iff.
             eexists (i * c + (k - i * c), _). split; [cbn; lia|]. apply filter_In. split.
             ++ unfold rows_from. apply in_map_iff. exists (k - i * c). split; [reflexivity|apply in_seq; nia].
             ++ cbn. apply negb_true_iff, mem_not. rewrite RS. lia. }
  destruct (X n 1 (seq 1 c) (rows_from V pass (seq 1 c) 0 [])) as (out & q & E & R); [lia|lia|left; reflexivity|intros k; rewrite in_seq; lia| |].
  - intros k. unfold rows_from. rewrite map_map. cbn. rewrite map_id, in_seq. lia.
  - exists n, out, q. split; [exact E|exact R].
Qed.
End Steps.
(** With gaps among the horizons it can end without a forecast for a step asked for: horizons 1, 3 and 6, eight steps. *)
Theorem C194_all_steps_refuted : forall (V : Type) (pass : nat -> list (nat * V) -> nat -> V),
  exists out, predict V pass 5 [1; 3; 6] 8 = Some out /\ lookup V 8 out = None /\ lookup V 10 out <> None.
Proof. intros V pass. eexists. split; [reflexivity|]. split; [reflexivity|discriminate]. Qed.
(** Asking for fewer steps than the horizon does not shorten the forecast. *)
Example C194_case : exists out, predict nat (fun g _ h => 100 * g + h) 5 [1; 2; 3] 5 = Some out /\ map fst out = [1; 2; 3; 4; 5; 6] /\ lookup nat 5 out = Some 302.
Proof. eexists. split; [reflexivity|]. split; reflexivity. Qed.

Print Assumptions C193_first_missing.
Print Assumptions C194_prefix.
Print Assumptions C194_terminates.
Print Assumptions C194_hangs_refuted.
Print Assumptions C194_all_steps_partial.
Print Assumptions C194_all_steps_refuted.
