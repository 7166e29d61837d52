(** Theorems about the one-sample proportion test (C63, C149). *)
From Coq Require Import Lqa.
From Verif Require Import Common BinomModel.
Open Scope nat_scope.

(** The probability that a number of successes in n trials satisfies [A]: the sum over all outcomes of n trials of the product
    of the probabilities of the trials. *)
Fixpoint outcomes (n : nat) : list (list bool) :=
  match n with O => [[]] | S n => map (cons true) (outcomes n) ++ map (cons false) (outcomes n) end.
Definition successes (o : list bool) : nat := length (filter (fun b => b) o).
Definition likelihood (p : Q) (o : list bool) : Q := fold_right (fun (b : bool) x => ((if b then p else 1 - p) * x)%Q) 1%Q o.
Definition prob (n : nat) (p : Q) (A : nat -> bool) : Q :=
  qsum (map (fun o => if A (successes o) then likelihood p o else 0%Q) (outcomes n)).

Lemma prob_S n p A : (prob (S n) p A == p * prob n p (fun k => A (S k)) + (1 - p) * prob n p A)%Q.
Proof.
  unfold prob. cbn [outcomes]. rewrite map_app, qsum_app, !map_map.
  assert (E : forall (B : nat -> bool) c, (qsum (map (fun o => if B (successes o) then (c * likelihood p o)%Q else 0%Q) (outcomes n)) == c * qsum (map (fun o => if B (successes o) then likelihood p o else 0%Q) (outcomes n)))%Q).
  { intros B c. induction (outcomes n) as [|o l IH]; cbn; [ring|]. rewrite IH. destruct (B (successes o)); ring. }
  rewrite <- (E (fun k => A (S k)) p), <- (E A (1 - p)%Q). reflexivity.
Qed.
Lemma pmf_zero p : forall n k, n < k -> (binom_pmf n p k == 0)%Q.
Proof.
  induction n as [|n IH]; intros k H; cbn; [destruct k; [lia|reflexivity]|]. rewrite IH by lia. destruct k as [|k]; [lia|]. rewrite IH by lia. ring.
Qed.
Lemma sumn_indicator p : forall n m (A : nat -> bool), n < m -> (prob n p A == sumn m (fun k => if A k then binom_pmf n p k else 0))%Q.
Proof.
  induction n as [|n IH]; intros m A H.
  - destruct m as [|m]; [lia|]. unfold prob. cbn [outcomes map successes likelihood fold_right qsum filter length].
    induction m as [|m IM]; cbn in *; [destruct (A 0); ring|]. rewrite <- IM by lia. destruct (A (S m)); ring.
  - rewrite prob_S. rewrite (IH m (fun k => A (S k))), (IH m A) by lia.
    assert (E : forall j, (sumn j (fun k => if A k then binom_pmf (S n) p k else 0) + (match j with O => 0 | S i => p * (if A j then binom_pmf n p i else 0) end) == p * sumn j (fun k => if A (S k) then binom_pmf n p k else 0) + (1 - p) * sumn j (fun k => if A k then binom_pmf n p k else 0))%Q).
    { induction j as [|j IJ]; [cbn; ring|]. cbn [sumn]. destruct j as [|j].
      - cbn [sumn]. destruct (A 0), (A 1); cbn; ring.
      - cbn [binom_pmf] in *. destruct (A (S j)) eqn:X, (A (S (S j))) eqn:Y; rewrite ?X, ?Y in *; lra. }
    specialize (E m). destruct m as [|m]; [lia|]. rewrite <- E. assert (Z : (binom_pmf n p m == 0)%Q) by (apply pmf_zero; lia).
    destruct (A (S m)); rewrite ?Z; ring.
Qed.
Lemma cdf_prob n p k : (binom_cdf n p k == prob n p (fun j => j <=? k))%Q.
Proof.
  rewrite (sumn_indicator p n (S (n + k))) by lia. unfold binom_cdf.
  assert (E : forall i, (sumn (S k + i) (fun j => if j <=? k then binom_pmf n p j else 0) == sumn (S k) (binom_pmf n p))%Q).
  { induction i as [|i IH].
    - rewrite Nat.add_0_r. apply sumn_ext. intros j J. destruct (Nat.leb_spec j k); [reflexivity|lia].
    - rewrite Nat.add_succ_r. rewrite <- IH. assert (K : k < S k + i) by lia. revert K. generalize (S k + i). intros m K. cbn [sumn].
      destruct (Nat.leb_spec m k); [lia|ring]. }
  replace (S (n + k)) with (S k + n) by lia. symmetry. apply E.
Qed.
Section P.
Variables (p : Q).
Hypothesis P01 : (0 <= p <= 1)%Q.
Lemma likelihood_nonneg : forall o, (0 <= likelihood p o)%Q.
Proof. induction o as [|b o IH]; cbn; [lra|]. apply Qmult_le_0_compat; [destruct b; lra|exact IH]. Qed.
Lemma prob_mono n (A B : nat -> bool) : (forall k, A k = true -> B k = true) -> (prob n p A <= prob n p B)%Q.
Proof.
  intros H. unfold prob. induction (outcomes n) as [|o l IH]; cbn; [lra|]. pose proof (likelihood_nonneg o). specialize (H (successes o)).
  destruct (A (successes o)); [rewrite H by reflexivity; lra|]. destruct (B (successes o)); lra.
Qed.
Lemma prob_total n : (prob n p (fun _ => true) == 1)%Q.
Proof. induction n as [|n IH]; [reflexivity|]. rewrite prob_S, IH. ring. Qed.
Lemma prob_not n A : (prob n p (fun k => negb (A k)) == 1 - prob n p A)%Q.
Proof.
  rewrite <- (prob_total n). unfold prob. induction (outcomes n) as [|o l IH]; cbn; [ring|]. rewrite IH. destruct (A (successes o)); cbn; ring.
Qed.
Lemma prob_ext n A B : (forall k, k <= n -> A k = B k) -> (prob n p A == prob n p B)%Q.
Proof.
  revert A B. induction n as [|n IH]; intros A B H; [unfold prob; cbn; rewrite H by lia; reflexivity|].
  rewrite !prob_S. rewrite (IH (fun k => A (S k)) (fun k => B (S k))) by (intros; apply H; lia). rewrite (IH A B) by (intros; apply H; lia). reflexivity.
Qed.
Lemma prob_or n A B : (forall k, A k && B k = false) -> (prob n p (fun k => A k || B k) == prob n p A + prob n p B)%Q.
Proof.
  intros H. unfold prob. induction (outcomes n) as [|o l IH]; cbn; [ring|]. rewrite IH. specialize (H (successes o)).
  destruct (A (successes o)), (B (successes o)); cbn in *; try discriminate; ring.
Qed.
Lemma search_spec f : forall fuel k, (exists j, k <= j <= k + fuel /\ f j = true) ->
  f (search f k fuel) = true /\ (forall j, k <= j < search f k fuel -> f j = false) /\ k <= search f k fuel <= k + fuel.
Proof.
  induction fuel as [|fuel IH]; intros k (j & L & F); cbn.
  - replace k with j by lia. split; [exact F|]. split; [intros i I; lia|lia].
  - destruct (f k) eqn:E; [split; [exact E|]; split; [intros i I; lia|lia]|].
    destruct (IH (S k)) as (H1 & H2 & H3); [exists j; split; [|exact F]; assert (j <> k) by congruence; lia|].
    split; [exact H1|]. split; [|lia]. intros i I. destruct (Nat.eq_dec i k) as [->|N]; [exact E|]. apply H2. lia.
Qed.
(** the quantile: at most q below it, at least q up to it *)
Lemma ppf_spec q n : (q <= 1)%Q -> let k := binom_ppf q n p in (q <= prob n p (fun j => (j <=? k)%nat))%Q /\ ((0 < q)%Q -> prob n p (fun j => (j <? k)%nat) < q)%Q.
Proof.
  intros H. cbv zeta. unfold binom_ppf. set (f := fun k => Qle_bool q (binom_cdf n p k)).
  destruct (search_spec f n 0) as (F & G & _).
  { exists n. split; [lia|]. unfold f. apply Qle_bool_iff. rewrite cdf_prob. rewrite (prob_ext n _ (fun _ => true)) by (intros k K; apply Nat.leb_le; exact K). rewrite prob_total. exact H. }
  split.
  - rewrite <- cdf_prob. apply Qle_bool_iff. exact F.
  - intros Q0. destruct (search f 0 n) as [|k] eqn:E.
    + assert (Z : (prob n p (fun _ => false) == 0)%Q) by (rewrite <- (prob_ext n (fun k => negb true)) by reflexivity; rewrite (prob_not n (fun _ => true)), prob_total; ring).
      rewrite (prob_ext n _ (fun _ => false)) by reflexivity. lra.
    + specialize (G k ltac:(lia)). unfold f in G. rewrite (prob_ext n _ (fun j => j <=? k)) by (intros j _; reflexivity). rewrite <- cdf_prob.
      apply Qnot_le_lt. intros L. apply Qle_bool_iff in L. congruence.
Qed.
End P.
(** If the proportion is p, the test at level alpha is to reject with probability at most alpha.  It always rejects with at
    least that probability, and one-sided upper and two-sided tests with more. *)
Theorem C63_level_refuted : forall n p alpha, (0 <= p <= 1)%Q -> (0 < alpha < 1)%Q ->
  (alpha <= prob n p (reject OneSidedLower alpha n p))%Q /\
  (alpha < prob n p (reject OneSidedUpper alpha n p))%Q /\
  (alpha < prob n p (reject TwoSided alpha n p))%Q.
Proof.
  intros n p a P A.
  assert (U : forall q, (0 < q < 1)%Q -> (q < prob n p (fun k => binom_ppf (1 - q) n p <=? k))%Q).
  { intros q Q. destruct (ppf_spec p (1 - q) n ltac:(lra)) as [_ H]. specialize (H ltac:(lra)).
    rewrite (prob_ext p n _ (fun k => negb (k <? binom_ppf (1 - q) n p))) by (intros k _; symmetry; rewrite <- Nat.leb_antisym; reflexivity).
    rewrite prob_not. lra. }
  assert (L : forall q, (0 < q < 1)%Q -> (q <= prob n p (fun k => k <=? binom_ppf q n p))%Q).
  { intros q Q. apply (ppf_spec p q n). lra. }
  split; [exact (L a A)|]. split; [exact (U a A)|].
  assert (A2 : (0 < a / 2 < 1)%Q) by (split; [apply Qlt_shift_div_l|apply Qlt_shift_div_r]; lra).
  assert (H2 : (a / 2 + a / 2 == a)%Q) by field.
  unfold reject, lower_critical, upper_critical. generalize dependent (a / 2)%Q. intros h A2 H2.
  destruct (Nat.lt_ge_cases (binom_ppf h n p) (binom_ppf (1 - h) n p)) as [D|D].
  - rewrite prob_or; [specialize (U _ A2); specialize (L _ A2); change (prob n p (fun k => binom_ppf (1 - h) n p <=? k)) with (prob n p (Nat.leb (binom_ppf (1 - h) n p))) in U; lra|]. intros k. destruct (Nat.leb_spec k (binom_ppf h n p)), (Nat.leb_spec (binom_ppf (1 - h) n p) k); try reflexivity. lia.
  - rewrite (prob_ext p n _ (fun _ => true)); [rewrite prob_total; lra|]. intros k _.
    destruct (Nat.leb_spec k (binom_ppf h n p)), (Nat.leb_spec (binom_ppf (1 - h) n p) k); try reflexivity. lia.
Qed.
(** By no more than the probability of one outcome, though, for the one-sided tests. *)
Theorem C63_level_partial : forall n p alpha, (0 <= p <= 1)%Q -> (0 < alpha < 1)%Q ->
  (exists k, prob n p (reject OneSidedLower alpha n p) < alpha + prob n p (Nat.eqb k))%Q /\
  (exists k, prob n p (reject OneSidedUpper alpha n p) <= alpha + prob n p (Nat.eqb k))%Q.
Proof.
  intros n p a P A. split.
  - exists (binom_ppf a n p). destruct (ppf_spec p a n ltac:(lra)) as [_ H]. specialize (H ltac:(lra)).
    unfold reject, lower_critical. rewrite (prob_ext p n _ (fun k => (k <? binom_ppf a n p) || (Nat.eqb (binom_ppf a n p) k))).
    + rewrite prob_or; [lra|]. intros k. destruct (Nat.ltb_spec k (binom_ppf a n p)), (Nat.eqb_spec (binom_ppf a n p) k); try reflexivity. lia.
    + intros k _. destruct (Nat.leb_spec k (binom_ppf a n p)), (Nat.ltb_spec k (binom_ppf a n p)), (Nat.eqb_spec (binom_ppf a n p) k); try reflexivity; lia.
  - exists (binom_ppf (1 - a) n p). destruct (ppf_spec p (1 - a) n ltac:(lra)) as [H _].
    unfold reject, upper_critical. rewrite (prob_ext p n _ (fun k => negb (k <=? binom_ppf (1 - a) n p) || (Nat.eqb (binom_ppf (1 - a) n p) k))).
    + rewrite prob_or; [rewrite prob_not; lra|]. intros k. destruct (Nat.leb_spec k (binom_ppf (1 - a) n p)), (Nat.eqb_spec (binom_ppf (1 - a) n p) k); try reflexivity. lia.
    + intros k _. destruct (Nat.leb_spec k (binom_ppf (1 - a) n p)), (Nat.leb_spec (binom_ppf (1 - a) n p) k), (Nat.eqb_spec (binom_ppf (1 - a) n p) k); try reflexivity; lia.
Qed.
(** For instance one trial, proportion one half, level 5 percent: rejects in half of all cases, and always if two-sided. *)
Example C63_case : (prob 1 (1 # 2) (reject OneSidedUpper (5 # 100) 1 (1 # 2)) == 1 # 2)%Q /\ (prob 1 (1 # 2) (reject TwoSided (5 # 100) 1 (1 # 2)) == 1)%Q.
Proof. split; vm_compute; reflexivity. Qed.

(** The significance reported: the probability of a result as low, for the lower test; *)
Theorem C149_pvalue_lower : forall n p k, (stat_sig OneSidedLower n p k == prob n p (fun j => j <=? k))%Q.
Proof. intros n p k. apply cdf_prob. Qed.
(** for the upper test the probability of a higher result, not of one as high: too small by the probability of the result. *)
Theorem C149_pvalue_refuted : forall n p k, (0 <= p <= 1)%Q ->
  (stat_sig OneSidedUpper n p k == prob n p (fun j => k <=? j) - prob n p (Nat.eqb k))%Q.
Proof.
  intros n p k P. unfold stat_sig, binom_sf. rewrite cdf_prob, <- prob_not.
  rewrite (prob_ext p n (fun j => k <=? j) (fun j => negb (j <=? k) || Nat.eqb k j)).
  - rewrite prob_or; [ring|]. intros j. destruct (Nat.leb_spec j k), (Nat.eqb_spec k j); try reflexivity. lia.
  - intros j _. destruct (Nat.leb_spec j k), (Nat.leb_spec k j), (Nat.eqb_spec k j); try reflexivity; lia.
Qed.
(** The decision agrees with the significance reported for the upper test; for the lower test every significant result is
    rejected, but others are too. *)
Lemma ppf_le n p q k : (0 <= p <= 1)%Q -> (0 < q)%Q -> (q <= 1)%Q -> (binom_ppf q n p <= k <-> (q <= binom_cdf n p k)%Q).
Proof.
  intros P Q0 Q1. destruct (ppf_spec p q n Q1) as [H1 H2]. specialize (H2 Q0). rewrite cdf_prob. split.
  - intros L. eapply Qle_trans; [exact H1|]. apply prob_mono; [exact P|]. intros j J. apply Nat.leb_le in J. apply Nat.leb_le. lia.
  - intros L. destruct (Nat.le_gt_cases (binom_ppf q n p) k) as [X|X]; [exact X|]. exfalso.
    assert (M : (prob n p (fun j => j <=? k) <= prob n p (fun j => j <? binom_ppf q n p))%Q).
    { apply prob_mono; [exact P|]. intros j J. apply Nat.leb_le in J. apply Nat.ltb_lt. lia. }
    lra.
Qed.
Theorem C149_upper_agrees : forall n p alpha k, (0 <= p <= 1)%Q -> (0 < alpha < 1)%Q ->
  (reject OneSidedUpper alpha n p k = true <-> (stat_sig OneSidedUpper n p k <= alpha)%Q).
Proof.
  intros n p a k P A. unfold reject, upper_critical, stat_sig, binom_sf. rewrite Nat.leb_le, ppf_le by (try exact P; lra). split; intros H; lra.
Qed.
Theorem C149_lower_partial : forall n p alpha k, (0 <= p <= 1)%Q -> (0 < alpha < 1)%Q ->
  ((stat_sig OneSidedLower n p k < alpha)%Q -> reject OneSidedLower alpha n p k = true) /\
  (reject OneSidedLower alpha n p k = true <-> (prob n p (fun j => (j <? k)%nat) < alpha)%Q).
Proof.
  intros n p a k P A.
  assert (E : reject OneSidedLower a n p k = true <-> (prob n p (fun j => (j <? k)%nat) < a)%Q).
  { unfold reject, lower_critical. rewrite Nat.leb_le. destruct k as [|k].
    - split; [intros _|lia]. rewrite (prob_ext p n _ (fun k => negb true)) by reflexivity. rewrite (prob_not p n (fun _ => true)), prob_total. lra.
    - rewrite (prob_ext p n _ (fun j => j <=? k)) by reflexivity. rewrite <- cdf_prob.
      pose proof (ppf_le n p a k P ltac:(lra) ltac:(lra)) as X. split.
      + intros L. apply Qnot_le_lt. intros Y. apply X in Y. lia.
      + intros L. destruct (Nat.le_gt_cases (S k) (binom_ppf a n p)) as [Y|Y]; [exact Y|]. assert (Z : binom_ppf a n p <= k) by lia. apply X in Z. lra. }
  split; [|exact E]. intros H. apply E. eapply Qle_lt_trans; [|exact H]. unfold stat_sig. rewrite cdf_prob. apply prob_mono; [exact P|].
  intros j J. apply Nat.ltb_lt in J. apply Nat.leb_le. lia.
Qed.
Theorem C149_lower_refuted : exists n p alpha k, (0 <= p <= 1)%Q /\ (0 < alpha < 1)%Q /\
  reject OneSidedLower alpha n p k = true /\ (alpha < stat_sig OneSidedLower n p k)%Q.
Proof. exists 4, (1 # 2)%Q, (5 # 100)%Q, 0. split; [lra|]. split; [lra|]. split; vm_compute; reflexivity. Qed.
(** Two-sided, the smaller of the two is reported without doubling: a result with a significance below alpha may be accepted. *)
Theorem C149_two_sided_refuted : exists n p alpha k, (0 <= p <= 1)%Q /\ (0 < alpha < 1)%Q /\
  reject TwoSided alpha n p k = false /\ (stat_sig TwoSided n p k < alpha)%Q.
Proof. exists 10, (1 # 2)%Q, (1 # 10)%Q, 7. split; [lra|]. split; [lra|]. split; vm_compute; reflexivity. Qed.

Print Assumptions C63_level_refuted.
Print Assumptions C63_level_partial.
Print Assumptions C149_pvalue_lower.
Print Assumptions C149_pvalue_refuted.
Print Assumptions C149_upper_agrees.
Print Assumptions C149_lower_partial.
Print Assumptions C149_lower_refuted.
Print Assumptions C149_two_sided_refuted.
