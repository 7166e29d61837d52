(** C44-C46, C85-C89: Bayesian online change point detection. *)
From Verif Require Import Common BocpdModel BocpdSpec BocpdProofs.
From Coq Require Import Lqa Lia Sorted.
Open Scope nat_scope.

(** *** C44 *)
(** the probability of run length [r] at point [i] is the share of the histories with that
    run length in the total weight of all histories *)
Theorem C44_exact_posterior : forall h pred T i r, (0 < h < 1)%Q -> (forall t k, (0 < pred t k)%Q) -> i < T ->
  (0 < total h pred i)%Q
  /\ (entry (rt_posterior h pred T) i r * total h pred i == total_run h pred i r)%Q.
Proof.
  intros h pred T i r Hh Hp H. pose proof (total_pos h pred i Hh Hp) as P. split; [exact P|].
  rewrite rt_entry by exact H. rewrite posterior_nth by assumption. field. lra.
Qed.
Theorem C44_distribution : forall h pred T i, (0 < h < 1)%Q -> (forall t k, (0 < pred t k)%Q) -> i < T ->
  length (nth i (rt_posterior h pred T) []) = T
  /\ (qsum (nth i (rt_posterior h pred T) []) == 1)%Q
  /\ (forall r, r <= i -> (0 < entry (rt_posterior h pred T) i r <= 1)%Q)
  /\ (forall r, i < r -> entry (rt_posterior h pred T) i r = 0%Q).
Proof.
  intros h pred T i Hh Hp H.
  assert (S1 : (qsum (nth i (rt_posterior h pred T) []) == 1)%Q) by (apply rt_row_sum; assumption).
  split; [rewrite rt_row by exact H; apply pad_len; rewrite posterior_len; lia|]. split; [exact S1|]. split.
  - intros r Hr. pose proof (total_pos h pred i Hh Hp) as P. pose proof (total_run_pos h pred i r Hh Hp Hr) as R.
    rewrite rt_entry, posterior_nth by assumption. split.
    + apply Qlt_shift_div_l; [exact P|]. lra.
    + apply Qle_shift_div_r; [exact P|]. rewrite Qmult_1_l, total_split.
      assert (G : forall n (f : nat -> Q), (forall j, 0 <= f j)%Q -> r < n -> (f r <= sumn n f)%Q).
      { induction n as [|n IH]; intros f Hf Hn; [lia|]. cbn [sumn]. specialize (Hf n) as Hn'.
        destruct (Nat.eq_dec r n) as [->|Ne].
        - assert (0 <= sumn n f)%Q by (clear - Hf; induction n; cbn [sumn]; [lra|specialize (Hf n); lra]). lra.
        - specialize (IH f Hf ltac:(lia)). lra. }
      apply G; [intros; apply total_run_nonneg; assumption|lia].
  - intros r Hr. rewrite rt_entry by exact H. apply nth_overflow. rewrite posterior_len. lia.
Qed.
Definition bump (t k : nat) : Q := match t, k with 2, 1 => (4 # 3)%Q | _, _ => 1%Q end.
Example C44_case : exists h (pred : nat -> nat -> Q), (0 < h < 1)%Q /\ (forall t k, (0 < pred t k)%Q)
  /\ (entry (rt_posterior h pred 3) 2 0 == 1 # 4)%Q /\ (entry (rt_posterior h pred 3) 2 1 == 3 # 20)%Q
  /\ (entry (rt_posterior h pred 3) 2 2 == 3 # 5)%Q /\ (total h pred 2 == 5 # 4)%Q.
Proof.
  exists (1 # 4)%Q, bump. split; [lra|]. split.
  - intros [|[|[|t]]] [|[|k]]; reflexivity.
  - repeat split; vm_compute; reflexivity.
Qed.

(** *** C45 *)
Definition changes_above (thr : Q) (o : output) : Prop :=
  StronglySorted lt (change_points o)
  /\ forall i, In i (change_points o) <-> i < length (change_prob o) /\ (thr < nth i (change_prob o) 0)%Q.
Lemma where_changes thr l M : changes_above thr (MkOut l (where_above thr l) M).
Proof. split; [apply sorted_seq_filter|]. intros i. apply where_above_spec. Qed.
(** aggregated: the largest probability, over the times from [i] on, that the current run
    started at [i] *)
Theorem C45_aggregated : forall thr h lag pred T, exists o, detector true thr h lag pred T = Some o
  /\ length (change_prob o) = T /\ changes_above thr o
  /\ (forall i, i < T -> i = 0 -> nth i (change_prob o) 0%Q = 0%Q)
  /\ forall i, i < T -> 1 <= i ->
       (forall j, i <= j < T -> (entry (rt_posterior h pred T) j (j - i) <= nth i (change_prob o) 0)%Q)
       /\ exists j, i <= j < T /\ nth i (change_prob o) 0%Q = entry (rt_posterior h pred T) j (j - i).
Proof.
  intros thr h lag pred T. eexists. split; [reflexivity|].
  split; [cbn [change_prob agg_cppprob fst]; rewrite map_length; apply seq_length|].
  split; [apply where_changes|]. cbn [change_prob]. split.
  - intros i Hi E. exact (proj1 (agg_prob_spec h pred T i Hi) E).
  - intros i Hi H1. destruct (proj2 (agg_prob_spec h pred T i Hi) H1) as [A (k & Hk & B)].
    cbn [agg_cppprob fst] in A, B. split.
    + intros j Hj. specialize (A (j - i)). replace (i + (j - i)) with j in A by lia. apply A. lia.
    + exists (i + k). split; [lia|]. replace (i + k - i) with k by lia. exact B.
Qed.
(** with a lag: the probability, [lag] points later, that the run started at [i] *)
Theorem C45_lagged : forall thr h lag pred T,
  (T <= lag -> detector false thr h lag pred T = None)
  /\ (lag < T -> exists o, detector false thr h lag pred T = Some o
       /\ length (change_prob o) = T /\ changes_above thr o
       /\ forall i, i < T -> nth i (change_prob o) 0%Q =
            if Nat.eqb i 0 then 0%Q else if Nat.ltb (i + lag) T then entry (rt_posterior h pred T) (i + lag) lag else 0%Q).
Proof.
  intros thr h lag pred T. split; intros H; unfold detector, construct_output.
  - destruct (Nat.ltb_spec lag T); [lia|reflexivity].
  - destruct (Nat.ltb_spec lag T); [|lia]. eexists. split; [reflexivity|].
    split; [cbn [change_prob]; unfold lag_probs; rewrite set_nth_len, app_length, map_length, seq_length, repeat_length; lia|].
    split; [apply where_changes|]. intros i Hi. apply lag_probs_nth; assumption.
Qed.
Theorem C45_probabilities : forall agg thr h lag pred T o, (0 < h < 1)%Q -> (forall t k, (0 < pred t k)%Q) ->
  detector agg thr h lag pred T = Some o -> forall i, (0 <= nth i (change_prob o) 0 <= 1)%Q.
Proof.
  intros agg thr h lag pred T o Hh Hp E i.
  assert (U : forall a b, a < T -> (0 <= entry (rt_posterior h pred T) a b <= 1)%Q).
  { intros a b Ha. destruct (C44_distribution h pred T a Hh Hp Ha) as (_ & _ & D1 & D2).
    destruct (Nat.le_gt_cases b a); [specialize (D1 b ltac:(assumption)); lra|rewrite D2 by assumption; lra]. }
  destruct (Nat.lt_ge_cases i T) as [Hi|Hi].
  - destruct agg.
    + destruct (C45_aggregated thr h lag pred T) as (o' & E' & _ & _ & Z & A). rewrite E in E'. injection E' as <-.
      destruct (Nat.eq_dec i 0) as [->|N]; [rewrite (Z 0 Hi eq_refl); lra|].
      destruct (A i Hi ltac:(lia)) as [_ (j & Hj & ->)]. apply U. lia.
    + destruct (C45_lagged thr h lag pred T) as [N A].
      destruct (Nat.lt_ge_cases lag T) as [HL|HL]; [|rewrite (N HL) in E; discriminate].
      destruct (A HL) as (o' & E' & _ & _ & V). rewrite E in E'. injection E' as <-. rewrite (V i Hi).
      destruct (Nat.eqb i 0); [lra|]. destruct (Nat.ltb_spec (i + lag) T); [apply U; assumption|lra].
  - rewrite nth_overflow; [lra|]. destruct agg.
    + destruct (C45_aggregated thr h lag pred T) as (o' & E' & L & _). rewrite E in E'. injection E' as <-. lia.
    + destruct (C45_lagged thr h lag pred T) as [N A].
      destruct (Nat.lt_ge_cases lag T) as [HL|HL]; [|rewrite (N HL) in E; discriminate].
      destruct (A HL) as (o' & E' & L & _). rewrite E in E'. injection E' as <-. lia.
Qed.
Definition jump (t k : nat) : Q := match t, k with 3, 2 => (1 # 100)%Q | 3, 1 => (1 # 100)%Q | _, _ => 1%Q end.
Example C45_case : option_map change_points (detector true (1 # 10) (1 # 20) 2 jump 5) = Some [2].
Proof. vm_compute. reflexivity. Qed.

(** *** C46 *)
Theorem C46_matrix_lagged_partial : forall thr h lag pred T o,
  detector false thr h lag pred T = Some o -> run_length_prob o = rt_posterior h pred T.
Proof.
  intros thr h lag pred T o E. unfold detector, construct_output in E. destruct (Nat.ltb lag T); [|discriminate].
  injection E as <-. reflexivity.
Qed.
(** with aggregation (the default) every row of the matrix handed out has lost the
    probability that no change happened: no row sums to one *)
Theorem C46_matrix_aggregated_refuted : forall thr h lag pred T o i, (0 < h < 1)%Q -> (forall t k, (0 < pred t k)%Q) ->
  detector true thr h lag pred T = Some o -> i < T ->
  (qsum (nth i (run_length_prob o) []) == 1 - entry (rt_posterior h pred T) i i)%Q
  /\ (qsum (nth i (run_length_prob o) []) < 1)%Q.
Proof.
  intros thr h lag pred T o i Hh Hp E Hi. unfold detector, construct_output in E.
  cbn [agg_cppprob] in E. injection E as <-. cbn [run_length_prob].
  rewrite fill_row by (rewrite rt_len; exact Hi). rewrite set_nth_sum, rt_row_sum by assumption.
  split; [reflexivity|]. destruct (C44_distribution h pred T i Hh Hp Hi) as (_ & _ & D & _).
  specialize (D i (le_n i)). unfold entry in D. lra.
Qed.
Example C46_case : option_map (fun o => nth 0 (run_length_prob o) []) (detector true (1 # 2) (1 # 10) 2 jump 4) = Some [0; 0; 0; 0]%Q.
Proof. vm_compute. reflexivity. Qed.

(** *** C85 *)
(** Normal data with known precision: given the last [r+1] points the predictive
    distribution should have the conjugate mean (mu0 lam0 + lam * sum) / (lam0 + (r+1) lam).
    The prior mean never enters. *)
Theorem C85_prior_mean_refuted : forall maxT mu0 lam0 lam xs r, length xs <= maxT -> r < length xs ->
  (0 < lam0)%Q -> (0 < lam)%Q -> ~ (mu0 == 0)%Q ->
  let s := nk_feed lam xs (nk_init maxT mu0 lam0) in
  let prec := (lam0 + inject_Z (Z.of_nat (S r)) * lam)%Q in
  ~ (nth r (nk_pred_mean (length xs) s) 0 == (mu0 * lam0 + lam * qsum (lastn (S r) xs)) / prec)%Q.
Proof.
  intros maxT mu0 lam0 lam xs r H Hr H0 H1 Hm s prec E.
  destruct (nk_predicts maxT mu0 lam0 lam xs r H Hr) as [A _]. fold s prec in A. rewrite A in E.
  assert (P : (0 < prec)%Q).
  { unfold prec. assert (0 < inject_Z (Z.of_nat (S r)))%Q by (rewrite <- (Zlt_Qlt 0); lia).
    assert (0 < inject_Z (Z.of_nat (S r)) * lam)%Q by (apply Qmult_lt_0_compat; assumption). lra. }
  assert (Z : (mu0 * lam0 / prec == 0)%Q).
  { setoid_replace (mu0 * lam0 / prec)%Q with ((mu0 * lam0 + lam * qsum (lastn (S r) xs)) / prec - lam * qsum (lastn (S r) xs) / prec)%Q
      by (field; lra). rewrite <- E. ring. }
  assert (W : (mu0 * lam0 == 0)%Q).
  { rewrite <- (Qmult_div_r (mu0 * lam0) prec) by lra. rewrite Z. ring. }
  apply Qmult_integral in W as [W|W]; [exact (Hm W)|lra].
Qed.
(** what it is: the conjugate update for prior mean zero, with the right variance *)
Theorem C85_conjugate_partial : forall maxT mu0 lam0 lam xs r, length xs <= maxT -> r < length xs ->
  let s := nk_feed lam xs (nk_init maxT mu0 lam0) in
  let prec := (lam0 + inject_Z (Z.of_nat (S r)) * lam)%Q in
  (nth r (nk_pred_mean (length xs) s) 0 == (0 * lam0 + lam * qsum (lastn (S r) xs)) / prec)%Q
  /\ (nth r (nk_pred_var (length xs) s) 0 == 1 / prec + 1 / lam)%Q
  /\ length (nk_pred_mean (length xs) s) = length xs.
Proof.
  intros maxT mu0 lam0 lam xs r H Hr s prec. destruct (nk_predicts maxT mu0 lam0 lam xs r H Hr) as (A & B & C).
  split; [|split; [exact B|exact C]]. fold s prec in A. rewrite A.
  setoid_replace (0 * lam0 + lam * qsum (lastn (S r) xs))%Q with (lam * qsum (lastn (S r) xs))%Q by ring. reflexivity.
Qed.
Example C85_case : let s := nk_feed 1 [10; 10]%Q (nk_init 5 10 2) in
  length (nk_pred_mean 2 s) = 2 /\ (nth 1 (nk_pred_mean 2 s) 0 == 5)%Q.
Proof. split; vm_compute; reflexivity. Qed.

(** *** C86 *)
(** Poisson counts with a Gamma(alpha, beta) prior on the rate: the predictive negative
    binomial of run length index [r] has the mean of the posterior rate given the last
    [r+1] counts, (alpha + sum) / (beta + r + 1), and the variance mean + mean / (beta + r + 1) *)
Theorem C86_conjugate : forall alpha beta xs r, (0 < beta)%Q -> r < length xs ->
  let s := po_feed alpha beta xs po_init in
  let n := nth r (po_n s) 0%Q in let p := nth r (po_p s) 0%Q in
  let k := inject_Z (Z.of_nat (S r)) in
  let mean := ((alpha + qsum (lastn (S r) xs)) / (beta + k))%Q in
  (0 < p < 1)%Q /\ (nbinom_mean n p == mean)%Q /\ (nbinom_var n p == mean + mean / (beta + k))%Q
  /\ length (po_n s) = length xs /\ length (po_p s) = length xs.
Proof.
  intros alpha beta xs r Hb Hr s n p k mean.
  destruct (po_predicts alpha beta xs r Hr) as (A & B & C & D). fold s in A, B, C, D. fold n in A. fold p k in B.
  assert (Hk : (0 < k)%Q) by (unfold k; rewrite <- (Zlt_Qlt 0); lia). clearbody k.
  split; [|split; [|split; [|split; assumption]]].
  - rewrite B. split; [apply Qlt_shift_div_l; lra|apply Qlt_shift_div_r; lra].
  - unfold nbinom_mean, mean. rewrite A, B. field. split; lra.
  - unfold nbinom_var, mean. rewrite A, B. field. split; lra.
Qed.
Example C86_case : let s := po_feed 1 (1 # 20) [3; 0; 2]%Q po_init in
  (nth 1 (po_n s) 0 == 3)%Q /\ (nbinom_mean (nth 1 (po_n s) 0%Q) (nth 1 (po_p s) 0%Q) == 60 # 41)%Q.
Proof. split; vm_compute; reflexivity. Qed.

(** *** C87 *)
(** the number maximised when priors are chosen is the marginal likelihood of the points
    2, 3, ... given points 0 and 1; the likelihood of point 1 is left out *)
Theorem C87_predictive_partial : forall h pred T, (0 < h < 1)%Q -> (forall t k, (0 < pred t k)%Q) -> 2 <= T ->
  (posterior_predictive h pred T * total h pred 1 == total h pred (T - 1))%Q.
Proof.
  intros h pred T Hh Hp H. rewrite predictive_total by assumption. pose proof (total_pos h pred 1 Hh Hp). field. lra.
Qed.
(** so two predictive models that differ only for point 1 are indistinguishable *)
Theorem C87_first_point_refuted : forall h c T, (0 < h < 1)%Q -> (0 < c)%Q -> 2 <= T ->
  let pred := fun t (k : nat) => if Nat.eqb t 1 then c else 1%Q in
  (posterior_predictive h pred T == 1)%Q /\ (total h pred (T - 1) == c)%Q.
Proof.
  intros h c T Hh Hc H pred.
  assert (Hp : forall t k, (0 < pred t k)%Q) by (intros t k; unfold pred; destruct (Nat.eqb t 1); [exact Hc|lra]).
  assert (G : forall i, (total h pred i == if Nat.eqb i 0 then 1 else c)%Q).
  { induction i as [|i IH]; [vm_compute; reflexivity|].
    rewrite <- (Qmult_inj_r _ _ h) by lra. rewrite total_run_0_total, total_run_0.
    rewrite (qsum_ext _ (fun x => (pred (S i) 0%nat * h) * weight h pred x)%Q).
    - rewrite qsum_scale. fold (total h pred i). rewrite IH. unfold pred. cbn [Nat.eqb]. destruct i; cbn [Nat.eqb]; ring.
    - intros x _. unfold pred. ring. }
  pose proof (C87_predictive_partial h pred T Hh Hp H) as E. rewrite !G in E.
  destruct (Nat.eqb_spec (T - 1) 0); [lia|]. cbn [Nat.eqb] in E. split; [|rewrite G; destruct (Nat.eqb_spec (T - 1) 0); [lia|reflexivity]].
  rewrite <- (Qmult_inj_r _ _ c) by lra. rewrite E. ring.
Qed.
Example C87_case : (posterior_predictive (1 # 4) bump 4 == 5 # 4)%Q /\ (total (1 # 4) bump 3 == 5 # 4)%Q.
Proof. split; vm_compute; reflexivity. Qed.

(** *** C88 *)
(** the probability that a run starts at the current point is the prior, whatever the data *)
Theorem C88_new_run_is_prior : forall h pred T i, (0 < h < 1)%Q -> (forall t k, (0 < pred t k)%Q) -> S i < T ->
  (entry (rt_posterior h pred T) (S i) 0 == h)%Q.
Proof.
  intros h pred T i Hh Hp H. rewrite rt_entry by exact H. rewrite posterior_nth by assumption.
  rewrite <- total_run_0_total. pose proof (total_pos h pred (S i) Hh Hp). field. lra.
Qed.
(** so with lag 0 nothing is detected below a threshold of [h], and everything above it,
    and with aggregation every point but the first has at least probability [h] *)
Theorem C88_lag_zero_refuted : forall thr h pred T o, (0 < h < 1)%Q -> (forall t k, (0 < pred t k)%Q) ->
  detector false thr h 0 pred T = Some o ->
  ((h <= thr)%Q -> (0 <= thr)%Q -> change_points o = [])
  /\ ((0 <= thr)%Q -> (thr < h)%Q -> forall i, In i (change_points o) <-> 1 <= i < T).
Proof.
  intros thr h pred T o Hh Hp E. destruct (C45_lagged thr h 0 pred T) as [N A].
  destruct (Nat.lt_ge_cases 0 T) as [HL|HL]; [|rewrite (N HL) in E; discriminate].
  destruct (A HL) as (o' & E' & L & [_ W] & V). rewrite E in E'. injection E' as <-.
  assert (P : forall i, i < T -> (nth i (change_prob o) 0 == if Nat.eqb i 0 then 0 else h)%Q).
  { intros i Hi. rewrite (V i Hi). destruct i as [|i]; [reflexivity|]. cbn [Nat.eqb]. rewrite Nat.add_0_r.
    destruct (Nat.ltb_spec (S i) T); [|lia]. apply C88_new_run_is_prior; assumption. }
  split.
  - intros H1 H2. destruct (change_points o) as [|i t] eqn:C; [reflexivity|].
    destruct (proj1 (W i) (or_introl eq_refl)) as [Wi Wl]. rewrite L in Wi. rewrite P in Wl by exact Wi.
    destruct (Nat.eqb i 0); lra.
  - intros H1 H2 i. rewrite W, L. split.
    + intros [Hi Hl]. rewrite P in Hl by exact Hi. destruct i; cbn [Nat.eqb] in Hl; [lra|lia].
    + intros Hi. split; [lia|]. rewrite P by lia. destruct i; [lia|]. exact H2.
Qed.
Theorem C88_aggregated_at_least_prior : forall thr h lag pred T o, (0 < h < 1)%Q -> (forall t k, (0 < pred t k)%Q) ->
  detector true thr h lag pred T = Some o -> forall i, 1 <= i < T -> (h <= nth i (change_prob o) 0)%Q.
Proof.
  intros thr h lag pred T o Hh Hp E i Hi.
  destruct (C45_aggregated thr h lag pred T) as (o' & E' & _ & _ & _ & A). rewrite E in E'. injection E' as <-.
  destruct (A i (proj2 Hi) (proj1 Hi)) as [B _]. specialize (B i ltac:(lia)). rewrite Nat.sub_diag in B.
  destruct i as [|i]; [lia|]. rewrite C88_new_run_is_prior in B by (assumption || lia). exact B.
Qed.
Example C88_case : option_map change_points (detector false (1 # 2) (1 # 20) 0 jump 5) = Some [].
Proof. vm_compute. reflexivity. Qed.

(** *** C89 *)
(** more data: rows already computed stay as they are, lagged probabilities that were
    available stay as they are, aggregated ones only grow *)
Theorem C89_more_data : forall thr h lag pred T T' o o', T <= T' ->
  (detector true thr h lag pred T = Some o -> detector true thr h lag pred T' = Some o' ->
     forall i, i < T -> (nth i (change_prob o) 0 <= nth i (change_prob o') 0)%Q)
  /\ (detector false thr h lag pred T = Some o -> detector false thr h lag pred T' = Some o' ->
     forall i, i + lag < T -> nth i (change_prob o) 0%Q = nth i (change_prob o') 0%Q)
  /\ forall i r, i < T -> entry (rt_posterior h pred T) i r = entry (rt_posterior h pred T') i r.
Proof.
  intros thr h lag pred T T' o o' HT.
  assert (R : forall i r, i < T -> entry (rt_posterior h pred T) i r = entry (rt_posterior h pred T') i r).
  { intros i r Hi. rewrite !rt_entry by lia. reflexivity. }
  split; [|split; [|exact R]].
  - intros E E' i Hi. destruct (C45_aggregated thr h lag pred T) as (u & U & _ & _ & U0 & U1). rewrite E in U. injection U as <-.
    destruct (C45_aggregated thr h lag pred T') as (v & V & _ & _ & V0 & V1). rewrite E' in V. injection V as <-.
    destruct (Nat.eq_dec i 0) as [Z|Z]; [rewrite (U0 i Hi Z), (V0 i ltac:(lia) Z); lra|].
    destruct (U1 i Hi ltac:(lia)) as [_ (j & Hj & ->)]. rewrite R by lia. apply (proj1 (V1 i ltac:(lia) ltac:(lia))). lia.
  - intros E E' i Hi. destruct (C45_lagged thr h lag pred T) as [_ A]. destruct (A ltac:(lia)) as (u & U & _ & _ & U1).
    rewrite E in U. injection U as <-. destruct (C45_lagged thr h lag pred T') as [_ B]. destruct (B ltac:(lia)) as (v & V & _ & _ & V1).
    rewrite E' in V. injection V as <-. rewrite U1, V1 by lia. destruct (Nat.eqb i 0); [reflexivity|].
    destruct (Nat.ltb_spec (i + lag) T); [|lia]. destruct (Nat.ltb_spec (i + lag) T'); [|lia]. apply R. assumption.
Qed.
(** only ratios of densities matter: rescaling the densities of a point changes nothing *)
Theorem C89_density_units : forall h pred (c : nat -> Q) T i r, (0 < h < 1)%Q -> (forall t k, (0 < pred t k)%Q) ->
  (forall t, (0 < c t)%Q) -> i < T ->
  (entry (rt_posterior h (fun t k => c t * pred t k)%Q T) i r == entry (rt_posterior h pred T) i r)%Q.
Proof.
  intros h pred c T i r Hh Hp Hc Hi. set (pred' := fun t k => (c t * pred t k)%Q).
  assert (Hp' : forall t k, (0 < pred' t k)%Q) by (intros; apply Qmult_lt_0_compat; auto).
  rewrite !rt_entry, !posterior_nth by assumption.
  assert (G : forall i, exists C, (0 < C)%Q /\ forall x, length x = i -> (weight h pred' x == C * weight h pred x)%Q).
  { clear - Hc. induction i as [|i (C & P & IH)].
    - exists 1%Q. split; [lra|]. intros [|] L; [reflexivity|discriminate].
    - exists (C * c (S i))%Q. split; [apply Qmult_lt_0_compat; auto|]. intros [|b x] L; [discriminate|].
      injection L as L. cbn [weight length]. rewrite L, IH by exact L. unfold pred'. ring. }
  destruct (G i) as (C & P & W).
  assert (S1 : forall l, (forall x, In x l -> length x = i) -> (qsum (map (weight h pred') l) == C * qsum (map (weight h pred) l))%Q).
  { induction l as [|x l IH]; intros Hl; [cbn; ring|]. cbn [map qsum]. rewrite IH by (intros; apply Hl; right; assumption).
    rewrite W by (apply Hl; left; reflexivity). ring. }
  unfold total_run, total. rewrite !S1.
  - fold (total h pred i). pose proof (total_pos h pred i Hh Hp). field. split; lra.
  - intros x Hx. apply histories_all, Hx.
  - intros x Hx. apply filter_In in Hx as [Hx _]. apply histories_all, Hx.
Qed.
Example C89_case : (entry (rt_posterior (1 # 4) jump 4) 3 0 == entry (rt_posterior (1 # 4) (fun t k => 7 * jump t k)%Q 5) 3 0)%Q.
Proof. vm_compute. reflexivity. Qed.

Print Assumptions C44_exact_posterior.
Print Assumptions C44_distribution.
Print Assumptions C45_aggregated.
Print Assumptions C45_lagged.
Print Assumptions C45_probabilities.
Print Assumptions C46_matrix_lagged_partial.
Print Assumptions C46_matrix_aggregated_refuted.
Print Assumptions C85_prior_mean_refuted.
Print Assumptions C85_conjugate_partial.
Print Assumptions C86_conjugate.
Print Assumptions C87_predictive_partial.
Print Assumptions C87_first_point_refuted.
Print Assumptions C88_new_run_is_prior.
Print Assumptions C88_lag_zero_refuted.
Print Assumptions C88_aggregated_at_least_prior.
Print Assumptions C89_more_data.
Print Assumptions C89_density_units.
