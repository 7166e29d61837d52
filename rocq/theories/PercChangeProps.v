(** C71-C76: percentage change statistics and spikes. *)
From Coq Require Import Reals Lra Lia List Arith Bool.
Import ListNotations.
From Verif Require Import PercChangeModel PercChangeSpec PercChangeProofs.
Open Scope R_scope.

(** *** C71 *)
Theorem C71_pooled_statistic : forall cur prev corrected mc mp sc sp,
  testable cur prev -> mean_of mc cur -> mean_of mp prev -> squares_of sc cur -> squares_of sp prev ->
  let n := INR (length cur) in let m := INR (length prev) in
  (0 < sc + sp -> exists t, t_score cur prev corrected = Some t
     /\ t * (sqrt ((sc + sp) / (n + m - 2)) * (if corrected then sqrt (1 / n + 1 / m) else 1)) = mc - mp)
  /\ (sc + sp = 0 -> t_score cur prev corrected = None).
Proof.
  intros cur prev corrected mc mp sc sp H M1 M2 S1 S2 n m.
  apply mean_of_unique in M1 as ->. apply mean_of_unique in M2 as ->.
  apply squares_unique in S1 as ->. apply squares_unique in S2 as ->.
  rewrite t_score_denom by exact H.
  assert (D : sqrt ((sse cur + sse prev) / (n + m - 2)) * (if corrected then sqrt (1 / n + 1 / m) else 1)
              = denom cur prev corrected).
  { unfold denom, n, m. fold (len cur). fold (len prev).
    rewrite (Rplus_comm (sse cur)), (Rplus_comm (len cur)), (Rplus_comm (1 / len cur)). reflexivity. }
  split; intros S.
  - pose proof (denom_pos cur prev corrected H ltac:(lra)) as P. rewrite rdiv_some by lra.
    eexists. split; [reflexivity|]. rewrite D. field. lra.
  - rewrite (denom_zero cur prev corrected) by lra. apply rdiv_none.
Qed.
Theorem C71_shift_invariant : forall c cur prev corrected, testable cur prev ->
  t_score (shift c cur) (shift c prev) corrected = t_score cur prev corrected.
Proof. exact t_shift. Qed.
Theorem C71_scale_invariant : forall k cur prev corrected, 0 < k -> testable cur prev ->
  t_score (scale k cur) (scale k prev) corrected = t_score cur prev corrected.
Proof. exact t_scale. Qed.
Theorem C71_swap_negates : forall cur prev corrected, testable cur prev ->
  t_score prev cur corrected = option_map Ropp (t_score cur prev corrected).
Proof. exact t_swap. Qed.
(** Small changes are clipped to 0, everything else keeps its statistic. *)
Theorem C71_clipping : forall cur prev corrected min_change mc mp,
  mean_of mc cur -> mean_of mp prev ->
  score cur prev corrected min_change
  = if Req_EM_T mp 0 then t_score cur prev corrected
    else if Rlt_dec (Rabs ((mc / mp - 1) * 100)) min_change then Some 0
    else t_score cur prev corrected.
Proof.
  intros cur prev corrected min_change mc mp M1 M2.
  apply mean_of_unique in M1 as ->. apply mean_of_unique in M2 as ->.
  unfold score, small_change, perc_change, ratio, rdiv, eqb0, ltb.
  destruct (Req_EM_T (rmean prev) 0); [reflexivity|]. cbn [option_map].
  destruct (Rlt_dec _ min_change); reflexivity.
Qed.
Lemma mean_case : mean_of 3 [2; 4] /\ mean_of 6 [5; 7] /\ squares_of 2 [2; 4] /\ squares_of 2 [5; 7]
                  /\ testable [5; 7] [2; 4].
Proof.
  assert (A : mean_of 3 [2; 4]) by (split; [discriminate|cbn; lra]).
  assert (B : mean_of 6 [5; 7]) by (split; [discriminate|cbn; lra]).
  repeat split; try discriminate; try (cbn; lra); try (cbn; lia).
  - exists 3. split; [exact A|cbn; lra].
  - exists 6. split; [exact B|cbn; lra].
Qed.
Example C71_case : exists t, t_score [5; 7] [2; 4] false = Some t /\ t = 3 / sqrt 2.
Proof.
  destruct mean_case as (A & B & C & D & E).
  destruct (C71_pooled_statistic _ _ false _ _ _ _ E B A D C) as [(t & H1 & H2) _]; [lra|].
  exists t. split; [exact H1|].
  replace ((2 + 2) / (INR (length [5; 7]) + INR (length [2; 4]) - 2)) with 2 in H2 by (cbn; field).
  assert (sqrt 2 <> 0) by (pose proof sqrt2_neq_0; assumption).
  replace 3 with (6 - 3) by lra. rewrite <- H2. field. assumption.
Qed.

(** *** C72 *)
Theorem C72_score_sign : forall cur prev corrected t mc mp,
  testable cur prev -> mean_of mc cur -> mean_of mp prev -> t_score cur prev corrected = Some t ->
  (0 < t <-> mp < mc) /\ (t < 0 <-> mc < mp).
Proof.
  intros cur prev corrected t mc mp H M1 M2 E.
  apply mean_of_unique in M1 as ->. apply mean_of_unique in M2 as ->.
  rewrite t_score_denom in E by exact H. apply rdiv_inv in E as [N ->].
  pose proof (denom_nonneg cur prev corrected) as P.
  set (d := denom cur prev corrected) in *. assert (Q : 0 < / d) by (apply Rinv_0_lt_compat; lra).
  unfold Rdiv. set (a := rmean cur - rmean prev).
  assert (X : 0 < a * / d <-> 0 < a).
  { split; intros; [|apply Rmult_lt_0_compat; assumption].
    destruct (Rlt_dec 0 a); [assumption|]. exfalso.
    assert (0 <= (- a) * / d) by (apply Rmult_le_pos; lra). lra. }
  assert (Y : a * / d < 0 <-> a < 0).
  { split; intros.
    - destruct (Rlt_dec a 0); [assumption|]. exfalso. assert (0 <= a * / d) by (apply Rmult_le_pos; lra). lra.
    - assert (0 < (- a) * / d) by (apply Rmult_lt_0_compat; lra). lra. }
  rewrite X, Y. unfold a. split; split; lra.
Qed.
Theorem C72_direction_partial : forall cur prev mc mp,
  mean_of mc cur -> mean_of mp prev -> 0 < mp -> (direction_up cur prev = true <-> mp < mc).
Proof.
  intros cur prev mc mp M1 M2 P.
  apply mean_of_unique in M1 as ->. apply mean_of_unique in M2 as ->.
  unfold direction_up, perc_change, ratio. rewrite rdiv_some by lra. cbn [option_map]. rewrite ltb_true.
  assert (I : 0 < / rmean prev) by (apply Rinv_0_lt_compat; lra).
  assert (E : (rmean cur / rmean prev - 1) * 100 = (rmean cur - rmean prev) * / rmean prev * 100) by (field; lra).
  rewrite E. split; intros.
  - destruct (Rlt_dec (rmean prev) (rmean cur)); [assumption|]. exfalso.
    assert (0 <= (rmean prev - rmean cur) * / rmean prev) by (apply Rmult_le_pos; lra). lra.
  - assert (0 < (rmean cur - rmean prev) * / rmean prev) by (apply Rmult_lt_0_compat; lra). lra.
Qed.
(** With a negative baseline the reported direction is the opposite of the change. *)
Theorem C72_negative_baseline_refuted : forall cur prev mc mp,
  mean_of mc cur -> mean_of mp prev -> mp < 0 -> (direction_up cur prev = true <-> mc < mp).
Proof.
  intros cur prev mc mp M1 M2 P.
  apply mean_of_unique in M1 as ->. apply mean_of_unique in M2 as ->.
  unfold direction_up, perc_change, ratio. rewrite rdiv_some by lra. cbn [option_map]. rewrite ltb_true.
  assert (I : / rmean prev < 0) by (apply Rinv_lt_0_compat; lra).
  assert (E : (rmean cur / rmean prev - 1) * 100 = (rmean prev - rmean cur) * (- / rmean prev) * 100) by (field; lra).
  rewrite E. split; intros.
  - destruct (Rlt_dec (rmean cur) (rmean prev)); [assumption|]. exfalso.
    assert (0 <= (rmean cur - rmean prev) * - / rmean prev) by (apply Rmult_le_pos; lra). lra.
  - assert (0 < (rmean prev - rmean cur) * - / rmean prev) by (apply Rmult_lt_0_compat; lra). lra.
Qed.
Example C72_case : direction_up [-1; -1] [-2; -2] = false /\ direction_up [2; 4] [1; 1] = true.
Proof.
  assert (M1 : mean_of (-1) [-1; -1]) by (split; [discriminate|cbn; lra]).
  assert (M2 : mean_of (-2) [-2; -2]) by (split; [discriminate|cbn; lra]).
  assert (M3 : mean_of 3 [2; 4]) by (split; [discriminate|cbn; lra]).
  assert (M4 : mean_of 1 [1; 1]) by (split; [discriminate|cbn; lra]).
  split.
  - destruct (direction_up [-1; -1] [-2; -2]) eqn:E; [|reflexivity].
    apply (C72_negative_baseline_refuted _ _ _ _ M1 M2) in E; lra.
  - apply (C72_direction_partial _ _ _ _ M3 M4); lra.
Qed.

(** *** C73 *)
(** Both intervals contain their centre and are symmetric around it; the ratio interval
    and [stat_sig] agree. *)
Theorem C73_intervals : forall cur prev corrected nq tq mc mp,
  nq <= 0 -> tq <= 0 -> mean_of mc cur -> mean_of mp prev ->
  (ci_lower cur prev corrected tq <= mp <= ci_upper cur prev corrected tq
   /\ ci_upper cur prev corrected tq - mp = mp - ci_lower cur prev corrected tq)
  /\ (forall lo up, perc_bounds cur prev nq = Some (lo, up) ->
        let change := (mc / mp - 1) * 100 in
        lo <= change <= up /\ up - change = change - lo
        /\ (stat_sig cur prev nq = false <-> lo < 0 < up)).
Proof.
  intros cur prev corrected nq tq mc mp Hn Ht M1 M2.
  apply mean_of_unique in M1 as ->. apply mean_of_unique in M2 as ->. split.
  - unfold ci_lower, ci_upper.
    assert (P : 0 <= pooled_stddev cur prev corrected).
    { unfold pooled_stddev. destruct (_ || _)%bool; [lra|]. cbv zeta.
      destruct corrected; [apply Rmult_le_pos|]; apply sqrt_pos. }
    assert (0 <= - tq * pooled_stddev cur prev corrected) by (apply Rmult_le_pos; lra). split; [lra|ring].
  - intros lo up E change. unfold perc_bounds in E.
    destruct (delta_method cur prev nq) as [[l u]|] eqn:D; [|discriminate].
    cbn [option_map fst snd] in E. injection E as <- <-.
    destruct (delta_order _ _ _ _ _ Hn D) as (r & R & O & S).
    unfold ratio in R. apply rdiv_inv in R as [N ->]. unfold change.
    split; [lra|]. split; [lra|].
    unfold stat_sig. rewrite D. rewrite negb_false_iff, andb_true_iff, !ltb_true. lra.
Qed.
(** Two identical constant series, and any comparison with a single point on one side,
    are reported as significantly different. *)
Theorem C73_constant_refuted : forall c n m nq,
  c <> 0 -> (2 <= n)%nat -> (2 <= m)%nat ->
  stat_sig (repeat c n) (repeat c m) nq = true
  /\ perc_change (repeat c n) (repeat c m) = Some 0.
Proof.
  intros c n m nq Hc Hn Hm.
  assert (R : ratio (repeat c n) (repeat c m) = Some 1).
  { unfold ratio. rewrite !rmean_repeat by lia. rewrite rdiv_some by exact Hc. f_equal. field. exact Hc. }
  split.
  - unfold stat_sig, delta_method. rewrite R, cov_repeat by assumption. cbv zeta.
    rewrite !rvar_repeat, !rmean_repeat by lia.
    replace (0 / (len (repeat c n) * c ^ 2) - 2 * (c * 0) / c ^ 3 + 0 * c ^ 2 / (len (repeat c m) * c ^ 4)) with 0
      by (unfold Rdiv; ring).
    rewrite Rabs_R0, sqrt_0, Rmult_0_r, Rplus_0_r, Rminus_0_r.
    assert (E : ltb 1 1 = false) by (apply ltb_false; lra). rewrite E. reflexivity.
  - unfold perc_change. rewrite R. cbn [option_map]. f_equal. lra.
Qed.
Theorem C73_single_point_refuted : forall cur prev nq,
  (length cur <= 1)%nat \/ (length prev <= 1)%nat -> stat_sig cur prev nq = true.
Proof.
  intros cur prev nq H. unfold stat_sig, delta_method.
  assert (E : calc_cov cur prev = None).
  { unfold calc_cov. destruct (Nat.leb_spec (Nat.min (length cur) (length prev)) 1); [reflexivity|lia]. }
  rewrite E. destruct (ratio cur prev); reflexivity.
Qed.
Example C73_case : stat_sig [7; 7; 7] [7; 7] (-2) = true /\ stat_sig [1] [1; 1; 1] (-2) = true
  /\ exists lo up, perc_bounds [1; 3] [1; 3] (-2) = Some (lo, up).
Proof.
  split; [exact (proj1 (C73_constant_refuted 7 3 2 (-2) ltac:(lra) ltac:(lia) ltac:(lia)))|].
  split; [apply C73_single_point_refuted; left; cbn; lia|].
  unfold perc_bounds, delta_method, ratio.
  rewrite rdiv_some by (unfold rmean, len; cbn; lra).
  unfold calc_cov. cbn [length Nat.min Nat.leb]. cbv zeta. cbn [option_map]. do 2 eexists. reflexivity.
Qed.

(** *** C74 *)
Theorem C74_rescaled : forall F quantile t p,
  symmetric_cdf F quantile -> two_sided_p F t <= p <= 1 ->
  let t' := rescaled quantile t p in
  two_sided_p F t' = p /\ Rabs t' <= Rabs t /\ 0 <= t * t'.
Proof.
  intros F quantile t p (Mono & Rng & Sym & Inv) [Hp1 Hp2] t'.
  assert (P : 0 < p). { unfold two_sided_p in Hp1. destruct (Rng (Rabs t)). lra. }
  assert (F0 : F 0 = 1 / 2). { pose proof (Sym 0) as X. rewrite Ropp_0 in X. lra. }
  assert (Le : forall x y, F x <= F y -> x <= y).
  { intros x y L. destruct (Rle_dec x y); [assumption|]. pose proof (Mono y x ltac:(lra)). lra. }
  unfold t', rescaled. destruct (ltb t 0) eqn:E.
  - apply ltb_true in E. pose proof (Inv (p / 2) ltac:(lra)) as Q.
    assert (N : quantile (p / 2) <= 0) by (apply Le; rewrite Q, F0; lra).
    assert (A : Rabs (quantile (p / 2)) = - quantile (p / 2)) by (apply Rabs_left1, N).
    assert (T : two_sided_p F (quantile (p / 2)) = p) by (unfold two_sided_p; rewrite A, Sym, Q; lra).
    split; [exact T|]. split.
    + apply Le. unfold two_sided_p in T, Hp1. lra.
    + assert (0 <= (- t) * (- quantile (p / 2))) by (apply Rmult_le_pos; lra). lra.
  - apply ltb_false in E. pose proof (Inv (1 - p / 2) ltac:(lra)) as Q.
    assert (N : 0 <= quantile (1 - p / 2)) by (apply Le; rewrite Q, F0; lra).
    assert (A : Rabs (quantile (1 - p / 2)) = quantile (1 - p / 2)) by (apply Rabs_pos_eq, N).
    assert (T : two_sided_p F (quantile (1 - p / 2)) = p) by (unfold two_sided_p; rewrite A, Q; lra).
    split; [exact T|]. split.
    + apply Le. unfold two_sided_p in T, Hp1. lra.
    + apply Rmult_le_pos; lra.
Qed.
(** a distribution function with the required shape *)
Definition case_F (x : R) : R := 1 / 2 + x / (2 * (1 + Rabs x)).
Definition case_quantile (p : R) : R := (2 * p - 1) / (1 - Rabs (2 * p - 1)).
Example C74_case : symmetric_cdf case_F case_quantile
  /\ two_sided_p case_F 3 <= 1 / 2 <= 1 /\ rescaled case_quantile 3 (1 / 2) = 1.
Proof.
  assert (AP : forall x, 0 <= Rabs x) by apply Rabs_pos.
  split; [|split].
  - unfold symmetric_cdf, case_F, case_quantile. split; [|split; [|split]].
    + intros x y H. apply Rplus_lt_compat_l.
      assert (D : forall u v, 0 < u -> 0 < v -> x / u < y / v <-> x * v < y * u).
      { intros u v Hu Hv. split; intros L.
        - apply (Rmult_lt_compat_r (u * v)) in L; [|apply Rmult_lt_0_compat; assumption].
          replace (x / u * (u * v)) with (x * v) in L by (field; lra).
          replace (y / v * (u * v)) with (y * u) in L by (field; lra). exact L.
        - apply (Rmult_lt_reg_r (u * v)); [apply Rmult_lt_0_compat; assumption|].
          replace (x / u * (u * v)) with (x * v) by (field; lra).
          replace (y / v * (u * v)) with (y * u) by (field; lra). exact L. }
      apply D; [pose proof (AP x); lra|pose proof (AP y); lra|].
      unfold Rabs. destruct (Rcase_abs x), (Rcase_abs y); try nra.
    + intros x. pose proof (AP x) as A.
      assert (B : -1 < x / (1 + Rabs x) < 1).
      { split.
        - apply (Rmult_lt_reg_r (1 + Rabs x)); [lra|].
          replace (x / (1 + Rabs x) * (1 + Rabs x)) with x by (field; lra).
          unfold Rabs in *. destruct (Rcase_abs x); lra.
        - apply (Rmult_lt_reg_r (1 + Rabs x)); [lra|].
          replace (x / (1 + Rabs x) * (1 + Rabs x)) with x by (field; lra).
          unfold Rabs in *. destruct (Rcase_abs x); lra. }
      replace (x / (2 * (1 + Rabs x))) with ((x / (1 + Rabs x)) / 2) by (field; lra). lra.
    + intros x. rewrite Rabs_Ropp. pose proof (AP x). field. lra.
    + intros p Hp. set (y := 2 * p - 1).
      assert (Y : 0 < 1 - Rabs y). { unfold Rabs, y. destruct (Rcase_abs (2 * p - 1)); lra. }
      assert (Q : Rabs (y / (1 - Rabs y)) = Rabs y / (1 - Rabs y)).
      { unfold Rdiv. rewrite Rabs_mult, Rabs_inv. f_equal. f_equal. apply Rabs_pos_eq. lra. }
      rewrite Q. replace (y / (1 - Rabs y) / (2 * (1 + Rabs y / (1 - Rabs y)))) with (y / 2) by (field; lra).
      unfold y. lra.
  - unfold two_sided_p, case_F. rewrite (Rabs_pos_eq 3) by lra. rewrite (Rabs_pos_eq 3) by lra. lra.
  - unfold rescaled. assert (E : ltb 3 0 = false) by (apply ltb_false; lra). rewrite E.
    unfold case_quantile. replace (2 * (1 - 1 / 2 / 2) - 1) with (1 / 2) by lra.
    rewrite Rabs_pos_eq by lra. field.
Qed.

(** *** C75 *)
Theorem C75_same_score_partial : forall cur prev,
  testable cur prev -> t_score_multi cur prev true = t_score cur prev true.
Proof.
  intros cur prev H. unfold t_score_multi, t_score.
  destruct (testable_facts _ _ H) as (_ & _ & _ & _ & ->).
  destruct (_ || _)%bool; [reflexivity|].
  rewrite ttest_ind_denom, pooled_denom by exact H. reflexivity.
Qed.
(** Without the correction the multivariate score is another number: the univariate one
    divided by sqrt(1/n + 1/m). *)
Theorem C75_uncorrected_refuted : forall cur prev t,
  (2 <= length cur)%nat -> (2 <= length prev)%nat -> t_score cur prev false = Some t ->
  exists t', t_score_multi cur prev false = Some t'
    /\ t = t' * sqrt (1 / INR (length prev) + 1 / INR (length cur))
    /\ (t <> 0 -> (3 <= length cur)%nat -> t' <> t).
Proof.
  intros cur prev t Hc Hp E.
  assert (H : testable cur prev) by (unfold testable; lia).
  rewrite t_score_denom in E by exact H. apply rdiv_inv in E as [N ->].
  unfold t_score_multi. destruct (testable_facts _ _ H) as (A & B & _ & _ & ->).
  destruct (Nat.eqb_spec (length prev) 1); [lia|]. destruct (Nat.eqb_spec (length cur) 1); [lia|]. cbn [orb].
  rewrite ttest_ind_denom by exact H. pose proof (corr_pos _ _ H) as C.
  unfold denom in *. rewrite Rmult_1_r in *.
  set (s := sqrt ((sse prev + sse cur) / (len prev + len cur - 2))) in *.
  fold (len prev). fold (len cur). set (k := sqrt (1 / len prev + 1 / len cur)) in *.
  rewrite rdiv_some by (apply Rmult_integral_contrapositive; split; lra).
  eexists. split; [reflexivity|]. split; [field; split; lra|].
  intros T L Q.
  assert (K : k < 1).
  { unfold k. apply Rlt_le_trans with (sqrt 1); [|rewrite sqrt_1; lra]. apply sqrt_lt_1_alt.
    assert (2 <= len prev) by (unfold len; replace 2 with (INR 2) by (simpl; lra); apply le_INR, Hp).
    assert (3 <= len cur) by (unfold len; replace 3 with (INR 3) by (simpl; lra); apply le_INR, L).
    assert (/ len prev <= / 2) by (apply Rinv_le_contravar; lra).
    assert (/ len cur <= / 3) by (apply Rinv_le_contravar; lra).
    assert (0 < / len cur) by (apply Rinv_0_lt_compat; lra).
    assert (0 < / len prev) by (apply Rinv_0_lt_compat; lra).
    unfold Rdiv. split; lra. }
  apply T. rewrite <- Q.
  assert (X : (rmean cur - rmean prev) / s = (rmean cur - rmean prev) / (s * k) * k) by (field; split; lra).
  rewrite <- Q in X. set (z := (rmean cur - rmean prev) / (s * k)) in *.
  assert (z * (1 - k) = 0) by lra. apply Rmult_integral in H0. destruct H0; lra.
Qed.
Example C75_case : testable [5; 7; 9] [2; 4] /\ exists t, t_score [5; 7] [2; 4] false = Some t /\ t <> 0.
Proof.
  split; [unfold testable; cbn; lia|]. destruct C71_case as (t & H & ->).
  exists (3 / sqrt 2). split; [exact H|]. unfold Rdiv. apply Rmult_integral_contrapositive. split; [lra|].
  apply Rinv_neq_0_compat, sqrt2_neq_0.
Qed.

(** *** C76 *)
Theorem C76_spikes : forall {T} (l : list (T * R)) threshold m s r,
  0 < threshold -> mean_of m (map snd l) -> squares_of s (map snd l) -> (2 <= length l)%nat ->
  (In r (detect_spikes threshold l)
   <-> In r l /\ 0 < s /\ snd r - m >= threshold * sqrt (s / (INR (length l) - 1))).
Proof.
  intros T l threshold m s r Ht M S L.
  apply mean_of_unique in M as ->. apply squares_unique in S as ->.
  unfold detect_spikes. rewrite filter_In, spike_iff by exact Ht.
  assert (X : (1 <= length (map snd l))%nat) by (rewrite map_length; lia).
  assert (N : 2 <= len (map snd l)).
  { unfold len. rewrite map_length. replace 2 with (INR 2) by (simpl; lra). apply le_INR, L. }
  assert (V : rvar (map snd l) = sse (map snd l) / (INR (length l) - 1)).
  { rewrite <- (rvar_sse (map snd l) X). unfold len in *. rewrite map_length in *. field. lra. }
  rewrite V. unfold len in N. rewrite map_length in N.
  assert (P : 0 < sse (map snd l) / (INR (length l) - 1) <-> 0 < sse (map snd l)).
  { split; intros Q.
    - pose proof (sse_nonneg (map snd l)). destruct (Req_dec (sse (map snd l)) 0) as [Z|]; [|lra].
      rewrite Z in Q. unfold Rdiv in Q. rewrite Rmult_0_l in Q. lra.
    - apply Rdiv_lt_0_compat; lra. }
  rewrite P. tauto.
Qed.
(** Chebyshev: at threshold k no series of n points has more than (n-1)/k^2 spikes. *)
Theorem C76_few_spikes : forall {T} (l : list (T * R)) threshold,
  0 < threshold -> (1 <= length l)%nat ->
  INR (length (detect_spikes threshold l)) * threshold ^ 2 <= INR (length l) - 1.
Proof.
  intros T l threshold Ht L.
  assert (X : (1 <= length (map snd l))%nat) by (rewrite map_length; lia).
  assert (N : 1 <= INR (length l)) by (change 1 with (INR 1); apply le_INR, L).
  pose proof (rvar_nonneg (map snd l)) as V0.
  destruct (Rlt_dec 0 (rvar (map snd l))) as [V|V].
  - pose proof (sqrt_lt_R0 _ V) as S.
    pose proof (spikes_squares (rmean (map snd l)) (sqrt (rvar (map snd l))) threshold (map snd l) ltac:(lra) Ht) as B.
    rewrite sqrt_sqrt in B by lra. fold (sse (map snd l)) in B. rewrite <- (rvar_sse _ X) in B.
    assert (E : length (detect_spikes threshold l)
                = length (filter (fun x => negb (ltb (x - rmean (map snd l)) (threshold * sqrt (rvar (map snd l))))) (map snd l))).
    { unfold detect_spikes.
      assert (G : forall x, is_spike threshold (map snd l) x
                  = negb (ltb (x - rmean (map snd l)) (threshold * sqrt (rvar (map snd l))))).
      { intros x. apply eq_true_iff_eq. rewrite (spike_iff _ _ _ Ht), negb_true_iff, ltb_false.
        split; [intros [_ Q]; lra|intros Q; split; [exact V|lra]]. }
      apply (filter_snd_length _ _ l G). }
    rewrite E. unfold len in B at 1. rewrite map_length in B.
    apply (Rmult_le_reg_r (rvar (map snd l))); [exact V|]. lra.
  - assert (E : detect_spikes threshold l = []).
    { unfold detect_spikes. assert (G : forall x, is_spike threshold (map snd l) x = false).
      { intros x. destruct (is_spike threshold (map snd l) x) eqn:E; [|reflexivity].
        apply (spike_iff _ _ _ Ht) in E. tauto. }
      induction l as [|x t IH]; [reflexivity|]. clear IH.
      revert G. generalize (map snd (x :: t)) as w. intros w G. clear - G.
      induction (x :: t) as [|y u IH]; [reflexivity|]. cbn [filter]. rewrite G. exact IH. }
    rewrite E. cbn [length INR]. lra.
Qed.
(** Only upward deviations count: no point at or below the mean is a spike. *)
Theorem C76_upward_only : forall {T} (l : list (T * R)) threshold m r,
  0 < threshold -> mean_of m (map snd l) -> In r (detect_spikes threshold l) -> m < snd r.
Proof.
  intros T l threshold m r Ht M H. apply mean_of_unique in M as ->.
  unfold detect_spikes in H. apply filter_In in H as [_ H]. apply (spike_iff _ _ _ Ht) in H as [V H].
  assert (0 < threshold * sqrt (rvar (map snd l))) by (apply Rmult_lt_0_compat; [lra|apply sqrt_lt_R0, V]). lra.
Qed.
Definition c76_data : list (nat * R) := [(0%nat, 0); (1%nat, 0); (2%nat, 0); (3%nat, 0); (4%nat, 0); (5%nat, 6)].
Example C76_case : In (5%nat, 6) (detect_spikes 2 c76_data).
Proof.
  assert (M : mean_of 1 (map snd c76_data)) by (split; [discriminate|cbn; lra]).
  assert (S : squares_of 30 (map snd c76_data)) by (exists 1; split; [exact M|cbn; lra]).
  apply (C76_spikes c76_data 2 1 30 (5%nat, 6)); try assumption; try lra; [cbn; lia|].
  split; [cbn; tauto|]. split; [lra|]. cbn [snd].
  replace (30 / (INR (length c76_data) - 1)) with 6 by (cbn; field).
  apply Rle_ge. assert (sqrt 6 <= 5 / 2); [|lra].
  rewrite <- (sqrt_square (5 / 2)) by lra. apply sqrt_le_1_alt. lra.
Qed.

Print Assumptions C71_pooled_statistic. Print Assumptions C71_shift_invariant. Print Assumptions C71_scale_invariant.
Print Assumptions C71_swap_negates. Print Assumptions C71_clipping. Print Assumptions C72_score_sign.
Print Assumptions C72_direction_partial. Print Assumptions C72_negative_baseline_refuted. Print Assumptions C73_intervals.
Print Assumptions C73_constant_refuted. Print Assumptions C73_single_point_refuted. Print Assumptions C74_rescaled.
Print Assumptions C75_same_score_partial. Print Assumptions C75_uncorrected_refuted. Print Assumptions C76_spikes.
Print Assumptions C76_few_spikes. Print Assumptions C76_upward_only.
