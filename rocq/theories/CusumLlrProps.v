(** C269: the log likelihood ratio of the CUSUM detector. *)
From Verif Require Import Common PySlice CusumModel CusumDetModel.
Require Import Reals Lra Qreals.
Open Scope R_scope.

(** ** Specification *)

(** [m] is the mean of a list, [v] its sum of squared deviations from a level. *)
Definition is_rmean (m : R) (l : list R) : Prop := rsum l = m * INR (length l).

(** ** Sums *)
Lemma rsum_app a b : rsum (a ++ b) = rsum a + rsum b.
Proof. induction a as [|x a IH]; simpl; [lra|rewrite IH; lra]. Qed.
Lemma rsum_rev a : rsum (rev a) = rsum a.
Proof. induction a as [|x a IH]; simpl; [reflexivity|rewrite rsum_app, IH; simpl; lra]. Qed.
Lemma rsum_affine c d l : rsum (map (fun x => c * x + d) l) = c * rsum l + d * INR (length l).
Proof.
  induction l as [|x l IH]; [simpl; lra|]. cbn [map rsum fold_right]. fold (rsum (map (fun x => c * x + d) l)).
  rewrite IH. cbn [length]. rewrite S_INR. fold (rsum l). lra.
Qed.
Lemma rsum_nonneg l : (forall x, In x l -> 0 <= x) -> 0 <= rsum l.
Proof. induction l as [|x l IH]; simpl; intros H; [lra|]. pose proof (H x (or_introl eq_refl)). specialize (IH (fun y I => H y (or_intror I))). lra. Qed.
Lemma sq_dev_nonneg mu l : 0 <= sq_dev mu l.
Proof. apply rsum_nonneg. intros x I. apply in_map_iff in I as (y & <- & _). apply pow2_ge_0. Qed.
Lemma sq_dev_app mu a b : sq_dev mu (a ++ b) = sq_dev mu a + sq_dev mu b.
Proof. unfold sq_dev. rewrite map_app. apply rsum_app. Qed.
Lemma sq_dev_rev mu a : sq_dev mu (rev a) = sq_dev mu a.
Proof. unfold sq_dev. rewrite map_rev. apply rsum_rev. Qed.
Lemma sq_dev_affine c d mu l : sq_dev (c * mu + d) (map (fun x => c * x + d) l) = c ^ 2 * sq_dev mu l.
Proof.
  unfold sq_dev. induction l as [|x l IH]; simpl in *; [lra|].
  fold (rsum (map (fun x0 => (x0 - (c * mu + d)) * ((x0 - (c * mu + d)) * 1)) (map (fun x0 => c * x0 + d) l))).
  fold (rsum (map (fun x0 => (x0 - mu) * ((x0 - mu) * 1)) l)). unfold rsum in *. rewrite IH. ring.
Qed.
(** the mean is the level of least squared deviation. *)
Lemma sq_dev_shift m mu l : is_rmean m l -> sq_dev mu l = sq_dev m l + INR (length l) * (m - mu) ^ 2.
Proof.
  unfold is_rmean. intros H.
  assert (G : sq_dev mu l = sq_dev m l + 2 * (m - mu) * (rsum l - m * INR (length l)) + INR (length l) * (m - mu) ^ 2).
  { clear H. unfold sq_dev. induction l as [|x l IH]; [simpl; lra|].
    cbn [map length]. rewrite S_INR. change (rsum (?h :: ?t)) with (h + rsum t).
    change (rsum (x :: l)) with (x + rsum l). 
    change (rsum ((x - mu) ^ 2 :: map (fun x0 => (x0 - mu) ^ 2) l)) with ((x - mu) ^ 2 + rsum (map (fun x0 => (x0 - mu) ^ 2) l)).
    change (rsum ((x - m) ^ 2 :: map (fun x0 => (x0 - m) ^ 2) l)) with ((x - m) ^ 2 + rsum (map (fun x0 => (x0 - m) ^ 2) l)).
    rewrite IH. ring. }
  rewrite G, H. ring.
Qed.
Lemma rmean_is l : l <> [] -> is_rmean (rmean l) l.
Proof.
  intros H. unfold is_rmean, rmean. field. apply not_0_INR. destruct l; [congruence|discriminate].
Qed.
Lemma rmean_unique m l : l <> [] -> is_rmean m l -> rmean l = m.
Proof.
  intros H E. unfold rmean. rewrite E. field. apply not_0_INR. destruct l; [congruence|discriminate].
Qed.

(** ** The statistic in closed form *)
Lemma log_llr_form x mu0 s0 mu1 s1 : s0 <> 0 -> s1 <> 0 ->
  log_llr x mu0 s0 mu1 s1 = INR (length x) * ln (s1 / s0) + 1 / 2 * (sq_dev mu1 x / s1 ^ 2 - sq_dev mu0 x / s0 ^ 2).
Proof.
  intros H0 H1. unfold log_llr, sq_dev. induction x as [|v x IH]; [simpl; field; auto|].
  cbn [map length]. rewrite S_INR.
  change (rsum (?h :: ?t)) with (h + rsum t).
  repeat match goal with |- context [rsum (?h :: ?t)] => change (rsum (h :: t)) with (h + rsum t) end.
  rewrite IH. field. auto.
Qed.

Lemma split_levels a b m0 m1 mt : is_rmean m0 a -> is_rmean m1 b -> is_rmean mt (a ++ b) ->
  sq_dev mt (a ++ b) = sq_dev m0 a + sq_dev m1 b + INR (length a) * (m0 - mt) ^ 2 + INR (length b) * (m1 - mt) ^ 2.
Proof.
  intros H0 H1 H. rewrite sq_dev_app, (sq_dev_shift m0 mt a H0), (sq_dev_shift m1 mt b H1). ring.
Qed.

(** With SST the squared deviations from the overall mean and SSE those from the two means
    of a split of n points: the statistic is n ln ((SST/n) / (SSE/(n-2))) + 2; it is
    n (2 ln 100 + 1) for two constant pieces and NaN for a constant series. *)
Theorem C269_value : forall a b mu0 mu1 mt,
  let ts := a ++ b in let n := INR (length ts) in
  (3 <= length ts)%nat -> is_rmean mt ts ->
  let SST := sq_dev mt ts in let SSE := sq_dev mu0 a + sq_dev mu1 b in
  (0 < SSE -> 0 < SST -> get_llr a b mu0 mu1 = Some (n * ln ((SST / n) / (SSE / (n - 2))) + 2)) /\
  (SSE = 0 -> 0 < SST -> get_llr a b mu0 mu1 = Some (n * (2 * ln 100 + 1))) /\
  (SST = 0 -> get_llr a b mu0 mu1 = None).
Proof.
  intros a b mu0 mu1 mt ts n L M SST SSE.
  assert (N3 : 3 <= n). { unfold n. replace 3 with (INR 3) by (simpl; lra). apply le_INR. exact L. }
  assert (NE : ts <> []) by (intros E; rewrite E in L; simpl in L; lia).
  assert (MT : rmean ts = mt) by (apply rmean_unique; assumption).
  assert (ST : rstd ts = sqrt (SST / n)) by (unfold rstd; rewrite MT; reflexivity).
  pose proof (sq_dev_nonneg mt ts) as P0. fold SST in P0.
  assert (P1 : 0 <= SSE) by (unfold SSE; pose proof (sq_dev_nonneg mu0 a); pose proof (sq_dev_nonneg mu1 b); lra).
  assert (DA : sq_dev mt a + sq_dev mt b = SST) by (unfold SST, ts; rewrite sq_dev_app; reflexivity).
  assert (LA : INR (length a) + INR (length b) = n) by (unfold n, ts; rewrite app_length, plus_INR; reflexivity).
  unfold get_llr. fold ts. rewrite MT, ST.
  destruct (Nat.leb_spec (length ts) 2) as [|_]; [lia|]. fold n. fold SSE.
  assert (F : forall sc, sc <> 0 -> sqrt (SST / n) <> 0 -> 0 < SST ->
    log_llr a mt (sqrt (SST / n)) mu0 sc + log_llr b mt (sqrt (SST / n)) mu1 sc
    = n * ln (sc / sqrt (SST / n)) + 1 / 2 * (SSE / sc ^ 2 - n)).
  { intros sc Hs Ht Hp. rewrite !log_llr_form by assumption.
    assert (Q : sqrt (SST / n) ^ 2 = SST / n).
    { simpl. rewrite Rmult_1_r. apply sqrt_sqrt. apply Rlt_le, Rdiv_lt_0_compat; lra. }
    rewrite Q. set (LG := ln (sc / sqrt (SST / n))).
    assert (Y : sq_dev mt a / (SST / n) + sq_dev mt b / (SST / n) = n).
    { rewrite <- Rdiv_plus_distr, DA. field. lra. }
    assert (W : SSE / sc ^ 2 = sq_dev mu0 a / sc ^ 2 + sq_dev mu1 b / sc ^ 2) by (unfold SSE; apply Rdiv_plus_distr).
    rewrite W. transitivity ((INR (length a) + INR (length b)) * LG + 1 / 2 * (sq_dev mu0 a / sc ^ 2
      + sq_dev mu1 b / sc ^ 2 - (sq_dev mt a / (SST / n) + sq_dev mt b / (SST / n)))); [ring|rewrite LA, Y; reflexivity]. }
  split; [|split].
  - intros E T.
    assert (S1 : 0 < sqrt (SST / n)) by (apply sqrt_lt_R0, Rdiv_lt_0_compat; lra).
    assert (S2 : 0 < sqrt (SSE / (n - 2))) by (apply sqrt_lt_R0, Rdiv_lt_0_compat; lra).
    destruct (Req_EM_T (sqrt (SST / n)) 0); [lra|]. destruct (Req_EM_T (sqrt (SSE / (n - 2))) 0); [lra|].
    f_equal. rewrite F by lra.
    assert (Q : sqrt (SSE / (n - 2)) ^ 2 = SSE / (n - 2)).
    { simpl. rewrite Rmult_1_r. apply sqrt_sqrt. apply Rlt_le, Rdiv_lt_0_compat; lra. }
    rewrite Q. replace (SSE / (SSE / (n - 2))) with (n - 2) by (field; lra).
    assert (LN : 2 * ln (sqrt (SSE / (n - 2)) / sqrt (SST / n)) = - ln (SST / n / (SSE / (n - 2)))).
    { rewrite <- sqrt_div by (try apply Rlt_le, Rdiv_lt_0_compat; try apply Rdiv_lt_0_compat; lra).
      assert (X : 0 < SSE / (n - 2) / (SST / n)) by (repeat apply Rdiv_lt_0_compat; lra).
      replace (SST / n / (SSE / (n - 2))) with (/ (SSE / (n - 2) / (SST / n))) by (field; lra).
      rewrite ln_Rinv by exact X. rewrite Ropp_involutive.
      rewrite <- (sqrt_sqrt (SSE / (n - 2) / (SST / n))) at 2 by lra.
      rewrite ln_mult by (apply sqrt_lt_R0; exact X). ring. }
    replace (-2 * (n * ln (sqrt (SSE / (n - 2)) / sqrt (SST / n)) + 1 / 2 * (n - 2 - n)))
      with (- n * (2 * ln (sqrt (SSE / (n - 2)) / sqrt (SST / n))) + 2) by field.
    rewrite LN. ring.
  - intros E T.
    assert (S1 : 0 < sqrt (SST / n)) by (apply sqrt_lt_R0, Rdiv_lt_0_compat; lra).
    destruct (Req_EM_T (sqrt (SST / n)) 0); [lra|]. rewrite E.
    replace (0 / (n - 2)) with 0 by (field; lra). rewrite sqrt_0.
    destruct (Req_EM_T 0 0); [|lra]. f_equal. rewrite F by lra. rewrite E.
    replace (sqrt (SST / n) * (1 / 100) / sqrt (SST / n)) with (/ 100) by (field; lra).
    rewrite ln_Rinv by lra. field. lra.
  - intros T. rewrite T. replace (0 / n) with 0 by (field; lra). rewrite sqrt_0.
    destruct (Req_EM_T 0 0); [reflexivity|lra].
Qed.

(** The statistic does not depend on the unit and the origin of the values. *)
Lemma map_length_R (f : R -> R) (l : list R) : INR (length (map f l)) = INR (length l).
Proof. rewrite map_length. reflexivity. Qed.
Lemma rmean_affine c d l : l <> [] -> rmean (map (fun x => c * x + d) l) = c * rmean l + d.
Proof.
  intros H. unfold rmean. rewrite rsum_affine, map_length_R. field. apply not_0_INR. destruct l; [congruence|discriminate].
Qed.
Lemma sq_dev_zero_all mu l : sq_dev mu l = 0 -> forall x, In x l -> x = mu.
Proof.
  induction l as [|y l IH]; intros H x I; [destruct I|].
  change (sq_dev mu (y :: l)) with ((y - mu) ^ 2 + sq_dev mu l) in H.
  pose proof (pow2_ge_0 (y - mu)). pose proof (sq_dev_nonneg mu l).
  destruct I as [<-|I]; [|apply IH; [lra|exact I]].
  assert ((y - mu) ^ 2 = 0) by lra. simpl in H2. rewrite Rmult_1_r in H2. apply Rmult_integral in H2. lra.
Qed.

Theorem C269_units : forall a b mu0 mu1 c d, c <> 0 ->
  get_llr (map (fun x => c * x + d) a) (map (fun x => c * x + d) b) (c * mu0 + d) (c * mu1 + d)
  = get_llr a b mu0 mu1.
Proof.
  intros a b mu0 mu1 c d C.
  destruct (Nat.leb_spec (length (a ++ b)) 2) as [L|L].
  - unfold get_llr. rewrite <- map_app, map_length. destruct (Nat.leb_spec (length (a ++ b)) 2); [reflexivity|lia].
  - assert (NE : a ++ b <> []) by (intros E; rewrite E in L; simpl in L; lia).
    set (ts := a ++ b) in *. set (f := fun x => c * x + d).
    pose proof (rmean_is ts NE) as M.
    assert (M' : is_rmean (c * rmean ts + d) (map f a ++ map f b)).
    { rewrite <- map_app. fold ts. rewrite <- (rmean_affine c d ts NE). apply rmean_is.
      intros E. apply map_eq_nil in E. contradiction. }
    destruct (C269_value a b mu0 mu1 (rmean ts) ltac:(fold ts; lia) M) as (V1 & V2 & V3).
    destruct (C269_value (map f a) (map f b) (c * mu0 + d) (c * mu1 + d) _
      ltac:(rewrite <- map_app, map_length; fold ts; lia) M') as (W1 & W2 & W3).
    rewrite <- map_app in W1, W2, W3. fold ts in W1, W2, W3, V1, V2, V3.
    cbv zeta in *.
    assert (AF : forall m l, sq_dev (c * m + d) (map f l) = c ^ 2 * sq_dev m l) by (intros; apply sq_dev_affine).
    rewrite !AF, map_length in W1. rewrite !AF, map_length in W2. rewrite !AF in W3.
    pose proof (sq_dev_nonneg (rmean ts) ts) as P0.
    pose proof (sq_dev_nonneg mu0 a) as P1. pose proof (sq_dev_nonneg mu1 b) as P2.
    assert (C2 : 0 < c ^ 2) by (pose proof (Rsqr_pos_lt c C) as X; unfold Rsqr in X; simpl; lra).
    set (SST := sq_dev (rmean ts) ts) in *. set (A := sq_dev mu0 a) in *. set (B := sq_dev mu1 b) in *.
    assert (N3 : 3 <= INR (length ts)) by (replace 3 with (INR 3) by (simpl; lra); apply le_INR; lia).
    destruct (Req_dec SST 0) as [T|T].
    + rewrite V3, W3; [reflexivity|rewrite T; ring|exact T].
    + assert (T' : 0 < SST) by lra. assert (T2 : 0 < c ^ 2 * SST) by (apply Rmult_lt_0_compat; lra).
      destruct (Req_dec (A + B) 0) as [E|E].
      * assert (CE : c ^ 2 * A + c ^ 2 * B = 0) by (rewrite <- Rmult_plus_distr_l, E; ring).
        rewrite (V2 E T'), (W2 CE T2). reflexivity.
      * assert (E' : 0 < A + B) by lra.
        assert (CE : 0 < c ^ 2 * A + c ^ 2 * B) by (rewrite <- Rmult_plus_distr_l; apply Rmult_lt_0_compat; lra).
        rewrite (V1 E' T'), (W1 CE T2). do 4 f_equal. field. repeat split; lra.
Qed.

(** Nor on the direction of time. *)
Theorem C269_reversed : forall a b mu0 mu1,
  get_llr (rev b) (rev a) mu1 mu0 = get_llr a b mu0 mu1.
Proof.
  intros a b mu0 mu1. unfold get_llr.
  assert (RV : rev b ++ rev a = rev (a ++ b)) by (symmetry; apply rev_app_distr). rewrite RV, rev_length.
  destruct (Nat.leb _ 2); [reflexivity|]. rewrite !sq_dev_rev, (Rplus_comm (sq_dev mu1 b)).
  assert (RM : rmean (rev (a ++ b)) = rmean (a ++ b)) by (unfold rmean; rewrite rsum_rev, rev_length; reflexivity).
  assert (RS : rstd (rev (a ++ b)) = rstd (a ++ b)) by (unfold rstd; rewrite RM, sq_dev_rev, rev_length; reflexivity).
  rewrite RM, RS. destruct (Req_EM_T (rstd (a ++ b)) 0); [reflexivity|]. f_equal. f_equal.
  unfold log_llr. rewrite !map_rev, !rsum_rev. apply Rplus_comm.
Qed.

(** ** Size *)

(** The statistic of the means of the two pieces is at least n ln ((n-2)/n) + 2, and equal
    to that if the two means are equal. *)
Lemma pooled_le a b m0 m1 mt : is_rmean m0 a -> is_rmean m1 b -> is_rmean mt (a ++ b) ->
  sq_dev m0 a + sq_dev m1 b <= sq_dev mt (a ++ b).
Proof.
  intros H0 H1 H. rewrite (split_levels a b m0 m1 mt H0 H1 H).
  pose proof (pos_INR (length a)). pose proof (pos_INR (length b)).
  pose proof (pow2_ge_0 (m0 - mt)). pose proof (pow2_ge_0 (m1 - mt)).
  pose proof (Rmult_le_pos _ _ H2 H4). pose proof (Rmult_le_pos _ _ H3 H5). lra.
Qed.
Theorem C269_least : forall a b mu0 mu1 x,
  is_rmean mu0 a -> is_rmean mu1 b -> get_llr a b mu0 mu1 = Some x ->
  let n := INR (length (a ++ b)) in n * ln ((n - 2) / n) + 2 <= x.
Proof.
  intros a b mu0 mu1 x H0 H1 E n.
  assert (L : (3 <= length (a ++ b))%nat).
  { unfold get_llr in E. destruct (Nat.leb_spec (length (a ++ b)) 2); [discriminate|lia]. }
  assert (NE : a ++ b <> []) by (intros X; rewrite X in L; simpl in L; lia).
  pose proof (rmean_is _ NE) as M. destruct (C269_value a b mu0 mu1 _ L M) as (V1 & V2 & V3). cbv zeta in *. fold n in V1, V2.
  pose proof (pooled_le a b mu0 mu1 _ H0 H1 M) as P.
  pose proof (sq_dev_nonneg (rmean (a ++ b)) (a ++ b)) as P0.
  pose proof (sq_dev_nonneg mu0 a) as P1. pose proof (sq_dev_nonneg mu1 b) as P2.
  assert (N3 : 3 <= n) by (unfold n; replace 3 with (INR 3) by (simpl; lra); apply le_INR; lia).
  set (SST := sq_dev (rmean (a ++ b)) (a ++ b)) in *. set (SSE := sq_dev mu0 a + sq_dev mu1 b) in *.
  destruct (Req_dec SST 0) as [T|T]; [rewrite (V3 T) in E; discriminate|].
  assert (S0 : 0 <= SSE) by (unfold SSE; lra).
  assert (LE0 : ln ((n - 2) / n) <= 0).
  { rewrite <- ln_1. destruct (Rle_lt_or_eq_dec ((n - 2) / n) 1) as [X|X].
    - apply Rmult_le_reg_r with n; [lra|]. unfold Rdiv. rewrite Rmult_assoc, Rinv_l; lra.
    - apply Rlt_le, ln_increasing; [apply Rdiv_lt_0_compat; lra|exact X].
    - rewrite X. lra. }
  destruct (Req_dec SSE 0) as [Z|Z].
  - rewrite (V2 Z ltac:(lra)) in E. injection E as <-.
    assert (0 < ln 100) by (rewrite <- ln_1; apply ln_increasing; lra). nra.
  - rewrite (V1 ltac:(lra) ltac:(lra)) in E. injection E as <-.
    apply Rplus_le_compat_r, Rmult_le_compat_l; [lra|].
    assert (X : (n - 2) / n <= SST / n / (SSE / (n - 2))).
    { replace (SST / n / (SSE / (n - 2))) with ((n - 2) / n * (SST / SSE)) by (field; lra).
      rewrite <- (Rmult_1_r ((n - 2) / n)) at 1. apply Rmult_le_compat_l; [apply Rlt_le, Rdiv_lt_0_compat; lra|].
      apply Rmult_le_reg_r with SSE; [lra|]. unfold Rdiv. rewrite Rmult_assoc, Rinv_l; lra. }
    destruct X as [X|X]; [apply Rlt_le, ln_increasing; [apply Rdiv_lt_0_compat; lra|exact X]|rewrite X; lra].
Qed.

(** It is negative if the two means are equal: it is not the likelihood ratio of the best
    fits, whose scale would be divided by n. *)
Theorem C269_negative_refuted : exists a b mu0 mu1 x,
  is_rmean mu0 a /\ is_rmean mu1 b /\ get_llr a b mu0 mu1 = Some x /\ x < 0.
Proof.
  exists [1; -1], [1; -1], 0, 0.
  assert (M : is_rmean 0 ([1; -1] ++ [1; -1])) by (unfold is_rmean; simpl; lra).
  destruct (C269_value [1; -1] [1; -1] 0 0 0 ltac:(simpl; lia) M) as (V & _).
  cbv zeta in V. eexists. split; [unfold is_rmean; simpl; lra|]. split; [unfold is_rmean; simpl; lra|].
  split; [apply V; unfold sq_dev, rsum; simpl; lra|].
  match goal with |- ?n * ln ?x + 2 < 0 => replace x with (/ 2) by (unfold sq_dev, rsum; simpl; field); replace n with 4 by (simpl; lra) end.
  rewrite ln_Rinv by lra.
  assert (/ 2 < ln 2).
  { apply exp_lt_inv. rewrite exp_ln by lra.
    assert (E2 : exp (/ 2) * exp (/ 2) = exp 1) by (rewrite <- exp_plus; f_equal; lra).
    pose proof (exp_pos (/ 2)). pose proof exp_le_3.
    destruct (Rlt_dec (exp (/ 2)) 2); [assumption|]. nra. }
  lra.
Qed.

(** ** Significance *)

(** A number is significant exactly if its p-value is below the threshold. *)
Theorem C269_significance : forall threshold x, 0 < threshold <= 1 ->
  exists p, p_value (Num x) = Some p /\ 0 < p <= 1 /\
    (significant threshold (Num x) = true <-> p < threshold).
Proof.
  intros th x T. eexists. split; [reflexivity|]. unfold chi2_cdf.
  assert (SIG : significant th (Num x) = true <-> -2 * ln th < x).
  { unfold significant, chi2_ppf. destruct (Rle_dec 0 (1 - th)); [|lra]. destruct (Rlt_dec (1 - th) 1); [|lra].
    replace (1 - (1 - th)) with th by ring. destruct (Rlt_dec (-2 * ln th) x); split; intros; auto; discriminate. }
  assert (LT : ln th <= 0).
  { rewrite <- ln_1. destruct (Rle_lt_or_eq_dec th 1) as [X|X]; [lra|apply Rlt_le, ln_increasing; lra|rewrite X; lra]. }
  destruct (Rle_dec x 0) as [X|X].
  - split; [lra|]. rewrite SIG. split; intros; lra.
  - pose proof (exp_pos (- x / 2)).
    assert (exp (- x / 2) < 1) by (rewrite <- exp_0; apply exp_increasing; lra).
    split; [lra|]. rewrite SIG. replace (1 - (1 - exp (- x / 2))) with (exp (- x / 2)) by ring.
    rewrite <- (exp_ln th) at 2 by lra. split; intros H1.
    + apply exp_increasing. lra.
    + apply exp_lt_inv in H1. lra.
Qed.

(** Two constant pieces of different levels are significant at any level down to one in ten
    thousand. *)
Theorem C269_step : forall a b x y threshold,
  (forall v, In v a -> v = x) -> (forall v, In v b -> v = y) -> x <> y -> a <> [] -> b <> [] ->
  (3 <= length (a ++ b))%nat -> 0 < threshold < 1 -> / 10000 <= threshold ->
  significant threshold (of_option (get_llr a b x y)) = true.
Proof.
  intros a b x y th A B XY NA NB L T TH.
  assert (Z1 : forall l v, (forall w, In w l -> w = v) -> sq_dev v l = 0).
  { induction l as [|w l IH]; intros v H; [reflexivity|].
    change (sq_dev v (w :: l)) with ((w - v) ^ 2 + sq_dev v l).
    rewrite (H w (or_introl eq_refl)), (IH v (fun z I => H z (or_intror I))). ring. }
  assert (NE : a ++ b <> []) by (destruct a; [congruence|discriminate]).
  pose proof (rmean_is _ NE) as M. destruct (C269_value a b x y _ L M) as (_ & V2 & _). cbv zeta in V2.
  rewrite V2.
  - simpl. unfold chi2_ppf. destruct (Rle_dec 0 (1 - th)); [|lra]. destruct (Rlt_dec (1 - th) 1); [|lra].
    replace (1 - (1 - th)) with th by ring. destruct (Rlt_dec _ _) as [|N]; [reflexivity|]. exfalso. apply N.
    assert (N3 : 3 <= INR (length (a ++ b))) by (replace 3 with (INR 3) by (simpl; lra); apply le_INR; lia).
    assert (LL : - ln th <= 2 * ln 100).
    { replace (2 * ln 100) with (- ln (/ 10000)).
      - apply Ropp_le_contravar. destruct TH as [TH|TH]; [apply Rlt_le, ln_increasing; lra|rewrite TH; lra].
      - rewrite ln_Rinv by lra. replace 10000 with (100 * 100) by lra. rewrite ln_mult by lra. ring. }
    assert (0 < ln 100) by (rewrite <- ln_1; apply ln_increasing; lra). nra.
  - rewrite (Z1 a x A), (Z1 b y B). ring.
  - pose proof (sq_dev_nonneg (rmean (a ++ b)) (a ++ b)) as [P|P]; [exact P|]. exfalso. symmetry in P.
    pose proof (sq_dev_zero_all _ _ P) as Q.
    destruct a as [|u a]; [congruence|]. destruct b as [|w b]; [congruence|].
    apply XY. rewrite <- (A u (or_introl eq_refl)), <- (B w (or_introl eq_refl)).
    rewrite (Q u (or_introl eq_refl)). symmetry. apply Q. apply in_or_app. right. now left.
Qed.

Example C269_case : significant (1 / 100) (of_option (get_llr [1; 1; 1] [5; 5] 1 5)) = true
  /\ get_llr [2; 2] [2] 2 2 = None.
Proof.
  split.
  - apply C269_step; try lra; try discriminate; try (simpl; lia); simpl; intuition.
  - apply (C269_value [2; 2] [2] 2 2 2); [simpl; lia|unfold is_rmean; simpl; lra|unfold sq_dev, rsum; simpl; lra].
Qed.

Print Assumptions C269_value.
Print Assumptions C269_units.
Print Assumptions C269_reversed.
Print Assumptions C269_least.
Print Assumptions C269_negative_refuted.
Print Assumptions C269_significance.
Print Assumptions C269_step.
