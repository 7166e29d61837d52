(** C287: features of shape: entropy, strengths, linearity, gradient, slope of the trend. *)
From Coq Require Import Reals Lra Permutation.
From Coq Require Import List ZArith Bool Lia.
From Verif Require Import TsfAcfModel TsfShapeModel TsfAcfProps.
Import ListNotations.
Open Scope R_scope.

(** ** Specification *)
(** m is the average of l *)
Definition average (l : list R) (m : R) : Prop := m * INR (length l) = sum l.
Definition straight (x : list R) (a b : R) : Prop := forall i, (i < length x)%nat -> nth i x 0 = a + b * INR i.
(** the sum of squared distances from a line *)
Definition misfit (x : list R) (a b : R) : R := sum (map (fun i => (nth i x 0 - (a + b * INR i)) ^ 2) (seq 0 (length x))).
(** the sum of squared distances from the average *)
Definition spread (x : list R) (s : R) : Prop :=
  exists m, average x m /\ s = sum (map (fun v => (v - m) ^ 2) x).

(** ** Sums *)
Ltac rs := repeat match goal with |- context [rsum ?l] => rewrite (rsum_sum l) end.
Lemma sum_map_ext {A} (f g : A -> R) l : (forall x, In x l -> f x = g x) -> sum (map f l) = sum (map g l).
Proof. intros H. f_equal. apply map_ext_in. exact H. Qed.
Lemma sum_const {A} c (l : list A) : sum (map (fun _ => c) l) = c * INR (length l).
Proof. induction l as [|x l IH]; [cbn; ring|]. cbn [map length]. rewrite sum_cons, IH, S_INR. ring. Qed.
Lemma sum_minus {A} (f g : A -> R) l : sum (map (fun x => f x - g x) l) = sum (map f l) - sum (map g l).
Proof. induction l as [|x l IH]; cbn [map]; [rewrite sum_nil; lra|]. rewrite !sum_cons, IH. ring. Qed.
Lemma rsum_map {A} (f : A -> R) l : rsum (map f l) = sum (map f l).
Proof. apply rsum_sum. Qed.
Lemma mean_map {A} (f : A -> R) l : mean (map f l) = sum (map f l) / INR (length l).
Proof. unfold mean. rewrite map_length. rs. reflexivity. Qed.
Lemma len_pos {A} (l : list A) : l <> [] -> 0 < INR (length l).
Proof. intros H. apply lt_0_INR. destruct l; [congruence|cbn; lia]. Qed.
Lemma var_determinant l : var l = determinant l.
Proof. unfold var, determinant, mean. rewrite map_length. reflexivity. Qed.
Lemma var_acov l : var l = acov l 0.
Proof. rewrite var_determinant. apply determinant_acov. Qed.
Lemma var_sum l : var l * INR (length l) = sum (map (fun v => (v - mean l) ^ 2) l).
Proof.
  destruct l as [|a l]; [cbn; ring|]. unfold var. unfold mean at 1. rewrite map_length. rs. field.
  apply not_0_INR. discriminate.
Qed.
Lemma var_nonneg l : 0 <= var l.
Proof.
  destruct l as [|a l]; [unfold var, mean; cbn; unfold Rdiv; rewrite Rmult_0_l; lra|].
  assert (0 < INR (length (a :: l))) as P by (apply len_pos; discriminate).
  apply Rmult_le_reg_r with (INR (length (a :: l))); [exact P|]. rewrite var_sum, Rmult_0_l.
  apply sum_nonneg. intros v. apply pow2_ge_0.
Qed.
Lemma var_zero l : l <> [] -> (var l = 0 <-> constant_series l).
Proof. intros H. rewrite var_acov. apply dev2_zero. exact H. Qed.
Lemma average_mean l m : l <> [] -> average l m -> m = mean l.
Proof.
  intros H A. apply Rmult_eq_reg_r with (INR (length l)); [|apply Rgt_not_eq, len_pos; exact H].
  rewrite (mean_spec l H). exact A.
Qed.

(** ** Strength of a component *)
Definition covariance (c r : list R) : R := mean (map (fun p => (fst p - mean c) * (snd p - mean r)) (combine c r)).
Lemma vadd_length c r : length c = length r -> length (vadd c r) = length c.
Proof. intros H. unfold vadd. rewrite map_length, combine_length. lia. Qed.
Lemma vadd_sum c r : length c = length r -> sum (vadd c r) = sum c + sum r.
Proof.
  revert r. induction c as [|a c IH]; intros [|b r] H; try discriminate; [cbn; ring|].
  unfold vadd in *. cbn [combine map fst snd]. rewrite !sum_cons, IH by (cbn in H; lia). ring.
Qed.
Lemma vadd_mean c r : length c = length r -> mean (vadd c r) = mean c + mean r.
Proof.
  intros H. unfold mean. rs. rewrite vadd_length, vadd_sum by exact H. rewrite <- H. unfold Rdiv. ring.
Qed.
Lemma vadd_var c r : length c = length r -> var (vadd c r) = var c + var r + 2 * covariance c r.
Proof.
  intros H. unfold var, covariance. rewrite (vadd_mean c r H).
  rewrite (mean_map (fun v => (v - (mean c + mean r)) ^ 2)), (mean_map (fun v => (v - mean c) ^ 2)), (mean_map (fun v => (v - mean r) ^ 2)),
    (mean_map (fun p => (fst p - mean c) * (snd p - mean r))).
  rewrite vadd_length, combine_length, H, Nat.min_id by exact H.
  set (mc := mean c). set (mr := mean r).
  assert (sum (map (fun v => (v - (mc + mr)) ^ 2) (vadd c r)) =
    sum (map (fun v => (v - mc) ^ 2) c) + sum (map (fun v => (v - mr) ^ 2) r) + 2 * sum (map (fun p => (fst p - mc) * (snd p - mr)) (combine c r))) as ->;
    [|unfold Rdiv; ring].
  clearbody mc mr. revert r H. induction c as [|a c IH]; intros [|b r] H; try discriminate; [cbn; ring|].
  unfold vadd in *. cbn [combine map fst snd]. rewrite !sum_cons, IH by (cbn in H; lia). ring.
Qed.

(** C287: the strength is 1 - var(resid) / var(component + resid); it is at most 1, 1 only for a constant remainder, and not
    negative when component and remainder are not negatively correlated. *)
Theorem C287_strength_partial : forall component resid s, length component = length resid ->
  strength component resid = Some s ->
  s <= 1 /\ (s = 1 <-> constant_series resid) /\ (0 <= covariance component resid -> 0 <= s).
Proof.
  intros c r s L H. unfold strength in H. destruct (zero (var (vadd c r))) eqn:Z; [discriminate|]. apply zero_false in Z.
  apply some_inj in H. subst s. pose proof (var_nonneg (vadd c r)) as P. pose proof (var_nonneg r) as Pr. pose proof (var_nonneg c) as Pc.
  assert (0 < var (vadd c r)) as PP by lra. set (V := var (vadd c r)) in *.
  assert (r <> []) as NE by (intros ->; destruct c; [|discriminate]; apply Z; unfold V, var, mean; cbn; unfold Rdiv; ring).
  assert (0 <= var r / V) as Q by (apply Rmult_le_pos; [exact Pr|apply Rlt_le, Rinv_0_lt_compat; exact PP]).
  split; [lra|split].
  - rewrite <- (var_zero r NE). split; intros E.
    + assert (var r / V = 0) as E0 by lra. apply Rmult_eq_reg_r with (/ V); [|apply Rinv_neq_0_compat; exact Z].
      rewrite Rmult_0_l. exact E0.
    + rewrite E. unfold Rdiv. ring.
  - intros C. assert (var r <= V) as LE by (unfold V; rewrite vadd_var by exact L; lra).
    assert (var r / V <= 1); [|lra]. apply Rmult_le_reg_r with V; [exact PP|]. unfold Rdiv. rewrite Rmult_assoc, Rinv_l by exact Z. lra.
Qed.

(** C287 refuted: nothing in the formula keeps the strength in [0, 1]: for components that cancel it is as negative as you
    like. *)
Theorem C287_strength_refuted : forall bound, exists component resid s, length component = length resid /\
  strength component resid = Some s /\ s < bound.
Proof.
  intros bound. set (k := Rmax 1 (1 - bound) + 1).
  assert (1 < k /\ 1 - bound < k) as [K1 K2] by (unfold k; pose proof (Rmax_l 1 (1 - bound)); pose proof (Rmax_r 1 (1 - bound)); lra).
  exists [1 - k; k - 1], [k; - k], (1 - k ^ 2).
  split; [reflexivity|].
  assert (forall u, var [u; - u] = u ^ 2) as V.
  { intros u. unfold var, mean. cbn [map rsum length]. change (INR 2) with 2. field. }
  split.
  - unfold strength, vadd. cbn [combine map fst snd]. replace (1 - k + k) with 1 by ring. replace (k - 1 + - k) with (- 1) by ring.
    rewrite !V. rewrite (proj2 (zero_false _)) by lra. f_equal. field.
  - assert (0 < (k - 1) * k) by (apply Rmult_lt_0_compat; lra). replace (k ^ 2) with ((k - 1) * k + k) by ring. lra.
Qed.

(** ** Entropy *)
Lemma ln_below z : 0 < z -> ln z <= z - 1.
Proof. intros H. pose proof (exp_ineq1_le (ln z)) as E. rewrite exp_ln in E by exact H. lra. Qed.
Lemma ln_below_strict z : 0 < z -> z <> 1 -> ln z < z - 1.
Proof.
  intros H N. assert (ln z <> 0) as L. { intros E. apply N. rewrite <- (exp_ln z H), E. apply exp_0. }
  pose proof (exp_ineq1 (ln z) L) as E. rewrite exp_ln in E by exact H. lra.
Qed.
(** p log p in nats *)
Definition plogp (p : R) : R := if zero p then 0 else p * ln p.
Lemma ln2_pos : 0 < ln 2.
Proof. rewrite <- ln_1. apply ln_increasing; lra. Qed.
Lemma plogp_gibbs n p : 0 < n -> 0 <= p -> - plogp p - p * ln n <= / n - p /\ (- plogp p - p * ln n = / n - p -> p = / n).
Proof.
  intros Hn Hp. assert (0 < / n) as In by (apply Rinv_0_lt_compat; exact Hn). unfold plogp. destruct (zero p) eqn:Z.
  - apply zero_true in Z. subst p. split; [lra|]. intros E. lra.
  - apply zero_false in Z. assert (0 < p) as P by lra.
    assert (0 < n * p) as NP by (apply Rmult_lt_0_compat; assumption).
    assert (ln (/ (n * p)) = - ln n - ln p) as L by (rewrite ln_Rinv, ln_mult by assumption; ring).
    assert (0 < / (n * p)) as IP by (apply Rinv_0_lt_compat; exact NP).
    assert (p * / (n * p) = / n) as C by (field; split; lra).
    assert (- (p * ln p) - p * ln n = p * ln (/ (n * p))) as -> by (rewrite L; ring). rewrite <- C.
    replace (p * / (n * p) - p) with (p * (/ (n * p) - 1)) by ring. split.
    + apply Rmult_le_compat_l; [lra|]. apply ln_below. exact IP.
    + intros E. apply Rmult_eq_reg_l in E; [|lra].
      destruct (Req_dec (/ (n * p)) 1) as [O|O]; [|pose proof (ln_below_strict _ IP O); lra].
      rewrite O. ring.
Qed.
Lemma plogp_nonpos p : 0 <= p <= 1 -> plogp p <= 0 /\ (plogp p = 0 -> p = 0 \/ p = 1).
Proof.
  intros H. unfold plogp. destruct (zero p) eqn:Z; [apply zero_true in Z; split; [lra|intros _; left; exact Z]|].
  apply zero_false in Z. assert (0 < p) as P by lra.
  assert (p < 1 -> ln p < 0) as L by (intros Q; rewrite <- ln_1; apply ln_increasing; lra).
  destruct (Req_dec p 1) as [->|N]; [rewrite ln_1; split; [lra|right; reflexivity]|].
  assert (0 < p * - ln p) as M by (apply Rmult_lt_0_compat; [exact P|]; specialize (L ltac:(lra)); lra).
  split; [lra|]. intros E. lra.
Qed.
Lemma sum_le_in {A} (f g : A -> R) l : (forall x, In x l -> f x <= g x) -> sum (map f l) <= sum (map g l).
Proof.
  intros H. induction l as [|x l IH]; cbn [map]; [rewrite sum_nil; lra|]. rewrite !sum_cons.
  pose proof (H x (or_introl eq_refl)). assert (sum (map f l) <= sum (map g l)) by (apply IH; intros y Hy; apply H; right; exact Hy). lra.
Qed.
Lemma sum_eq_all {A} (f g : A -> R) l : (forall x, In x l -> f x <= g x) -> sum (map f l) = sum (map g l) ->
  forall x, In x l -> f x = g x.
Proof.
  induction l as [|y l IH]; intros H E x Hin; [destruct Hin|]. cbn [map] in E. rewrite !sum_cons in E.
  pose proof (H y (or_introl eq_refl)). assert (forall z, In z l -> f z <= g z) as H' by (intros z Hz; apply H; right; exact Hz).
  pose proof (sum_le_in f g l H'). destruct Hin as [<-|Hin]; [lra|]. apply IH; [exact H'|lra|exact Hin].
Qed.
Lemma sum_pos_all l : (forall v, In v l -> 0 <= v) -> forall v, In v l -> v <= sum l.
Proof.
  induction l as [|a l IH]; intros H v Hin; [destruct Hin|]. rewrite sum_cons.
  assert (forall w, In w l -> 0 <= w) as H' by (intros w Hw; apply H; right; exact Hw).
  assert (0 <= sum l) as P. { rewrite <- (map_id l). clear -H'. induction l as [|b l IHl]; cbn [map]; [rewrite sum_nil; lra|]. rewrite sum_cons.
    pose proof (H' b (or_introl eq_refl)). assert (0 <= sum (map (fun x => x) l)) by (apply IHl; intros w Hw; apply H'; right; exact Hw). lra. }
  pose proof (H a (or_introl eq_refl)). destruct Hin as [<-|Hin]; [lra|]. pose proof (IH H' v Hin). lra.
Qed.

Definition entropy (ps : list R) : R := - (sum (map plogp ps) / ln (INR (length ps))).
(** the entropy of a distribution *)
Lemma entropy_bounds ps : (2 <= length ps)%nat -> (forall p, In p ps -> 0 <= p) -> sum ps = 1 ->
  0 <= entropy ps <= 1 /\ (entropy ps = 0 <-> forall p, In p ps -> p = 0 \/ p = 1)
  /\ (entropy ps = 1 <-> forall p, In p ps -> p = / INR (length ps)).
Proof.
  intros L Pos S1. set (n := INR (length ps)).
  assert (2 <= n) as N2 by (unfold n; apply le_INR in L; exact L).
  assert (0 < ln n) as LN by (rewrite <- ln_1; apply ln_increasing; lra).
  assert (forall p, In p ps -> 0 <= p <= 1) as R01.
  { intros p Hp. split; [apply Pos; exact Hp|]. rewrite <- S1. apply sum_pos_all; assumption. }
  assert (sum (map plogp ps) <= 0) as U.
  { replace 0 with (sum (map (fun _ : R => 0) ps)) by (rewrite sum_const; ring). apply sum_le_in. intros p Hp.
    apply plogp_nonpos. apply R01. exact Hp. }
  assert (forall p, In p ps -> - plogp p - p * ln n <= / n - p) as G by (intros p Hp; apply plogp_gibbs; [lra|apply Pos; exact Hp]).
  assert (sum (map (fun p => - plogp p - p * ln n) ps) = - sum (map plogp ps) - ln n) as EL.
  { rewrite sum_minus. assert (sum (map (fun p => p * ln n) ps) = ln n * sum ps) as ->.
    - rewrite <- (map_id ps) at 2. rewrite <- sum_scale. apply sum_map_ext. intros p _. ring.
    - assert (sum (map (fun p => - plogp p) ps) = - sum (map plogp ps)) as ->; [|rewrite S1; ring].
      rewrite <- (Rmult_1_l (sum (map plogp ps))), Ropp_mult_distr_l, <- sum_scale. apply sum_map_ext. intros p _. ring. }
  assert (sum (map (fun p => / n - p) ps) = 0) as ER.
  { rewrite sum_minus, sum_const, map_id, S1. fold n. field. lra. }
  pose proof (sum_le_in (fun p => - plogp p - p * ln n) (fun p => / n - p) ps G) as GS. rewrite EL, ER in GS.
  assert (entropy ps = - sum (map plogp ps) * / ln n) as EE by (unfold entropy; fold n; unfold Rdiv; ring).
  assert (0 < / ln n) as IL by (apply Rinv_0_lt_compat; exact LN).
  split; [|split].
  - rewrite EE. split; [apply Rmult_le_pos; lra|]. apply Rmult_le_reg_r with (ln n); [exact LN|].
    rewrite Rmult_assoc, Rinv_l by lra. lra.
  - rewrite EE. split.
    + intros E. apply Rmult_integral in E. destruct E as [E|E]; [|lra]. intros p Hp.
      apply (plogp_nonpos p (R01 p Hp)).
      apply (sum_eq_all plogp (fun _ => 0) ps); [intros q Hq; apply plogp_nonpos, R01; exact Hq| |exact Hp].
      rewrite sum_const. lra.
    + intros H. assert (sum (map plogp ps) = 0) as ->; [|ring].
      assert (sum (map plogp ps) = sum (map (fun _ : R => 0) ps)) as ->; [|rewrite sum_const; ring].
      apply sum_map_ext. intros p Hp. unfold plogp. destruct (zero p) eqn:Z; [reflexivity|]. apply zero_false in Z.
      destruct (H p Hp) as [E|E]; [congruence|]. rewrite E, ln_1. ring.
  - rewrite EE. split.
    + intros E p Hp. apply (plogp_gibbs n p ltac:(lra) (Pos p Hp)).
      apply (sum_eq_all (fun p => - plogp p - p * ln n) (fun p => / n - p) ps G); [|exact Hp]. rewrite EL, ER.
      apply Rmult_eq_reg_r with (/ ln n); [|lra]. rewrite Rmult_minus_distr_r, E, Rinv_r by lra. ring.
    + intros H. assert (sum (map plogp ps) = - ln n) as ->; [|field; lra].
      assert (sum (map plogp ps) = sum (map (fun _ : R => / n * - ln n) ps)) as ->; [|rewrite sum_const; fold n; field; lra].
      apply sum_map_ext. intros p Hp. specialize (H p Hp). fold n in H. subst p. unfold plogp.
      rewrite (proj2 (zero_false (/ n))) by (apply Rinv_neq_0_compat; lra). rewrite ln_Rinv by lra. reflexivity.
Qed.
Lemma entropy_model psd : (2 <= length psd)%nat -> sum psd <> 0 ->
  spectral_entropy psd = Some (entropy (map (fun v => v / sum psd) psd)).
Proof.
  intros L N. unfold spectral_entropy. rs. rewrite (proj2 (zero_false _) N).
  destruct psd as [|a [|b psd]]; [cbn in L; lia|cbn in L; lia|]. set (l := a :: b :: psd) in *.
  apply (f_equal Some). unfold entropy. rewrite map_map, map_length. apply Ropp_eq_compat.
  rs. set (s := sum l). unfold log2.
  assert (sum (map (fun v => entropy_term (v / s)) l) = sum (map (fun v => plogp (v / s)) l) / ln 2) as ->.
  - transitivity (/ ln 2 * sum (map (fun v => plogp (v / s)) l)); [|unfold Rdiv; ring]. rewrite <- sum_scale. apply sum_map_ext. intros v _. unfold entropy_term, plogp, log2.
    destruct (zero (v / s)); unfold Rdiv; ring.
  - pose proof ln2_pos. assert (0 < ln (INR (length l))).
    { rewrite <- ln_1. apply ln_increasing; [lra|]. apply le_INR in L. change (INR 2) with 2 in L. fold l in L. lra. }
    field. lra.
Qed.
Lemma sum_div l s : sum (map (fun v => v / s) l) = sum l / s.
Proof.
  transitivity (/ s * sum (map (fun v => v) l)); [|rewrite map_id; unfold Rdiv; ring].
  rewrite <- sum_scale. apply sum_map_ext. intros v _. unfold Rdiv. ring.
Qed.

(** C287: the spectral entropy of a spectrum with two or more frequencies is between 0 and 1; it is 0 exactly when one
    frequency has all the power and 1 exactly when all have the same. *)
Theorem C287_entropy : forall psd, (2 <= length psd)%nat -> (forall v, In v psd -> 0 <= v) -> (exists v, In v psd /\ v <> 0) ->
  exists h, spectral_entropy psd = Some h /\ 0 <= h <= 1
    /\ (h = 0 <-> forall v, In v psd -> v = 0 \/ v = sum psd)
    /\ (h = 1 <-> forall v w, In v psd -> In w psd -> v = w).
Proof.
  intros psd L Pos (v0 & H0 & N0).
  assert (0 < sum psd) as SP. { pose proof (sum_pos_all psd Pos v0 H0). pose proof (Pos v0 H0). lra. }
  exists (entropy (map (fun v => v / sum psd) psd)).
  split; [apply entropy_model; [exact L|lra]|]. set (s := sum psd) in *.
  assert (0 < / s) as IS by (apply Rinv_0_lt_compat; exact SP).
  destruct (entropy_bounds (map (fun v => v / s) psd)) as (B & E0 & E1).
  - rewrite map_length. exact L.
  - intros p Hp. apply in_map_iff in Hp. destruct Hp as (v & <- & Hv). apply Rmult_le_pos; [apply Pos; exact Hv|lra].
  - rewrite sum_div. fold s. unfold Rdiv. apply Rinv_r. lra.
  - split; [exact B|]. split.
    + rewrite E0. split.
      * intros H v Hv. destruct (H (v / s)) as [E|E]; [apply in_map_iff; exists v; auto| |].
        -- left. apply Rmult_eq_reg_r with (/ s); [|lra]. rewrite Rmult_0_l. exact E.
        -- right. apply Rmult_eq_reg_r with (/ s); [|lra]. rewrite Rinv_r by lra. exact E.
      * intros H p Hp. apply in_map_iff in Hp. destruct Hp as (v & <- & Hv). destruct (H v Hv) as [-> | ->].
        -- left. unfold Rdiv. ring.
        -- right. unfold Rdiv. apply Rinv_r. lra.
    + rewrite E1, map_length. set (n := INR (length psd)). assert (0 < n) as NP by (unfold n; apply len_pos; destruct psd; [cbn in L; lia|discriminate]).
      split.
      * intros H v w Hv Hw. apply Rmult_eq_reg_r with (/ s); [|lra].
        transitivity (/ n); [|symmetry]; apply H; apply in_map_iff; [exists v|exists w]; auto.
      * intros H p Hp. apply in_map_iff in Hp. destruct Hp as (v & <- & Hv).
        assert (s = v * n) as Es.
        { unfold s. rewrite <- (map_id psd). transitivity (sum (map (fun _ : R => v) psd)); [|apply sum_const].
          apply sum_map_ext. intros w Hw. apply H; assumption. }
        assert (v <> 0) as Nv by (intros ->; rewrite Rmult_0_l in Es; lra).
        rewrite Es. field. split; lra.
Qed.

Print Assumptions C287_strength_partial.
Print Assumptions C287_strength_refuted.
Print Assumptions C287_entropy.
