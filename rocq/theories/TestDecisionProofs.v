From Coq Require Import Reals Lra.
From Verif Require Import TestDecisionModel TestDecisionSpec.
Open Scope R_scope.

Lemma ppf_half ppf : normal_quantile ppf -> ppf (1/2) = 0.
Proof. intros [H _]. specialize (H (1/2) ltac:(lra)). replace (1 - 1/2) with (1/2) in H by lra. lra. Qed.

Lemma ppf_nonpos ppf a : normal_quantile ppf -> 0 < a <= 1/2 -> ppf a <= 0.
Proof.
  intros H Ha. pose proof (ppf_half ppf H) as Hh. destruct H as [_ Hm].
  destruct (Req_dec a (1/2)) as [->|Hne]; [lra|]. specialize (Hm a (1/2) ltac:(lra) ltac:(lra) ltac:(lra)). lra.
Qed.

Lemma ppf_pos ppf a : normal_quantile ppf -> 1/2 < a < 1 -> 0 < ppf a.
Proof.
  intros H Ha. pose proof (ppf_half ppf H) as Hh. destruct H as [_ Hm].
  specialize (Hm (1/2) a ltac:(lra) ltac:(lra) ltac:(lra)). lra.
Qed.

Lemma le_div_iff x s l : 0 < s -> x / s <= l <-> x <= l * s.
Proof.
  intros Hs. split; intros H.
  - apply (Rmult_le_compat_r s) in H; [|lra]. replace (x / s * s) with x in H by (field; lra). lra.
  - apply (Rmult_le_reg_r s); [lra|]. replace (x / s * s) with x by (field; lra). lra.
Qed.
Lemma ge_div_iff x s l : 0 < s -> x / s >= l <-> x >= l * s.
Proof.
  intros Hs. split; intros H.
  - apply Rge_le in H. apply (Rmult_le_compat_r s) in H; [|lra]. replace (x / s * s) with x in H by (field; lra). lra.
  - apply Rle_ge. apply (Rmult_le_reg_r s); [lra|]. replace (x / s * s) with x by (field; lra). lra.
Qed.

(** The level used by the test: corrected alpha must be at most 1/2 for one-sided tests. *)
Definition admissible (tt : test_type) (ca : R) : Prop :=
  match tt with TwoSided => 0 < ca < 1 | _ => 0 < ca <= 1/2 end.

Lemma z_value ppf tt ca z : normal_quantile ppf -> admissible tt ca ->
  absolute_critical_value (mk_critical_value ppf tt ca) = Some z ->
  match tt with
  | OneSidedLower => ppf ca = - z
  | OneSidedUpper => ppf (1 - ca) = z
  | TwoSided => ppf (ca / 2) = - z /\ ppf (1 - ca / 2) = z
  end.
Proof.
  intros Hp Ha Hz. destruct tt; simpl in *; injection Hz as <-.
  - pose proof (ppf_nonpos ppf ca Hp Ha). rewrite Rabs_left1 by lra. lra.
  - pose proof (ppf_nonpos ppf ca Hp Ha). destruct Hp as [Hs _].
    rewrite Hs by lra. rewrite Rabs_right by lra. reflexivity.
  - pose proof (ppf_nonpos ppf (ca / 2) Hp ltac:(lra)). destruct Hp as [Hs _].
    rewrite Hs by lra. rewrite Rabs_left1 by lra. lra.
Qed.

Lemma decision_iff tt c z x se lo up stat :
  0 < se -> stat = x / se ->
  match tt with
  | OneSidedLower => cv_lower c = Some (- z)
  | OneSidedUpper => cv_upper c = Some z
  | TwoSided => cv_lower c = Some (- z) /\ cv_upper c = Some z
  end ->
  rejects tt c {| tr_statistic := stat; tr_lower := lo; tr_upper := up |} <->
  match tt with
  | OneSidedLower => x + z * se <= 0
  | OneSidedUpper => x - z * se >= 0
  | TwoSided => x + z * se <= 0 \/ x - z * se >= 0
  end.
Proof.
  intros Hse -> Hc. destruct tt; simpl; [|..|destruct Hc as [Hc Hc']; rewrite Hc']; rewrite Hc;
    rewrite ?(le_div_iff x se), ?(ge_div_iff x se) by assumption; split; intros; lra.
Qed.

Lemma absolute_agrees ppf tt ca z a b effect va vb :
  normal_quantile ppf -> admissible tt ca -> 0 < va + vb ->
  absolute_critical_value (mk_critical_value ppf tt ca) = Some z ->
  let r := absolute_difference tt z a b effect va vb in
  rejects tt (mk_critical_value ppf tt ca) r <-> excludes r effect.
Proof.
  intros Hp Ha Hv Hz r. pose proof (z_value _ _ _ _ Hp Ha Hz) as Hzv.
  assert (Hse : 0 < sqrt (va + vb)) by (apply sqrt_lt_R0; assumption).
  unfold r, absolute_difference.
  set (se := sqrt (va + vb)) in *.
  destruct tt; simpl bounds; cbv iota;
  (rewrite (decision_iff _ _ z (b - a - effect) se); [|assumption|reflexivity|simpl; try (destruct Hzv); split || idtac; congruence]);
  unfold excludes, inside; simpl; split; intros H.
  - lra.
  - apply Rnot_gt_le. intro. apply H. split; [exact I|lra].
  - lra.
  - apply Rle_ge, Rnot_gt_le. intro. apply H. split; [lra|exact I].
  - lra.
  - destruct (Rle_dec (b - a - effect + z * se) 0); [left; lra|].
    destruct (Rge_dec (b - a - effect - z * se) 0); [right; lra|]. exfalso. apply H. lra.
Qed.

Lemma exp_lt_iff x y : exp x < y <-> (0 < y /\ x < ln y).
Proof.
  split.
  - intros H. pose proof (exp_pos x). split; [lra|].
    rewrite <- (ln_exp x). apply ln_increasing; [apply exp_pos|exact H].
  - intros [Hy H]. rewrite <- (exp_ln y Hy). apply exp_increasing. exact H.
Qed.
Lemma lt_exp_iff x y : 0 < y -> (y < exp x <-> ln y < x).
Proof.
  intros Hy. split; intros H.
  - rewrite <- (ln_exp x). apply ln_increasing; assumption.
  - rewrite <- (exp_ln y Hy). apply exp_increasing. exact H.
Qed.

Lemma relative_agrees ppf tt ca z a b effect va vb :
  normal_quantile ppf -> admissible tt ca -> 0 <= va -> 0 <= vb -> 0 < va + vb -> -1 < effect ->
  absolute_critical_value (mk_critical_value ppf tt ca) = Some z ->
  let r := relative_difference tt z a b effect va vb in
  rejects tt (mk_critical_value ppf tt ca) r <-> excludes r (1 + effect).
Proof.
  intros Hp Ha Hva Hvb Hv He Hz r. pose proof (z_value _ _ _ _ Hp Ha Hz) as Hzv.
  unfold r, relative_difference.
  assert (HE : 0 < EPS2) by (unfold EPS2, EPS; apply pow_lt; apply Rinv_0_lt_compat; lra).
  assert (Hse : 0 < sqrt (va / Rmax (a ^ 2) EPS2 + vb / Rmax (b ^ 2) EPS2)).
  { apply sqrt_lt_R0.
    assert (Ma : 0 < / Rmax (a ^ 2) EPS2) by (apply Rinv_0_lt_compat; pose proof (Rmax_r (a ^ 2) EPS2); lra).
    assert (Mb : 0 < / Rmax (b ^ 2) EPS2) by (apply Rinv_0_lt_compat; pose proof (Rmax_r (b ^ 2) EPS2); lra).
    unfold Rdiv. pose proof (Rmult_le_pos va _ Hva (Rlt_le _ _ Ma)). pose proof (Rmult_le_pos vb _ Hvb (Rlt_le _ _ Mb)).
    destruct (Rle_lt_or_eq_dec 0 va Hva) as [Hlt|<-].
    - pose proof (Rmult_lt_0_compat va _ Hlt Ma). lra.
    - assert (Hb : 0 < vb) by lra. pose proof (Rmult_lt_0_compat vb _ Hb Mb). lra. }
  set (se := sqrt _) in *. set (d := ln (Rmax b EPS) - ln (Rmax a EPS)).
  assert (H1e : 0 < 1 + effect) by lra.
  destruct tt; simpl bounds; cbv iota;
  (rewrite (decision_iff _ _ z (d - ln (1 + effect)) se); [|assumption|reflexivity|simpl; try (destruct Hzv); split || idtac; congruence]);
  unfold excludes, inside; simpl tr_lower; simpl tr_upper; cbv iota;
  rewrite ?exp_lt_iff, ?lt_exp_iff by assumption; split; intros H.
  - lra.
  - apply Rnot_gt_le. intro. apply H. split; [exact I|lra].
  - lra.
  - apply Rle_ge, Rnot_gt_le. intro. apply H. split; [lra|exact I].
  - lra.
  - destruct (Rle_dec (d - ln (1 + effect) + z * se) 0); [left; lra|].
    destruct (Rge_dec (d - ln (1 + effect) - z * se) 0); [right; lra|]. exfalso. apply H. lra.
Qed.

Lemma two_sided_disjunction ppf ca r :
  rejects TwoSided (mk_critical_value ppf TwoSided ca) r <->
  (rejects OneSidedLower (mk_critical_value ppf OneSidedLower (ca / 2)) r \/
   rejects OneSidedUpper (mk_critical_value ppf OneSidedUpper (ca / 2)) r).
Proof. simpl. tauto. Qed.

(** One-sided tests with corrected alpha above 1/2: a point is rejected although the interval
    contains the hypothesised effect. *)
Lemma one_sided_refuted ppf ca z :
  normal_quantile ppf -> 1/2 < ca < 1 ->
  absolute_critical_value (mk_critical_value ppf OneSidedLower ca) = Some z ->
  exists a b effect va vb, 0 < va + vb /\
    let r := absolute_difference OneSidedLower z a b effect va vb in
    rejects OneSidedLower (mk_critical_value ppf OneSidedLower ca) r /\ ~ excludes r effect.
Proof.
  intros Hp Ha Hz. simpl in Hz. injection Hz as <-.
  pose proof (ppf_pos ppf ca Hp Ha) as Hpos. rewrite (Rabs_right (ppf ca)) by lra.
  exists 0, 0, 0, 1, 0. split; [lra|]. cbv zeta. unfold absolute_difference. simpl bounds. cbv iota.
  replace (1 + 0) with 1 by lra. rewrite sqrt_1. split.
  - simpl. lra.
  - unfold excludes, inside. simpl. intros H. apply H. split; [exact I|lra].
Qed.
