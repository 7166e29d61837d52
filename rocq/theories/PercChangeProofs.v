(** Lemmas for C71-C76. *)
From Coq Require Import Reals Lra Lia List Arith Bool.
Import ListNotations.
From Verif Require Import PercChangeModel PercChangeSpec.
Open Scope R_scope.

Lemma rsum_fold l : rsum l = fold_right Rplus 0 l.
Proof. induction l as [|x t IH]; cbn; [reflexivity|]. rewrite IH. reflexivity. Qed.
Lemma ltb_true a b : ltb a b = true <-> a < b.
Proof. unfold ltb. destruct (Rlt_dec a b); split; intros; try lra; try reflexivity; discriminate. Qed.
Lemma ltb_false a b : ltb a b = false <-> b <= a.
Proof. unfold ltb. destruct (Rlt_dec a b); split; intros; try lra; try reflexivity; discriminate. Qed.
Lemma eqb0_true a : eqb0 a = true <-> a = 0.
Proof. unfold eqb0. destruct (Req_EM_T a 0); split; intros; try assumption; try reflexivity; try discriminate; contradiction. Qed.
Lemma rdiv_some a b : b <> 0 -> rdiv a b = Some (a / b).
Proof. intros H. unfold rdiv. destruct (eqb0 b) eqn:E; [apply eqb0_true in E; contradiction|reflexivity]. Qed.
Lemma rdiv_none a : rdiv a 0 = None.
Proof. unfold rdiv. destruct (eqb0 0) eqn:E; [reflexivity|]. assert (eqb0 0 = true) by (apply eqb0_true; reflexivity). congruence. Qed.
Lemma rdiv_inv a b q : rdiv a b = Some q -> b <> 0 /\ q = a / b.
Proof.
  unfold rdiv. destruct (eqb0 b) eqn:E; [discriminate|]. intros H. injection H as <-. split; [|reflexivity].
  intros C. apply eqb0_true in C. congruence.
Qed.

Lemma len_ge1 l : (1 <= length l)%nat -> 1 <= len l.
Proof. intros H. unfold len. change 1 with (INR 1). apply le_INR, H. Qed.
Lemma rsum_shift c l : rsum (shift c l) = rsum l + c * len l.
Proof.
  unfold shift, len. induction l as [|x t IH]; cbn [map rsum length]; [simpl; lra|].
  rewrite IH, S_INR. lra.
Qed.
Lemma rsum_scale k l : rsum (scale k l) = k * rsum l.
Proof. unfold scale. induction l as [|x t IH]; cbn [map rsum]; [lra|]. rewrite IH. lra. Qed.
Lemma len_shift c l : len (shift c l) = len l.
Proof. unfold len, shift. rewrite map_length. reflexivity. Qed.
Lemma len_scale k l : len (scale k l) = len l.
Proof. unfold len, scale. rewrite map_length. reflexivity. Qed.
Lemma rmean_shift c l : (1 <= length l)%nat -> rmean (shift c l) = rmean l + c.
Proof.
  intros H. pose proof (len_ge1 l H). unfold rmean. rewrite rsum_shift, len_shift. field. lra.
Qed.
Lemma rmean_scale k l : rmean (scale k l) = k * rmean l.
Proof. unfold rmean. rewrite rsum_scale, len_scale. unfold Rdiv. ring. Qed.

Definition sse (l : list R) : R := rsum (map (fun x => (x - rmean l) * (x - rmean l)) l).
Lemma sse_nonneg_gen m l : 0 <= rsum (map (fun x => (x - m) * (x - m)) l).
Proof. induction l as [|x t IH]; cbn [map rsum]; [lra|]. pose proof (Rle_0_sqr (x - m)) as Q. unfold Rsqr in Q. lra. Qed.
Lemma sse_nonneg l : 0 <= sse l. Proof. apply sse_nonneg_gen. Qed.
Lemma sse_shift c l : (1 <= length l)%nat -> sse (shift c l) = sse l.
Proof.
  intros H. unfold sse. rewrite rmean_shift by exact H. generalize (rmean l) as m. intros m. clear H.
  unfold shift. rewrite map_map. induction l as [|x t IH]; cbn [map rsum]; [reflexivity|]. rewrite IH. ring.
Qed.
Lemma sse_scale k l : sse (scale k l) = k * k * sse l.
Proof.
  unfold sse. rewrite rmean_scale. generalize (rmean l) as m. intros m.
  unfold scale. rewrite map_map. induction l as [|x t IH]; cbn [map rsum]; [ring|]. rewrite IH. ring.
Qed.
Lemma sse_one x : sse [x] = 0.
Proof. unfold sse, rmean, len. cbn. field. Qed.
Lemma rvar_sse l : (1 <= length l)%nat -> (len l - 1) * rvar l = sse l.
Proof.
  intros H. unfold rvar. destruct (Nat.eqb_spec (length l) 1) as [E|N].
  - destruct l as [|x [|y t]]; try discriminate. rewrite sse_one. ring.
  - fold (sse l). assert (2 <= len l).
    { unfold len. replace 2 with (INR 2) by (simpl; lra). apply le_INR. lia. }
    field. lra.
Qed.
Lemma rvar_nonneg l : 0 <= rvar l.
Proof.
  unfold rvar. destruct (Nat.eqb_spec (length l) 1) as [E|N]; [lra|].
  destruct l as [|x [|y t]]; cbn [length] in *; [simpl; unfold len; simpl; lra|lia|].
  fold (sse (x :: y :: t)). apply Rmult_le_pos; [apply sse_nonneg|].
  left. apply Rinv_0_lt_compat. unfold len. cbn [length]. rewrite !S_INR. pose proof (pos_INR (length t)). lra.
Qed.

Lemma rmean_spec l : l <> [] -> mean_of (rmean l) l.
Proof.
  intros H. split; [exact H|]. unfold rmean, len. rewrite (rsum_fold l). field.
  destruct l; [congruence|]. cbn [length]. rewrite S_INR. pose proof (pos_INR (length l)). lra.
Qed.
Lemma mean_of_unique m l : mean_of m l -> m = rmean l.
Proof.
  intros [H1 H2]. unfold rmean, len. rewrite (rsum_fold l), <- H2. field.
  destruct l; [congruence|]. cbn [length]. rewrite S_INR. pose proof (pos_INR (length l)). lra.
Qed.
Lemma squares_unique s l : squares_of s l -> s = sse l.
Proof.
  intros (m & Hm & ->). apply mean_of_unique in Hm as ->. unfold sse. rewrite (rsum_fold (map (fun x => (x - rmean l) * (x - rmean l)) l)). f_equal.
  apply map_ext. intros x. ring.
Qed.
Lemma sse_spec l : l <> [] -> squares_of (sse l) l.
Proof.
  intros H. exists (rmean l). split; [apply rmean_spec, H|]. unfold sse. rewrite (rsum_fold (map (fun x => (x - rmean l) * (x - rmean l)) l)). f_equal.
  apply map_ext. intros x. ring.
Qed.

(** *** the statistic *)
Definition denom (cur prev : list R) (corrected : bool) : R :=
  sqrt ((sse prev + sse cur) / (len prev + len cur - 2))
  * (if corrected then sqrt (1 / len prev + 1 / len cur) else 1).
Lemma testable_facts cur prev : testable cur prev ->
  1 <= len cur /\ 1 <= len prev /\ 0 < len prev + len cur - 2
  /\ ((Nat.eqb (length prev) 0 || Nat.eqb (length cur) 0
        || (Nat.eqb (length prev) 1 && Nat.eqb (length cur) 1))%bool = false)
  /\ (Nat.eqb (length prev) 1 && Nat.eqb (length cur) 1)%bool = false.
Proof.
  intros (A & B & C). split; [apply len_ge1, A|]. split; [apply len_ge1, B|]. split.
  - assert (H : INR 3 <= INR (length cur + length prev)) by (apply le_INR, C).
    rewrite plus_INR in H. unfold len. simpl (INR 3) in H. lra.
  - destruct (Nat.eqb_spec (length prev) 0), (Nat.eqb_spec (length cur) 0), (Nat.eqb_spec (length prev) 1),
      (Nat.eqb_spec (length cur) 1); try lia; split; reflexivity.
Qed.
Lemma pooled_denom cur prev corrected : testable cur prev ->
  pooled_stddev cur prev corrected = denom cur prev corrected.
Proof.
  intros H. destruct (testable_facts _ _ H) as (A & B & C & D & _). destruct H as (HA & HB & _).
  unfold pooled_stddev. rewrite D. rewrite !rvar_sse by assumption. unfold denom.
  cbv zeta. destruct corrected; [reflexivity|ring].
Qed.
Lemma t_score_denom cur prev corrected : testable cur prev ->
  t_score cur prev corrected = rdiv (rmean cur - rmean prev) (denom cur prev corrected).
Proof.
  intros H. unfold t_score. rewrite pooled_denom by exact H.
  destruct (testable_facts _ _ H) as (_ & _ & _ & _ & ->). reflexivity.
Qed.
Lemma corr_pos cur prev : testable cur prev -> 0 < sqrt (1 / len prev + 1 / len cur).
Proof.
  intros H. destruct (testable_facts _ _ H) as (A & B & _). apply sqrt_lt_R0.
  assert (0 < 1 / len prev) by (apply Rdiv_lt_0_compat; lra).
  assert (0 < 1 / len cur) by (apply Rdiv_lt_0_compat; lra). lra.
Qed.
Lemma denom_nonneg cur prev corrected : 0 <= denom cur prev corrected.
Proof.
  unfold denom. apply Rmult_le_pos; [apply sqrt_pos|]. destruct corrected; [apply sqrt_pos|lra].
Qed.
Lemma denom_pos cur prev corrected : testable cur prev -> 0 < sse prev + sse cur -> 0 < denom cur prev corrected.
Proof.
  intros H S. destruct (testable_facts _ _ H) as (_ & _ & C & _). unfold denom.
  apply Rmult_lt_0_compat.
  - apply sqrt_lt_R0, Rdiv_lt_0_compat; assumption.
  - destruct corrected; [apply (corr_pos _ _ H)|lra].
Qed.
Lemma denom_zero cur prev corrected : sse prev + sse cur = 0 -> denom cur prev corrected = 0.
Proof. intros E. unfold denom. rewrite E. unfold Rdiv. rewrite Rmult_0_l, sqrt_0. ring. Qed.
Lemma testable_shift c cur prev : testable cur prev -> testable (shift c cur) (shift c prev).
Proof. unfold testable, shift. rewrite !map_length. tauto. Qed.
Lemma testable_scale k cur prev : testable cur prev -> testable (scale k cur) (scale k prev).
Proof. unfold testable, scale. rewrite !map_length. tauto. Qed.
Lemma testable_swap cur prev : testable cur prev -> testable prev cur.
Proof. unfold testable. lia. Qed.

Lemma t_shift c cur prev corrected : testable cur prev ->
  t_score (shift c cur) (shift c prev) corrected = t_score cur prev corrected.
Proof.
  intros H. rewrite !t_score_denom by (try apply testable_shift; exact H).
  destruct H as (A & B & _). unfold denom. rewrite !rmean_shift, !sse_shift, !len_shift by assumption.
  f_equal. ring.
Qed.
Lemma t_scale k cur prev corrected : 0 < k -> testable cur prev ->
  t_score (scale k cur) (scale k prev) corrected = t_score cur prev corrected.
Proof.
  intros Hk H. rewrite !t_score_denom by (try apply testable_scale; exact H).
  destruct (testable_facts _ _ H) as (_ & _ & C & _).
  assert (D : denom (scale k cur) (scale k prev) corrected = k * denom cur prev corrected).
  { unfold denom. rewrite !sse_scale, !len_scale.
    replace ((k * k * sse prev + k * k * sse cur) / (len prev + len cur - 2))
      with ((k * k) * ((sse prev + sse cur) / (len prev + len cur - 2))) by (field; lra).
    rewrite sqrt_mult_alt by (pose proof (Rle_0_sqr k) as Q; exact Q).
    rewrite sqrt_square by lra. ring. }
  rewrite D, !rmean_scale. unfold rdiv.
  destruct (eqb0 (denom cur prev corrected)) eqn:E.
  - apply eqb0_true in E. rewrite E, Rmult_0_r.
    destruct (eqb0 0) eqn:E0; [reflexivity|]. assert (eqb0 0 = true) by (apply eqb0_true; reflexivity). congruence.
  - assert (Hd : denom cur prev corrected <> 0) by (intros X; apply eqb0_true in X; congruence).
    destruct (eqb0 (k * denom cur prev corrected)) eqn:E1.
    + apply eqb0_true in E1. apply Rmult_integral in E1. destruct E1; [lra|contradiction].
    + f_equal. field. split; [exact Hd|lra].
Qed.
Lemma t_swap cur prev corrected : testable cur prev ->
  t_score prev cur corrected = option_map Ropp (t_score cur prev corrected).
Proof.
  intros H. rewrite !t_score_denom by (first [exact H|apply testable_swap; exact H]).
  assert (D : denom prev cur corrected = denom cur prev corrected).
  { unfold denom. rewrite (Rplus_comm (sse cur)), (Rplus_comm (len cur)), (Rplus_comm (1 / len cur)). reflexivity. }
  rewrite D. unfold rdiv. destruct (eqb0 _); [reflexivity|]. cbn [option_map]. f_equal. unfold Rdiv. ring.
Qed.

(** *** multivariate *)
Lemma ttest_ind_denom cur prev : testable cur prev ->
  ttest_ind cur prev = rdiv (rmean cur - rmean prev) (denom cur prev true).
Proof.
  intros H. unfold ttest_ind, denom. fold (sse prev). fold (sse cur).
  destruct (testable_facts _ _ H) as (_ & _ & C & _).
  rewrite sqrt_mult_alt; [reflexivity|].
  apply Rmult_le_pos; [pose proof (sse_nonneg prev); pose proof (sse_nonneg cur); lra|].
  left. apply Rinv_0_lt_compat, C.
Qed.

(** *** delta method *)
Lemma delta_order cur prev nq lo up : nq <= 0 -> delta_method cur prev nq = Some (lo, up) ->
  exists r, ratio cur prev = Some r /\ lo <= r <= up /\ up - r = r - lo.
Proof.
  intros Hn. unfold delta_method. destruct (ratio cur prev) as [r|]; [|discriminate].
  destruct (calc_cov cur prev); [|discriminate]. cbv zeta. intros E. injection E as <- <-.
  exists r. split; [reflexivity|].
  match goal with |- context [sqrt ?x] => pose proof (sqrt_pos x) as P; set (w := sqrt x) in * end.
  assert (nq * w <= 0) by (assert (0 <= - nq * w) by (apply Rmult_le_pos; lra); lra).
  split; [lra|ring].
Qed.

Lemma rsum_repeat c n : rsum (repeat c n) = c * INR n.
Proof. induction n as [|n IH]; [simpl; lra|]. cbn [repeat rsum]. rewrite IH, S_INR. lra. Qed.
Lemma rmean_repeat c n : (1 <= n)%nat -> rmean (repeat c n) = c.
Proof.
  intros H. unfold rmean, len. rewrite rsum_repeat, repeat_length. field.
  apply not_0_INR. lia.
Qed.
Lemma sse_repeat c n : (1 <= n)%nat -> sse (repeat c n) = 0.
Proof.
  intros H. unfold sse. rewrite rmean_repeat by exact H. clear H.
  induction n as [|n IH]; [reflexivity|]. cbn [repeat map rsum]. rewrite IH. ring.
Qed.
Lemma rvar_repeat c n : (1 <= n)%nat -> rvar (repeat c n) = 0.
Proof.
  intros H. unfold rvar. destruct (Nat.eqb (length (repeat c n)) 1); [reflexivity|].
  fold (sse (repeat c n)). rewrite sse_repeat by exact H. unfold Rdiv. ring.
Qed.
Lemma last_repeat c n m : (m <= n)%nat -> last_of m (repeat c n) = repeat c m.
Proof.
  intros H. unfold last_of. rewrite repeat_length.
  replace n with ((n - m) + m)%nat at 2 by lia. rewrite repeat_app, skipn_app, repeat_length.
  rewrite (skipn_all2 (repeat c (n - m))) by (rewrite repeat_length; lia).
  replace (n - m - (n - m))%nat with O by lia. reflexivity.
Qed.
Lemma cov_repeat c d n m : (2 <= n)%nat -> (2 <= m)%nat -> calc_cov (repeat c n) (repeat d m) = Some 0.
Proof.
  intros Hn Hm. unfold calc_cov. rewrite !repeat_length.
  destruct (Nat.leb_spec (Nat.min n m) 1); [lia|]. cbv zeta.
  set (k := Nat.min n m) in *.
  rewrite (last_repeat c), (last_repeat d) by (unfold k; lia).
  rewrite !rmean_repeat by lia. f_equal.
  assert (E : rsum (map (fun p => (fst p - c) * (snd p - d)) (combine (repeat c k) (repeat d k))) = 0).
  { clear. induction k as [|k IH]; [reflexivity|]. cbn [repeat combine map rsum fst snd]. rewrite IH. ring. }
  rewrite E. unfold Rdiv. ring.
Qed.

(** *** spikes: at most (n-1)/k^2 of them *)
Lemma spike_iff threshold l x : 0 < threshold ->
  is_spike threshold l x = true <-> 0 < rvar l /\ x - rmean l >= threshold * sqrt (rvar l).
Proof.
  intros Ht. unfold is_spike, z_score.
  destruct (Rlt_dec 0 (rvar l)) as [P|N].
  - pose proof (sqrt_lt_R0 _ P) as S. rewrite rdiv_some by lra.
    rewrite negb_true_iff, ltb_false. split.
    + intros H. split; [exact P|]. apply Rle_ge.
      apply (Rmult_le_compat_r (sqrt (rvar l))) in H; [|lra].
      replace ((x - rmean l) / sqrt (rvar l) * sqrt (rvar l)) with (x - rmean l) in H by (field; lra). exact H.
    + intros [_ H]. apply Rge_le in H.
      apply (Rmult_le_reg_r (sqrt (rvar l))); [exact S|].
      replace ((x - rmean l) / sqrt (rvar l) * sqrt (rvar l)) with (x - rmean l) by (field; lra). exact H.
  - pose proof (rvar_nonneg l). assert (E : rvar l = 0) by lra. rewrite E, sqrt_0, rdiv_none.
    split; [discriminate|]. intros [C _]. lra.
Qed.
Lemma spikes_squares m w k l : 0 <= w -> 0 < k ->
  INR (length (filter (fun x => negb (ltb (x - m) (k * w))) l)) * (k * k * (w * w))
  <= rsum (map (fun x => (x - m) * (x - m)) l).
Proof.
  intros Hw Hk. induction l as [|x t IH]; cbn [filter map rsum]; [simpl; lra|].
  destruct (negb (ltb (x - m) (k * w))) eqn:E.
  - cbn [length]. rewrite S_INR. apply negb_true_iff, ltb_false in E.
    assert (0 <= k * w) by (apply Rmult_le_pos; lra).
    assert ((k * w) * (k * w) <= (x - m) * (x - m)) by (apply Rmult_le_compat; lra). lra.
  - pose proof (Rle_0_sqr (x - m)) as Q. unfold Rsqr in Q. lra.
Qed.
Lemma filter_snd_length {T} (f g : R -> bool) (l : list (T * R)) :
  (forall x, f x = g x) -> length (filter (fun r => f (snd r)) l) = length (filter g (map snd l)).
Proof.
  intros G. induction l as [|x t IH]; [reflexivity|]. cbn [filter map].
  rewrite <- G. destruct (f (snd x)); cbn [length]; rewrite IH; reflexivity.
Qed.
