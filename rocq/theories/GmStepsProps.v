(** C215: the steps of a pass of the global model — proofs and theorems. *)
From Coq Require Import List Bool Arith QArith Lia Sorted.
From Verif Require Import GmBatchModel GmBatchProps GmPassModel.
Import ListNotations.
Open Scope nat_scope.

Lemma mod_eq_iff a b d : d <> 0 -> a <= b -> ((b mod d = a mod d) <-> exists k, b = a + k * d).
Proof.
  intros Hd H. split.
  - intros E. exists (b / d - a / d). pose proof (Nat.div_mod a d Hd). pose proof (Nat.div_mod b d Hd). assert (a / d <= b / d) by (apply Nat.div_le_mono; assumption). nia.
  - intros [k ->]. apply Nat.mod_add. exact Hd.
Qed.
Lemma rnn_tail fuel total last cur : total <= fuel + cur -> last <= cur -> rnn_steps fuel total last cur 1 = seq cur (total - cur).
Proof.
  revert cur. induction fuel as [|fuel IH]; intros cur F L; cbn [rnn_steps].
  - replace (total - cur) with 0 by lia. reflexivity.
  - destruct (cur <? total) eqn:E; [| apply Nat.ltb_ge in E; replace (total - cur) with 0 by lia; reflexivity].
    apply Nat.ltb_lt in E. replace (cur <? last) with false by (symmetry; apply Nat.ltb_ge; exact L). rewrite andb_false_r.
    rewrite IH by lia. replace (total - cur) with (S (total - (cur + 1))) by lia. cbn [seq]. f_equal. f_equal. lia.
Qed.
Lemma rnn_form delta last total : 1 <= delta -> last < total -> forall fuel cur, total <= fuel + cur -> cur < last ->
  exists m, rnn_steps fuel total last cur delta = map (fun k => cur + k * delta) (seq 0 (S m)) ++ seq last (total - last) /\ cur + m * delta < last <= cur + S m * delta.
Proof.
  intros Hd HL. induction fuel as [|fuel IH]; intros cur F L; [lia |]. cbn [rnn_steps]. replace (cur <? total) with true by (symmetry; apply Nat.ltb_lt; lia).
  replace (cur <? last) with true by (symmetry; apply Nat.ltb_lt; lia). rewrite andb_true_r. destruct (last <=? cur + delta) eqn:E.
  - apply Nat.leb_le in E. rewrite rnn_tail by lia. exists 0. cbn [seq map app]. split; [f_equal; lia | lia].
  - apply Nat.leb_gt in E. destruct (IH (cur + delta) ltac:(lia) E) as [m [Em Bm]]. exists (S m). split; [| nia]. rewrite Em.
    change (seq 0 (S (S m))) with (0 :: seq 1 (S m)). rewrite <- seq_shift. cbn [map app]. rewrite map_map. f_equal; [lia |]. f_equal. apply map_ext. intros k. lia.
Qed.
Lemma sorted_app (l1 l2 : list nat) : StronglySorted lt l1 -> StronglySorted lt l2 -> (forall a b, In a l1 -> In b l2 -> a < b) -> StronglySorted lt (l1 ++ l2).
Proof.
  intros A B C. induction A as [|x l1 A IH F]; [exact B |]. cbn [app]. constructor; [apply IH; intros; apply C; [right |]; assumption |].
  rewrite Forall_forall in *. intros y Hy. apply in_app_iff in Hy. destruct Hy as [Hy|Hy]; [apply F; exact Hy | apply C; [left; reflexivity | exact Hy]].
Qed.
Lemma seq_sorted a n : StronglySorted lt (seq a n).
Proof. revert a. induction n as [|n IH]; intros a; cbn [seq]; constructor; [apply IH |]. apply Forall_forall. intros y Hy. apply in_seq in Hy. lia. Qed.
Lemma spaced_sorted cur d m : 1 <= d -> StronglySorted lt (map (fun k => cur + k * d) (seq 0 m)).
Proof.
  intros Hd. assert (G : forall a, StronglySorted lt (map (fun k => cur + k * d) (seq a m))).
  { induction m as [|m IH]; intros a; cbn [seq map]; constructor; [apply IH |]. apply Forall_forall. intros y Hy. apply in_map_iff in Hy. destruct Hy as [k [<- Hk]]. apply in_seq in Hk. nia. }
  apply G.
Qed.

(** C215: with two training steps or more, the seasonal network visits every delta-th training step, then the last training step and
    all steps after it, each of them once and in order *)
Theorem C215_visited total last delta k : 1 <= delta -> 1 <= last < total ->
  (In k (rnn_steps total total last 0 delta) <-> k < total /\ (last <= k \/ k mod delta = 0)) /\ StronglySorted lt (rnn_steps total total last 0 delta).
Proof.
  intros Hd HL. destruct (rnn_form delta last total Hd ltac:(lia) total 0 ltac:(lia) ltac:(lia)) as [m [-> B]]. split.
  - rewrite in_app_iff, in_map_iff. split.
    + intros [[j [<- Hj]]|H]; [apply in_seq in Hj | apply in_seq in H; lia]. split; [nia |]. right. rewrite Nat.add_0_l. apply Nat.mod_mul. lia.
    + intros [A C]. destruct (Nat.le_gt_cases last k) as [D|D]; [right; apply in_seq; lia |]. left. destruct C as [C|C]; [lia |].
      pose proof (Nat.div_mod k delta ltac:(lia)) as DM. exists (k / delta). split; [lia |]. apply in_seq. assert (k / delta < S m) by (apply Nat.div_lt_upper_bound; lia). lia.
  - apply sorted_app; [apply spaced_sorted; exact Hd | apply seq_sorted |]. intros a b Ha Hb. apply in_map_iff in Ha. destruct Ha as [j [<- Hj]]. apply in_seq in Hj, Hb. nia.
Qed.
(** so all windows of the forecast horizon are forecast *)
Theorem C215_forecasts_partial p lengths l delta : valid_params p -> test_layout p lengths = Some l -> 2 <= length (train_indices l) -> 1 <= delta ->
  let indices := train_indices l ++ valid_indices l in
  filter (fun i => reduced_length l <=? i) (map (fun k => nth k indices 0) (rnn_steps (length indices) (length indices) (length (train_indices l) - 1) 0 delta)) = valid_indices l.
Proof.
  intros V H H2 Hd indices. destruct (C197_testing _ _ _ V H) as [[n [N1 [[T1 T2] RL]]] [[V1 V2] _]]. assert (W : 1 <= step_length p /\ 1 <= fcst_window p /\ 1 <= fcst_step_num p) by (unfold valid_params in V; lia).
  set (tl := length (train_indices l)) in *. assert (LI : length indices = tl + fcst_step_num p) by (unfold indices; rewrite app_length, V1; reflexivity).
  destruct (rnn_form delta (tl - 1) (length indices) Hd ltac:(lia) (length indices) 0 ltac:(lia) ltac:(lia)) as [m [-> B]].
  assert (TR : forall k, k < tl -> nth k indices 0 < reduced_length l).
  { intros k Hk. unfold indices. rewrite app_nth1 by exact Hk. rewrite (nth_error_nth _ _ 0 (T2 k ltac:(congruence))). rewrite RL. assert (k < n) by (unfold tl in Hk; lia). nia. }
  rewrite map_app, filter_app.
  assert (E1 : filter (fun i => reduced_length l <=? i) (map (fun k => nth k indices 0) (map (fun k => 0 + k * delta) (seq 0 (S m)))) = []).
  { assert (A : forall q, (forall k, In k q -> k < tl) -> filter (fun i => reduced_length l <=? i) (map (fun k => nth k indices 0) q) = []).
    { induction q as [|k q IH]; intros A; [reflexivity |]. cbn [map filter]. replace (reduced_length l <=? nth k indices 0) with false by (symmetry; apply Nat.leb_gt; apply TR; apply A; left; reflexivity).
      apply IH. intros k2 Hk2. apply A. right. exact Hk2. }
    apply A. intros k Hk. apply in_map_iff in Hk. destruct Hk as [j [<- Hj]]. apply in_seq in Hj. nia. }
  rewrite E1. cbn [app]. replace (length indices - (tl - 1)) with (S (fcst_step_num p)) by lia. cbn [seq map filter].
  replace (reduced_length l <=? nth (tl - 1) indices 0) with false by (symmetry; apply Nat.leb_gt; apply TR; lia). replace (S (tl - 1)) with tl by lia.
  assert (E2 : map (fun k => nth k indices 0) (seq tl (fcst_step_num p)) = valid_indices l).
  { apply nth_ext with 0 0; [rewrite map_length, seq_length; congruence |]. intros k Hk. rewrite map_length, seq_length in Hk.
    rewrite (nth_indep _ 0 (nth 0 indices 0)) by (rewrite map_length, seq_length; exact Hk). change (nth 0 indices 0) with ((fun k => nth k indices 0) 0).
    rewrite map_nth. rewrite seq_nth by exact Hk. unfold indices. rewrite app_nth2 by (unfold tl; lia). f_equal. unfold tl. lia. }
  rewrite E2. assert (A : forall i, In i (valid_indices l) -> reduced_length l <= i).
  { intros i Hi. destruct (In_nth _ _ 0 Hi) as [k [Hk <-]]. rewrite (nth_error_nth _ _ 0 (V2 k ltac:(congruence))). lia. }
  clear - A. induction (valid_indices l) as [|i q IH]; [reflexivity |]. cbn [filter]. replace (reduced_length l <=? i) with true by (symmetry; apply Nat.leb_le; apply A; left; reflexivity).
  f_equal. apply IH. intros j Hj. apply A. right. exact Hj.
Qed.
(** with one training step and a larger step, windows of the forecast horizon are left out *)
Definition single : params := {| s2s := false; input_window := 2; fcst_window := 2; min_training_step_num := 1; step_length := 1; min_warming_up := 1; validation_step_num := 1; fcst_step_num := 3; seasonality := 1; ratio := 5 |}.
Theorem C215_single_refuted : exists p lengths l, valid_params p /\ test_layout p lengths = Some l /\
  let indices := train_indices l ++ valid_indices l in
  let delta := step_delta (Nat.min (input_window p) (fcst_window p) / step_length p) 1 (length indices) (validation_step_num p) in
  filter (fun i => reduced_length l <=? i) (map (fun k => nth k indices 0) (rnn_steps (length indices) (length indices) (length (train_indices l) - 1) 0 delta)) <> valid_indices l.
Proof. exists single, [3]. eexists. split; [unfold valid_params; cbn; lia |]. split; [vm_compute; reflexivity |]. vm_compute. discriminate. Qed.
Theorem C215_skipped_refuted total delta : 2 <= delta -> 2 <= total -> ~ In 1 (rnn_steps total total 0 0 delta).
Proof.
  intros Hd Ht. destruct total as [|total]; [lia |]. cbn [rnn_steps]. replace (0 <? S total) with true by (symmetry; apply Nat.ltb_lt; lia). rewrite andb_false_r.
  assert (G : forall fuel cur, 2 <= cur -> ~ In 1 (rnn_steps fuel (S total) 0 cur delta)).
  { induction fuel as [|fuel IH]; intros cur Hc; cbn [rnn_steps]; [intros [] |]. destruct (cur <? S total); [| intros []]. rewrite andb_false_r. intros [E|E]; [lia |]. revert E. apply IH. lia. }
  intros [E|E]; [lia |]. revert E. apply G. lia.
Qed.
(** the sequence-to-sequence network visits every delta-th training step, then the first validation step, and stops *)
Theorem C215_s2s total first delta k : 1 <= delta -> 1 <= first <= total ->
  (In k (s2s_steps total total first 0 delta) <-> k < total /\ ((k < first /\ k mod delta = 0) \/ k = first)) /\ StronglySorted lt (s2s_steps total total first 0 delta).
Proof.
  intros Hd HF.
  assert (G : forall fuel cur, total <= fuel + cur -> cur <= first ->
    exists m, s2s_steps fuel total first cur delta = map (fun k => cur + k * delta) (seq 0 m) ++ seq first (if first <? total then 1 else 0) /\ (m = 0 -> cur = first) /\ (m <> 0 -> cur + (m - 1) * delta < first <= cur + m * delta)).
  { induction fuel as [|fuel IH]; intros cur F L.
    - exists 0. replace (first <? total) with false by (symmetry; apply Nat.ltb_ge; lia). cbn. split; [reflexivity | lia].
    - cbn [s2s_steps]. destruct (Nat.eq_dec cur first) as [->|N].
      + exists 0. cbn [seq map app]. destruct (first <? total) eqn:E; [| split; [reflexivity | lia]]. rewrite Nat.leb_refl. split; [reflexivity | lia].
      + replace (cur <? total) with true by (symmetry; apply Nat.ltb_lt; lia). replace (first <=? cur) with false by (symmetry; apply Nat.leb_gt; lia).
        destruct (IH (Nat.min (cur + delta) first) ltac:(lia) ltac:(lia)) as [m [Em [Z1 Z2]]].
        exists (S m). rewrite Em. change (seq 0 (S m)) with (0 :: seq 1 m). rewrite <- seq_shift. cbn [map app]. rewrite map_map. split; [| split; [lia |]].
        * f_equal; [lia |]. f_equal. destruct m as [|m]; [reflexivity |]. assert (Q : cur + delta <= first) by nia. rewrite Nat.min_l by exact Q. apply map_ext. intros j. lia.
        * intros _. destruct m as [|m]; [specialize (Z1 eq_refl); nia |]. specialize (Z2 ltac:(lia)). assert (Q : cur + delta <= first) by nia. rewrite Nat.min_l in Z2 by exact Q. nia. }
  destruct (G total 0 ltac:(lia) ltac:(lia)) as [m [-> [Z1 Z2]]]. assert (M0 : m <> 0) by (intros E; specialize (Z1 E); lia). specialize (Z2 M0). split.
  - rewrite in_app_iff, in_map_iff. split.
    + intros [[j [<- Hj]]|H].
      * apply in_seq in Hj. split; [nia |]. left. split; [nia |]. rewrite Nat.add_0_l. apply Nat.mod_mul. lia.
      * destruct (first <? total) eqn:E; apply in_seq in H; [apply Nat.ltb_lt in E; lia | lia].
    + intros [A [[C D]|C]].
      * left. pose proof (Nat.div_mod k delta ltac:(lia)) as DM. exists (k / delta). split; [lia |]. apply in_seq. assert (k / delta < m) by (apply Nat.div_lt_upper_bound; lia). lia.
      * right. subst k. replace (first <? total) with true by (symmetry; apply Nat.ltb_lt; lia). cbn. auto.
  - apply sorted_app; [apply spaced_sorted; exact Hd | apply seq_sorted |]. intros a b Ha Hb. apply in_map_iff in Ha. destruct Ha as [j [<- Hj]]. apply in_seq in Hj. destruct (first <? total); apply in_seq in Hb; nia.
Qed.
(** the stride is at least one, and otherwise the greatest one within the limit that leaves [soft] training steps *)
Theorem C215_stride limit soft total validation : 1 <= soft ->
  let delta := step_delta limit soft total validation in
  1 <= delta /\ (delta = 1 \/ delta <= limit /\ delta * soft <= total - validation) /\
  (forall e, e <= limit -> e * soft <= total - validation -> e <= delta).
Proof.
  intros S1 delta. unfold delta, step_delta. pose proof (Nat.div_mod (total - validation) soft ltac:(lia)) as D.
  pose proof (Nat.mod_upper_bound (total - validation) soft ltac:(lia)) as M. set (q := (total - validation) / soft) in *. split; [lia |]. split.
  - destruct (Nat.le_gt_cases (Nat.min limit q) 1); [left; lia |]. right. rewrite Nat.max_r by lia. split; [lia |]. assert (Nat.min limit q <= q) by lia. nia.
  - intros e E1 E2. assert (e <= q); [| lia]. apply Nat.div_le_lower_bound; lia.
Qed.
Example C215_stride_case : step_delta 5 4 23 2 = 5 /\ step_delta 9 4 23 2 = 5 /\ step_delta 0 4 23 2 = 1.
Proof. repeat split; reflexivity. Qed.
Example C215_case : rnn_steps 12 12 8 0 3 = [0; 3; 6; 8; 9; 10; 11] /\ s2s_steps 12 12 8 0 3 = [0; 3; 6; 8].
Proof. split; reflexivity. Qed.

Print Assumptions C215_visited.
Print Assumptions C215_forecasts_partial.
Print Assumptions C215_single_refuted.
Print Assumptions C215_skipped_refuted.
Print Assumptions C215_s2s.

Print Assumptions C215_stride.
