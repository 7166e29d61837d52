(** Lemmas for C29-C31, C69, C70. *)
From Verif Require Import Common PySlice TSDataModel TSDataSpec TSDataProofs ResponseModel ResponseSpec.
Open Scope Z_scope.

Lemma sorted_tl (l : list Z) : StronglySorted Z.le l -> StronglySorted Z.le (tl l).
Proof. destruct 1; [constructor|assumption]. Qed.
Lemma sorted_app_l (l1 l2 : list Z) : StronglySorted Z.le (l1 ++ l2) -> StronglySorted Z.le l1.
Proof.
  induction l1 as [|x t IH]; simpl; intros H; [constructor|]. inversion H; subst.
  constructor; [apply IH; assumption|]. apply Forall_app in H3. tauto.
Qed.

Lemma component_update {V} c (r : response V) p :
  component c (update r p)
  = option_map (fun l => update_slice l (fst (given c p)) (snd (given c p))) (component c r).
Proof. destruct r as [s b pr m ss]; destruct c; try reflexivity; destruct b as [[lo up]|]; reflexivity. Qed.
Lemma component_inplace {V} c (r : response V) p :
  component c (inplace_update r p)
  = option_map (fun l => inplace_slice l (fst (given c p)) (snd (given c p))) (component c r).
Proof. destruct r as [s b pr m ss]; destruct c; try reflexivity; destruct b as [[lo up]|]; reflexivity. Qed.
Lemma component_last {V} c (r : response V) n :
  component c (get_last_n r n) = option_map (fun l => last_slice l n) (component c r).
Proof. destruct r as [s b pr m ss]; destruct c; try reflexivity; destruct b as [[lo up]|]; reflexivity. Qed.

Lemma update_slice_sorted {V} (l : list (Z * V)) t v :
  l <> [] -> in_time_order (l ++ [(t, v)]) ->
  update_slice l t v = most_recent (length l) (l ++ [(t, v)]).
Proof.
  intros Hl H. unfold update_slice, of_rows. cbn [rows].
  destruct l as [|x l]; [congruence|]. cbn [tl].
  rewrite sort_rows_id.
  - unfold most_recent. rewrite app_length. cbn [length].
    replace (S (length l) + 1 - S (length l))%nat with 1%nat by lia. reflexivity.
  - unfold in_time_order in *. cbn in H. inversion H; assumption.
Qed.
Lemma update_slice_length {V} (l : list (Z * V)) t v :
  length (update_slice l t v) = Nat.max 1 (length l).
Proof.
  unfold update_slice, of_rows. cbn [rows].
  rewrite <- (Permutation_length (sort_rows_perm (tl l ++ [(t, v)]))), app_length.
  destruct l; cbn [tl length]; lia.
Qed.

Lemma most_recent_step {A} (l more : list A) (x : A) :
  l <> [] ->
  most_recent (length l) (most_recent (length l) (l ++ [x]) ++ more)
  = most_recent (length l) ((l ++ [x]) ++ more).
Proof.
  intros H. destruct l as [|y l]; [congruence|]. unfold most_recent.
  rewrite !app_length. cbn [length].
  replace (S (length l) + 1 - S (length l))%nat with 1%nat by lia. cbn [app skipn].
  rewrite app_length. cbn [length].
  replace (length l + 1 + length more - S (length l))%nat with (length more) by lia.
  replace (S (length l) + 1 + length more - S (length l))%nat with (S (length more)) by lia.
  reflexivity.
Qed.

Lemma c29_sliding {V} (c : comp) (ps : list (point V)) : forall (r : response V) l,
  component c r = Some l -> l <> [] -> in_time_order (l ++ map (given c) ps) ->
  component c (fold_left update ps r) = Some (most_recent (length l) (l ++ map (given c) ps)).
Proof.
  induction ps as [|p ps IH]; intros r l Hc Hl Hs; cbn [fold_left map].
  - rewrite app_nil_r. unfold most_recent. rewrite Nat.sub_diag. exact Hc.
  - pose proof Hs as Hs'. cbn [map] in Hs.
    replace (l ++ given c p :: map (given c) ps) with ((l ++ [given c p]) ++ map (given c) ps) in *
      by (rewrite <- app_assoc; reflexivity).
    assert (Hp : in_time_order (l ++ [given c p])).
    { unfold in_time_order in *. rewrite map_app in Hs. apply sorted_app_l in Hs. exact Hs. }
    assert (E : component c (update r p) = Some (most_recent (length l) (l ++ [given c p]))).
    { rewrite component_update, Hc. cbn [option_map].
      f_equal. destruct (given c p) as [t v] eqn:G. cbn [fst snd]. apply update_slice_sorted; assumption. }
    assert (Ln : length (most_recent (length l) (l ++ [given c p])) = length l).
    { unfold most_recent. rewrite skipn_length, app_length. cbn [length]. destruct l; [congruence|]. cbn [length]. lia. }
    rewrite (IH (update r p) _ E).
    + rewrite Ln. f_equal. apply most_recent_step, Hl.
    + intros C. rewrite C in Ln. destruct l; [congruence|discriminate].
    + destruct l as [|y l]; [congruence|]. unfold most_recent. rewrite app_length. cbn [length].
      replace (S (length l) + 1 - S (length l))%nat with 1%nat by lia. cbn [app skipn].
      unfold in_time_order in *. cbn in Hs. inversion Hs; assumption.
Qed.

Lemma c29_lengths {V} (c : comp) (ps : list (point V)) : forall (r : response V) l,
  component c r = Some l -> ps <> [] ->
  exists l', component c (fold_left update ps r) = Some l' /\ length l' = Nat.max 1 (length l).
Proof.
  induction ps as [|p ps IH]; intros r l Hc Hn; [congruence|]. cbn [fold_left].
  assert (E : component c (update r p) = Some (update_slice l (fst (given c p)) (snd (given c p)))).
  { rewrite component_update, Hc. reflexivity. }
  destruct ps as [|q ps].
  - eexists. split; [exact E|]. apply update_slice_length.
  - destruct (IH (update r p) _ E ltac:(discriminate)) as (l' & H1 & H2).
    exists l'. split; [exact H1|]. rewrite H2, update_slice_length. lia.
Qed.
Lemma c29_absent {V} (c : comp) (ps : list (point V)) : forall (r : response V),
  component c r = None -> component c (fold_left update ps r) = None.
Proof.
  induction ps as [|p ps IH]; intros r H; [exact H|]. cbn [fold_left]. apply IH.
  rewrite component_update, H. reflexivity.
Qed.

(** *** get_last_n *)
Lemma last_slice_spec {V} (l : list (Z * V)) n :
  in_time_order l -> 0 < n -> last_slice l n = most_recent (Z.to_nat n) l.
Proof.
  intros H Hn. unfold last_slice.
  destruct (Z_le_gt_dec n (Z.of_nat (length l))) as [L|G].
  - rewrite c26_last by (cbn [rows]; try assumption; lia). reflexivity.
  - rewrite getitem_sorted by exact H. cbn [rows]. unfold py_slice, norm_idx, most_recent.
    destruct (Z.ltb_spec (- n) 0); [|lia].
    replace (Z.max 0 (- n + Z.of_nat (length l))) with 0 by lia.
    replace (length l - Z.to_nat n)%nat with O by lia.
    rewrite Z.sub_0_r. cbn [skipn Z.to_nat]. rewrite Nat2Z.id. apply firstn_all.
Qed.
Lemma last_slice_zero {V} (l : list (Z * V)) : in_time_order l -> last_slice l 0 = l.
Proof.
  intros H. unfold last_slice. rewrite getitem_sorted by exact H. cbn [rows].
  unfold py_slice, norm_idx. cbn [Z.opp Z.ltb Z.compare].
  replace (Z.min 0 (Z.of_nat (length l))) with 0 by lia.
  rewrite Z.sub_0_r. cbn [skipn Z.to_nat]. rewrite Nat2Z.id. apply firstn_all.
Qed.

(** *** in-place update *)
Lemma inplace_nth {V} (l : list (Z * V)) t v i d :
  (i < length l)%nat ->
  nth i (inplace_slice l t v) d = (if fst (nth i l d) =? t then (t, v) else nth i l d).
Proof.
  intros H. unfold inplace_slice.
  set (f := fun r : Z * V => if fst r =? t then (fst r, v) else r).
  rewrite (nth_indep _ d (f d)) by (rewrite map_length; exact H).
  rewrite map_nth. unfold f. destruct (Z.eqb_spec (fst (nth i l d)) t) as [->|]; reflexivity.
Qed.
Lemma inplace_times {V} (l : list (Z * V)) t v : map fst (inplace_slice l t v) = map fst l.
Proof.
  unfold inplace_slice. rewrite map_map. apply map_ext. intros r. destruct (fst r =? t); reflexivity.
Qed.

(** *** extend *)
Lemma c70_appended {V} infer (r o : response V) :
  same_shape r o ->
  exists r', extend_response infer false r o = (true, r')
    /\ forall c a b, component c r = Some a -> component c o = Some b -> component c r' = Some (a ++ b).
Proof.
  intros S. destruct r as [s bd pr m ss], o as [s' bd' pr' m' ss'].
  pose proof (S Lower) as S1. pose proof (S Predicted) as S2. pose proof (S StatSig) as S3.
  cbn in S1, S2, S3.
  destruct bd as [[lo up]|], bd' as [[lo' up']|];
    try (exfalso; destruct S1 as [A B]; try (discriminate (A eq_refl)); discriminate (B eq_refl));
  destruct pr as [p|], pr' as [p'|];
    try (exfalso; destruct S2 as [A B]; try (discriminate (A eq_refl)); discriminate (B eq_refl));
  destruct ss as [x|], ss' as [x'|];
    try (exfalso; destruct S3 as [A B]; try (discriminate (A eq_refl)); discriminate (B eq_refl));
  (eexists; split; [reflexivity|]; intros c a b; destruct c; cbn; intros H1 H2; try discriminate;
   injection H1 as <-; injection H2 as <-; reflexivity).
Qed.
Lemma c70_mismatch {V} infer validate (r o : response V) :
  ~ same_shape r o -> extend_response infer validate r o = (false, r).
Proof.
  intros S. destruct r as [s bd pr m ss], o as [s' bd' pr' m' ss'].
  unfold extend_response. cbn [band predicted stat_sig].
  destruct (xorb (is_some bd) (is_some bd')) eqn:E1; [reflexivity|].
  destruct (xorb (is_some pr) (is_some pr')) eqn:E2; [reflexivity|].
  destruct (xorb (is_some ss) (is_some ss')) eqn:E3; [reflexivity|].
  exfalso. apply S. intros c. destruct c; cbn; try tauto;
    destruct bd as [[]|], bd' as [[]|], pr, pr', ss, ss'; cbn in E1, E2, E3; try discriminate; split; congruence.
Qed.
(** when every merged component would validate, validation changes nothing *)
Lemma c70_validated {V} infer (r o : response V) :
  same_shape r o ->
  (forall c a b, component c r = Some a -> component c o = Some b -> infer (map fst (a ++ b)) = true) ->
  extend_response infer true r o = extend_response infer false r o.
Proof.
  intros S H. destruct r as [s bd pr m ss], o as [s' bd' pr' m' ss'].
  unfold extend_response, extend_ts. cbn [band predicted stat_sig scores magnitude].
  pose proof (H Scores _ _ eq_refl eq_refl) as Hs. pose proof (H Magnitude _ _ eq_refl eq_refl) as Hm.
  cbn [scores magnitude] in Hs, Hm. rewrite Hs, Hm. cbn [negb].
  destruct (xorb (is_some bd) (is_some bd')); [reflexivity|].
  destruct (xorb (is_some pr) (is_some pr')); [reflexivity|].
  destruct (xorb (is_some ss) (is_some ss')); [reflexivity|].
  destruct bd as [[lo up]|], bd' as [[lo' up']|];
    try (pose proof (H Lower _ _ eq_refl eq_refl) as Hl; pose proof (H Upper _ _ eq_refl eq_refl) as Hu;
         rewrite Hl, Hu); cbn [negb];
  destruct pr as [p|], pr' as [p'|];
    try (pose proof (H Predicted _ _ eq_refl eq_refl) as Hp; rewrite Hp); cbn [negb];
  destruct ss as [x|], ss' as [x'|];
    try (pose proof (H StatSig _ _ eq_refl eq_refl) as Hx; rewrite Hx); reflexivity.
Qed.

(** *** intervals *)
Lemma filter_range_idem s e (l : list (Z * Q)) :
  filter (in_range s e) (filter (in_range s e) l) = filter (in_range s e) l.
Proof.
  induction l as [|x t IH]; [reflexivity|]. cbn [filter]. destruct (in_range s e x) eqn:E; [|exact IH].
  cbn [filter]. rewrite E, IH. reflexivity.
Qed.

Lemma do_op_bounds {SP} (i : interval SP) o :
  i_start (do_op i o) = i_start i /\ i_end (do_op i o) = i_end i /\ i_spikes (do_op i o) = i_spikes i.
Proof. destruct o; repeat split. Qed.
Lemma c31_held_gen {SP} ops : forall (i : interval SP) acc,
  i_data i = option_map (filter (in_range (i_start i) (i_end i))) acc ->
  i_data (fold_left do_op ops i)
  = option_map (filter (in_range (i_start i) (i_end i))) (supplied acc ops).
Proof.
  induction ops as [|o ops IH]; intros i acc H; [exact H|]. cbn [fold_left].
  destruct (do_op_bounds i o) as (B1 & B2 & _).
  rewrite <- B1, <- B2.
  destruct o as [l|l]; cbn [supplied].
  - apply IH. reflexivity.
  - apply IH. cbn [do_op extend_data i_data i_start i_end option_map]. rewrite H.
    destruct acc as [a|]; cbn [option_map]; [|reflexivity].
    rewrite !filter_app, filter_range_idem. reflexivity.
Qed.

Lemma inject_pos n : (0 < n) -> ~ (inject_Z n == 0)%Q.
Proof. intros H C. unfold Qeq in C. cbn in C. lia. Qed.
Lemma np_mean_spec l m : np_mean l = Some m -> is_mean m l.
Proof.
  destruct l as [|x t]; [discriminate|]. intros H. injection H as <-. split; [discriminate|].
  rewrite Qmult_comm, Qmult_div_r; [reflexivity|]. apply inject_pos. cbn [length]. lia.
Qed.
Lemma np_mean_total l : l <> [] -> exists m, np_mean l = Some m /\ is_mean m l.
Proof.
  intros H. destruct (np_mean l) as [m|] eqn:E; [exists m; split; [reflexivity|apply np_mean_spec, E]|].
  destruct l; [congruence|discriminate].
Qed.
Lemma np_var1_total l : (2 <= length l)%nat -> exists v, np_var1 l = Some v /\ is_sample_variance v l.
Proof.
  intros H. destruct l as [|x [|y t]]; cbn [length] in H; try lia.
  eexists. split; [reflexivity|]. split; [cbn [length]; lia|].
  exists (qsum (x :: y :: t) / inject_Z (Z.of_nat (length (x :: y :: t))))%Q. split.
  - apply np_mean_spec. reflexivity.
  - cbv zeta. rewrite Qmult_comm, Qmult_div_r; [reflexivity|]. apply inject_pos. cbn [length]. lia.
Qed.
