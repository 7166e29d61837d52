(** C80-C84: missing values, exceedance rates, rolling rates, weights, units. *)
From Verif Require Import Common BacktestModel MetricsModel MetricsSpec MetricsProofs MetricsProps.
From Coq Require Import Lqa Lia.
Open Scope nat_scope.

(** *** C80 *)
Definition actuals (yt yp : list cell) : list cell := full (map fst (present yt yp)).
Definition forecasts (yt yp : list cell) : list cell := full (map snd (present yt yp)).
Lemma combine_split_id {A B} (l : list (A * B)) : combine (map fst l) (map snd l) = l.
Proof. induction l as [|[a b] t IH]; [reflexivity|]. cbn. rewrite IH. reflexivity. Qed.
Lemma nanmean_dep l l' : non_nan l = non_nan l' -> nanmean l = nanmean l'.
Proof. unfold nanmean. intros ->. reflexivity. Qed.
Lemma nanmedian_dep l l' : non_nan l = non_nan l' -> nanmedian l = nanmedian l'.
Proof. unfold nanmedian. intros ->. reflexivity. Qed.
Lemma strict_dep g h yt yp : strict g h ->
  non_nan (map g (combine yt yp)) = non_nan (map g (combine (actuals yt yp) (forecasts yt yp))).
Proof.
  intros S. rewrite !(strict_values g h) by exact S. unfold actuals, forecasts.
  rewrite present_full, combine_split_id. reflexivity.
Qed.
Lemma actuals_len yt yp : length (actuals yt yp) = length (forecasts yt yp).
Proof. unfold actuals, forecasts, full. rewrite !map_length. reflexivity. Qed.
(** dropping the pairs with a missing member does not change these metrics *)
Theorem C80_missing_ignored_partial : forall yt yp, length yt = length yp ->
  let a := actuals yt yp in let f := forecasts yt yp in
  mae yt yp = mae a f /\ mse yt yp = mse a f /\ me yt yp = me a f /\ mdae yt yp = mdae a f
  /\ scaled_smape yt yp = scaled_smape a f /\ smape yt yp = smape a f /\ sbias yt yp = sbias a f
  /\ forall t, pinball_loss yt yp t = pinball_loss a f t.
Proof.
  intros yt yp L a f.
  assert (La : length a = length f) by apply actuals_len.
  assert (S1 : scaled_smape yt yp = scaled_smape a f).
  { unfold scaled_smape. rewrite !arrays2_eq by assumption. cbn [option_map]. f_equal.
    apply nanmean_dep, (strict_dep _ _ yt yp sym_abs_strict). }
  split; [|split; [|split; [|split; [|split; [exact S1|split; [unfold smape; rewrite S1; reflexivity|split]]]]]].
  - unfold mae. rewrite !arrays2_eq by assumption. cbn [option_map]. f_equal.
    apply nanmean_dep, (strict_dep _ _ yt yp abs_err1_strict).
  - unfold mse. rewrite !arrays2_eq by assumption. cbn [option_map].
    assert (E : nanmean (map sq_err1 (combine yt yp)) = nanmean (map sq_err1 (combine a f)))
      by (apply nanmean_dep, (strict_dep _ _ yt yp sq_err1_strict)).
    destruct (Nat.eqb_spec (length yt) 0) as [Z|Z].
    + destruct yt; [reflexivity|discriminate].
    + destruct (Nat.eqb_spec (length a) 0) as [Z'|Z']; [|rewrite E; reflexivity].
      rewrite E. destruct a; [reflexivity|discriminate].
  - unfold me, error. rewrite !arrays2_eq by assumption. cbn [option_map]. f_equal.
    apply nanmean_dep, (strict_dep _ _ yt yp err1_strict).
  - unfold mdae. rewrite !arrays2_eq by assumption. cbn [option_map]. f_equal.
    apply nanmedian_dep, (strict_dep _ _ yt yp abs_err1_strict).
  - unfold sbias. rewrite !arrays2_eq by assumption. cbn [option_map]. do 2 f_equal.
    apply nanmean_dep, (strict_dep _ _ yt yp sym_err_strict).
  - intros t. unfold pinball_loss. rewrite !arrays2_eq by assumption.
    destruct (qlt t 0 || qlt 1 t); [reflexivity|]. f_equal.
    apply nanmean_dep, (strict_dep _ _ yt yp (pinball1_strict t)).
Qed.
(** a missing prediction is scored as a perfect one by the percentage metrics *)
Theorem C80_percentage_refuted : forall y, ~ (y == 0)%Q ->
  exists v w, mape [Some y; Some y] [Some 0%Q; None] = Some (Some v)
    /\ mape [Some y] [Some 0%Q] = Some (Some w) /\ (w == Qabs y / y)%Q /\ (v * 2 == w)%Q.
Proof.
  intros y Hy.
  assert (E : Qeq_bool y 0 = false) by (destruct (Qeq_bool y 0) eqn:E; [apply qeq_true in E; contradiction|reflexivity]).
  assert (S0 : abs_pct_err1 (Some y, Some 0%Q) = Some (Qabs (y - 0) / y)%Q)
    by (unfold abs_pct_err1, abs_err1, err1; cbn [fst snd lift1 lift2 option_map safe_divide]; rewrite E; reflexivity).
  assert (S1 : abs_pct_err1 (Some y, None) = Some 0%Q) by reflexivity.
  assert (A : (Qabs (y - 0) == Qabs y)%Q) by (setoid_replace (y - 0)%Q with y by ring; reflexivity).
  exists ((Qabs (y - 0) / y + (0 + 0)) / 2)%Q, ((Qabs (y - 0) / y + 0) / 1)%Q.
  unfold mape. cbn [arrays2 length Nat.eqb combine option_map map]. rewrite S0, S1.
  split; [reflexivity|]. split; [reflexivity|]. rewrite A. generalize (Qabs y). intros z.
  split; field; exact Hy.
Qed.
(** an unobserved point counts as not covered and as not exceeding *)
Theorem C80_coverage_refuted : exists v w,
  coverage [Some 1%Q; None] (full [0; 0]%Q) (full [2; 2]%Q) = Some (Some v)
  /\ coverage [Some 1%Q] (full [0%Q]) (full [2%Q]) = Some (Some w) /\ (v == 1 # 2)%Q /\ (w == 1)%Q.
Proof. eexists. eexists. repeat split; vm_compute; reflexivity. Qed.
(** one missing value makes the tracking signal NaN *)
Theorem C80_tracking_refuted : tracking_signal [Some 1%Q; None] [Some 0%Q; Some 0%Q] = Some None
  /\ tracking_signal [Some 1%Q] [Some 0%Q] <> Some None.
Proof. split; [reflexivity|vm_compute; discriminate]. Qed.
Example C80_case : actuals [Some 1%Q; None; Some 3%Q] [Some 0%Q; Some 2%Q; None] = [Some 1%Q].
Proof. reflexivity. Qed.

(** *** C81 *)
(** documented: share of predictions below the actual value for t <= 1/2, above it for
    larger t; computed: the opposite *)
Theorem C81_actual_direction_partial : forall a b t, length a = length b ->
  exists r, exceed (full a) (full b) t = Some r
    /\ is_mean r (map (fun p => b2q (if Qle_bool t (1 # 2) then negb (Qle_bool (snd p) (fst p))
                                     else negb (Qle_bool (fst p) (snd p)))) (combine a b)).
Proof.
  intros a b t L. unfold exceed. rewrite arrays2_eq by (unfold full; rewrite !map_length; exact L).
  cbn [option_map]. eexists. split; [reflexivity|].
  pose proof (nanmean_some_map (fun p => b2q (exceeds1 t p)) (combine (full a) (full b))) as M.
  match goal with |- is_mean _ ?l => replace l with (map (fun p => b2q (exceeds1 t p)) (combine (full a) (full b))) end; [exact M|].
  clear. revert b. unfold full. induction a as [|x a IH]; intros [|y b]; try reflexivity.
  cbn [map combine]. rewrite IH. f_equal. f_equal. unfold exceeds1, mask, err1. cbn [fst snd lift2].
  unfold qlt at 2. destruct (Qle_bool t (1 # 2)) eqn:T; cbn [negb].
  - destruct (Qle_bool y x) eqn:E; cbn [negb]; [apply qle_true in E; apply qlt_false; lra|apply qle_false in E; apply qlt_true; lra].
  - destruct (Qle_bool x y) eqn:E; cbn [negb]; [apply qle_true in E; apply qlt_false; lra|apply qle_false in E; apply qlt_true; lra].
Qed.
Theorem C81_documented_refuted : exists a b t, length a = length b /\ (t <= 1 # 2)%Q
  /\ Forall (fun p => snd p < fst p)%Q (combine a b)
  /\ exists v, exceed (full a) (full b) t = Some (Some v) /\ (v == 0)%Q.
Proof.
  exists [1; 2]%Q, [0; 0]%Q, (1 # 10)%Q. split; [reflexivity|]. split; [lra|]. split; [repeat constructor|].
  eexists. split; [vm_compute; reflexivity|reflexivity].
Qed.
(** several thresholds at once: the k-th rate is that of the k-th block of predictions *)
Lemma mult_exceed_split yt blk yp t ts : length blk = length yt ->
  mult_exceed yt (blk ++ yp) (t :: ts) =
    match exceed yt blk t, mult_exceed yt yp ts with
    | Some r, Some l => Some (r :: l)
    | _, _ => None
    end.
Proof.
  intros L. unfold mult_exceed, exceed. rewrite arrays2_eq by (symmetry; exact L). cbn [option_map].
  rewrite app_length, L. cbn [length].
  replace (Nat.eqb (length yt + length yp) (S (length ts) * length yt))
    with (Nat.eqb (length yp) (length ts * length yt)).
  2: { cbn [Nat.mul]. destruct (Nat.eqb_spec (length yp) (length ts * length yt));
       destruct (Nat.eqb_spec (length yt + length yp) (length yt + length ts * length yt)); try reflexivity; lia. }
  destruct (Nat.eqb (length yp) (length ts * length yt)); [|reflexivity]. cbn [negb].
  cbn [repeat concat flat_map chunks].
  assert (C1 : forall (A B : Type) (a1 a2 : list A) (b1 b2 : list B), length a1 = length b1 ->
    combine (a1 ++ a2) (b1 ++ b2) = combine a1 b1 ++ combine a2 b2).
  { induction a1 as [|x a1 IH]; intros a2 [|y b1] b2 E; try discriminate; [reflexivity|]. cbn. rewrite IH by (cbn in E; lia). reflexivity. }
  rewrite C1 by (symmetry; exact L).
  rewrite C1 by (rewrite combine_length, repeat_length, L; lia).
  rewrite map_app. set (d1 := map _ (combine (combine yt blk) (repeat (mask t) (length yt)))).
  assert (E1 : d1 = map (exceeds1 t) (combine yt blk)).
  { unfold d1. clear - L. revert blk L. induction yt as [|x yt IH]; intros [|y blk] L; try discriminate; [reflexivity|].
    cbn [length repeat combine map]. rewrite IH by (cbn in L; lia). reflexivity. }
  assert (Ld : length d1 = length yt) by (rewrite E1, map_length, combine_length; lia).
  set (d2 := map _ (combine (combine (concat (repeat yt (length ts))) yp) (flat_map (fun t0 => repeat (mask t0) (length yt)) ts))).
  rewrite firstn_app, skipn_app, <- Ld, Nat.sub_diag, firstn_all, skipn_all. cbn [firstn skipn app].
  rewrite app_nil_r, E1. cbn [map]. rewrite map_map. rewrite <- E1. reflexivity.
Qed.
Theorem C81_many_thresholds : forall yt blocks ts, length blocks = length ts ->
  (forall b, In b blocks -> length b = length yt) ->
  exists l, mult_exceed yt (concat blocks) ts = Some l /\ length l = length ts
    /\ forall k, k < length ts -> exceed yt (nth k blocks []) (nth k ts 0%Q) = Some (nth k l None).
Proof.
  intros yt blocks ts. revert blocks. induction ts as [|t ts IH]; intros [|b blocks] L H; try discriminate.
  - exists []. split; [reflexivity|]. split; [reflexivity|]. intros k Hk. cbn in Hk. lia.
  - destruct (IH blocks) as (l & E & Ll & Hl); [cbn in L; lia|intros; apply H; right; assumption|].
    cbn [concat]. rewrite mult_exceed_split by (apply H; left; reflexivity). rewrite E.
    assert (Lb : length b = length yt) by (apply H; left; reflexivity).
    destruct (exceed yt b t) as [r|] eqn:X.
    2: { unfold exceed in X. rewrite arrays2_eq in X by (symmetry; exact Lb). discriminate. }
    exists (r :: l). split; [reflexivity|]. split; [cbn; lia|]. intros [|k] Hk; cbn [nth]; [exact X|].
    apply Hl. cbn in Hk. lia.
Qed.
Example C81_case : mult_exceed (full [1; 2]%Q) (full [0; 3; 3; 3]%Q) [1 # 10; 9 # 10]%Q
  = Some [Some (1 # 2)%Q; Some (0 # 2)%Q].
Proof. vm_compute. reflexivity. Qed.

(** *** C82 *)
Lemma firstn_skipn_len {A} n m (l : list A) : length (firstn n (skipn m l)) = Nat.min n (length l - m).
Proof. rewrite firstn_length, skipn_length. reflexivity. Qed.
Lemma unit_sum l n : (forall x, In x l -> 0 <= x <= 1)%Q -> length l <= n -> (0 <= qsum l <= inject_Z (Z.of_nat n))%Q.
Proof.
  intros H L. assert (G : (0 <= qsum l <= inject_Z (Z.of_nat (length l)))%Q).
  { clear L. induction l as [|x t IH]; [split; vm_compute; discriminate|]. cbn [qsum length]. rewrite Nat2Z.inj_succ. unfold Z.succ.
    rewrite inject_Z_plus. change (inject_Z 1) with 1%Q.
    specialize (IH (fun y Hy => H y (or_intror Hy))). specialize (H x (or_introl eq_refl)). lra. }
  assert (inject_Z (Z.of_nat (length l)) <= inject_Z (Z.of_nat n))%Q by (rewrite <- Zle_Qle; lia). lra.
Qed.
(** one rate per point, all within [0,1]; where the whole window lies inside the series it
    is the share of covered points in it *)
Theorem C82_rolling_coverage : forall y lo up w, 1 <= w ->
  length y = length lo -> length y = length up ->
  exists l, mult_coverage (full y) (full lo) (full up) (Some w) = Some l
    /\ length l = length y
    /\ (forall r, In r l -> 0 <= r <= 1)%Q
    /\ forall i, w / 2 <= i -> i + (w - 1) / 2 < length y ->
         let first := i - w / 2 in
         (nth i l 0 * inject_Z (Z.of_nat w)
          == inject_Z (Z.of_nat (count (fun t => inside (fst (fst t)) (snd (fst t)) (snd t))
                                       (firstn w (skipn first (combine (combine y lo) up))))))%Q.
Proof.
  intros y lo up w Hw L1 L2. unfold mult_coverage.
  rewrite arrays3_eq by (unfold full; rewrite !map_length; assumption). cbn [option_map].
  set (d := map (fun t => b2q (covers1 t)) (combine (combine (full y) (full lo)) (full up))).
  assert (Ed : d = map (fun t => b2q (inside (fst (fst t)) (snd (fst t)) (snd t))) (combine (combine y lo) up)).
  { unfold d. clear. revert lo up. unfold full. induction y as [|a y IH]; intros [|b lo] [|c up]; try reflexivity.
    cbn [map combine]. rewrite IH. reflexivity. }
  assert (Ld : length d = length y) by (rewrite Ed, map_length, !combine_length; lia).
  assert (Ud : forall x, In x d -> (0 <= x <= 1)%Q).
  { intros x Hx. rewrite Ed in Hx. apply in_map_iff in Hx as (t & <- & _). apply b2q_range. }
  assert (P : (0 < inject_Z (Z.of_nat w))%Q) by (rewrite <- (Zlt_Qlt 0); lia).
  pose proof (Nat.div_mod_eq w 2) as D1. pose proof (Nat.div_mod_eq (w - 1) 2) as D2.
  pose proof (Nat.mod_upper_bound w 2 ltac:(lia)). pose proof (Nat.mod_upper_bound (w - 1) 2 ltac:(lia)).
  assert (W : (w - 1) / 2 + w / 2 + 1 = w) by lia.
  eexists. split; [reflexivity|]. split; [unfold rolling_mean; rewrite map_length, seq_length; exact Ld|]. split.
  - intros r Hr. unfold rolling_mean in Hr. apply in_map_iff in Hr as (i & <- & Hi). cbv zeta.
    assert (S : (0 <= qsum (firstn (i + (w - 1) / 2 + 1 - (i - w / 2)) (skipn (i - w / 2) d)) <= inject_Z (Z.of_nat w))%Q).
    { apply unit_sum; [|rewrite firstn_skipn_len; lia].
      intros x Hx. apply Ud. rewrite <- (firstn_skipn (i - w / 2) d). apply in_or_app. right.
      rewrite <- (firstn_skipn (i + (w - 1) / 2 + 1 - (i - w / 2)) (skipn (i - w / 2) d)). apply in_or_app. left. exact Hx. }
    split; [apply Qle_shift_div_l; [exact P|lra]|apply Qle_shift_div_r; [exact P|lra]].
  - intros i H1 H2. cbv zeta. unfold rolling_mean.
    set (f := fun i : nat => let lo0 := i - w / 2 in let hi := i + (w - 1) / 2 in
             (qsum (firstn (hi + 1 - lo0) (skipn lo0 d)) / inject_Z (Z.of_nat w))%Q).
    rewrite (nth_indep _ 0%Q (f 0)) by (rewrite map_length, seq_length; lia).
    rewrite (map_nth f), seq_nth by lia. unfold f. cbv zeta. cbn [Nat.add].
    rewrite Qmult_comm, Qmult_div_r by lra.
    replace (i + (w - 1) / 2 + 1 - (i - w / 2)) with w by lia.
    rewrite Ed, skipn_map, firstn_map, b2q_count. reflexivity.
Qed.
(** near the ends the window is cut but the divisor is not: full coverage looks partial *)
Theorem C82_edges_refuted : exists l, mult_coverage (full [1; 1; 1; 1]%Q) (full [0; 0; 0; 0]%Q) (full [2; 2; 2; 2]%Q) (Some 3) = Some l
  /\ (nth 0 l 0 == 2 # 3)%Q /\ (nth 1 l 0 == 1)%Q.
Proof. eexists. split; [vm_compute; reflexivity|]. split; reflexivity. Qed.
Example C82_case : exists l, mult_coverage (full [1; 1; 5; 1; 1]%Q) (full [0; 0; 0; 0; 0]%Q) (full [2; 2; 2; 2; 2]%Q) (Some 4) = Some l
  /\ (nth 2 l 0 == 3 # 4)%Q.
Proof. eexists. split; [vm_compute; reflexivity|reflexivity]. Qed.

(** *** C83 *)
Lemma present_w_vals yt yp w : length yt = length yp -> length yt = length w ->
  flat_map (fun p => match fst p with Some x => [(x, snd p)] | None => [] end)
           (combine (map abs_err1 (combine yt yp)) w)
  = map (fun p => (Qabs (fst (fst p) - snd (fst p)), snd p)) (present_w yt yp w).
Proof.
  unfold present_w. revert yp w. induction yt as [|a yt IH]; intros [|b yp] [|c w] L1 L2; try discriminate; [reflexivity|].
  cbn [combine map flat_map]. rewrite IH by (cbn in *; lia). rewrite map_app.
  destruct a, b; reflexivity.
Qed.
Theorem C83_weighted_mae : forall yt yp w, length yt = length yp -> length yt = length w -> yt <> [] ->
  let tot := qsum (map snd (present_w yt yp w)) in
  (~ (tot == 0)%Q -> exists v, mae_weighted yt yp w = Some (Some v)
     /\ (v * tot == qsum (map (fun p => Qabs (fst (fst p) - snd (fst p)) * snd p) (present_w yt yp w)))%Q)
  /\ ((tot == 0)%Q -> mae_weighted yt yp w = Some None).
Proof.
  intros yt yp w L1 L2 N tot. unfold mae_weighted, absolute_error. rewrite arrays2_eq by exact L1. cbn [option_map].
  assert (Le : length (map abs_err1 (combine yt yp)) = length w) by (rewrite map_length, combine_length; lia).
  rewrite Le. destruct (Nat.eqb_spec (length w) 0) as [Z|Z]; [destruct yt; [congruence|cbn in L2; lia]|].
  rewrite arrays2_eq by exact Le. cbn [option_map]. unfold ma_average. cbv zeta.
  rewrite present_w_vals by assumption. rewrite !map_map. cbn [fst snd].
  change (map (fun x : Q * Q * Q => snd x) (present_w yt yp w)) with (map snd (present_w yt yp w)). fold tot.
  split; intros H.
  - destruct (Qeq_bool tot 0) eqn:E; [apply qeq_true in E; contradiction|].
    eexists. split; [reflexivity|]. rewrite Qmult_comm, Qmult_div_r by exact H. reflexivity.
  - apply Qeq_bool_iff in H. rewrite H. reflexivity.
Qed.
Theorem C83_weighted_mse_partial : forall a b w, length a = length b -> length a = length w -> a <> [] ->
  ~ (qsum w == 0)%Q ->
  exists v, mse_weighted (full a) (full b) w = Some (Some v)
    /\ is_wmean v (map (fun p => (fst p - snd p) * (fst p - snd p))%Q (combine a b)) w.
Proof.
  intros a b w L1 L2 N W. unfold mse_weighted. rewrite arrays3_eq by (unfold full; rewrite !map_length; assumption).
  replace (length (full a)) with (length a) by (unfold full; rewrite map_length; reflexivity).
  destruct (Nat.eqb_spec (length a) 0) as [Z|Z]; [destruct a; [congruence|discriminate]|]. cbn [option_map].
  assert (Nw : w <> []) by (destruct w; [destruct a; [congruence|discriminate]|discriminate]).
  pose proof (len_pos w Nw) as P. set (k := inject_Z (Z.of_nat (length w))) in *.
  assert (A : ~ (qsum w / k == 0)%Q).
  { intros E. apply W. rewrite <- (Qmult_div_r (qsum w) k) by lra. rewrite E. ring. }
  cbv zeta. destruct (Qeq_bool (qsum w / k) 0) eqn:E; [apply qeq_true in E; contradiction|].
  set (h := fun t : Q * Q * Q => ((fst (fst t) - snd (fst t)) * (fst (fst t) - snd (fst t)) * snd t)%Q).
  replace (map (fun t => lift1 (fun e => (e * snd t)%Q) (sq_err1 (fst t))) (combine (combine (full a) (full b)) w))
    with (map (fun t => Some (h t)) (combine (combine a b) w)).
  2: { clear. unfold full, h. revert b w. induction a as [|x a IH]; intros [|y b] [|c w]; try reflexivity.
       cbn [map combine]. rewrite IH. reflexivity. }
  pose proof (nanmean_some_map h (combine (combine a b) w)) as M.
  destruct (nanmean (map (fun t => Some (h t)) (combine (combine a b) w))) as [m|].
  2: { exfalso. cbn in M. apply (f_equal (@length _)) in M. rewrite map_length, !combine_length in M. cbn in M. lia. }
  cbn [lift1 option_map]. eexists. split; [reflexivity|].
  destruct M as [_ M]. rewrite map_length, !combine_length in M. replace (Nat.min (Nat.min (length a) (length b)) (length w)) with (length w) in M by lia.
  fold k in M. unfold is_wmean.
  assert (Q1 : (qsum (map (fun p => fst p * snd p) (combine (map (fun p => (fst p - snd p) * (fst p - snd p)) (combine a b)) w)) == qsum (map h (combine (combine a b) w)))%Q).
  { clear. unfold h. revert b w. induction a as [|x a IH]; intros [|y b] [|c w]; try reflexivity.
    cbn [map combine qsum fst snd]. rewrite IH. reflexivity. }
  rewrite Q1, <- M. field. split; [lra|exact W].
Qed.
(** with missing values the weighted mean squared error is not a weighted mean: errors 1
    (weight 1) and missing (weight 3) give 1/2 *)
Theorem C83_weighted_mse_missing_refuted : exists v,
  mse_weighted [Some 1%Q; None] [Some 0%Q; Some 0%Q] [1; 3]%Q = Some (Some v) /\ (v == 1 # 2)%Q
  /\ present_w [Some 1%Q; None] [Some 0%Q; Some 0%Q] [1; 3]%Q = [(1, 0, 1)%Q].
Proof. eexists. split; [vm_compute; reflexivity|]. split; reflexivity. Qed.
(** the weighted errors of complete data add up to the weighted mean error *)
Theorem C83_weighted_errors_add_up : forall a b w, length a = length b -> length a = length w ->
  ~ (qsum w == 0)%Q ->
  exists l, error_weighted (full a) (full b) w = Some (full l) /\ length l = length a
    /\ is_wmean (qsum l) (map (fun p => fst p - snd p)%Q (combine a b)) w.
Proof.
  intros a b w L1 L2 W. unfold error_weighted, weighted.
  rewrite arrays3_eq by (unfold full; rewrite !map_length; assumption). cbn [option_map].
  set (T := qsum w) in *.
  exists (map (fun t => ((fst (fst t) - snd (fst t)) * snd t / T)%Q) (combine (combine a b) w)). split; [|split].
  - f_equal. unfold full. rewrite map_map. change (qsum w) with T. clearbody T. clear L1 L2.
    revert b w. induction a as [|x a IH]; intros [|y b] [|c w]; try reflexivity.
    cbn [map combine]. rewrite IH. f_equal. unfold err1. cbn [fst snd lift2 lift1 option_map].
    unfold safe_divide. destruct (Qeq_bool T 0) eqn:E; [apply qeq_true in E; contradiction|]. reflexivity.
  - rewrite map_length, !combine_length. lia.
  - unfold is_wmean. fold T. clearbody T. clear L1 L2.
    assert (G : forall z, (z / T * T == z)%Q) by (intros; rewrite Qmult_comm, Qmult_div_r by exact W; reflexivity).
    revert b w. induction a as [|x a IH]; intros [|y b] [|c w]; cbn [combine map qsum fst snd]; try ring.
    rewrite Qmult_plus_distr_l, IH, G. reflexivity.
Qed.
Example C83_case : exists v, mae_weighted [Some 1%Q; None; Some 3%Q] [Some 0%Q; Some 0%Q; Some 0%Q] [1; 5; 3]%Q = Some (Some v)
  /\ (v == 10 # 4)%Q.
Proof. eexists. split; [vm_compute; reflexivity|reflexivity]. Qed.

(** *** C84 *)
Definition unit_free (f : list cell -> list cell -> option cell) : Prop :=
  forall c yt yp, (0 < c)%Q ->
    match f (scaled c yt) (scaled c yp), f yt yp with
    | None, None => True
    | Some a, Some b => same_value a b
    | _, _ => False
    end.
Lemma scaled_arrays c yt yp :
  arrays2 (scaled c yt) (scaled c yp) =
  option_map (map (fun p => (option_map (Qmult c) (fst p), option_map (Qmult c) (snd p)))) (arrays2 yt yp).
Proof.
  unfold arrays2, scaled. rewrite !map_length. destruct (Nat.eqb _ _); [|reflexivity]. cbn [option_map]. f_equal.
  revert yp. induction yt as [|a yt IH]; intros [|b yp]; try reflexivity. cbn. rewrite IH. reflexivity.
Qed.
Lemma mean_map_same (g g' : cell * cell -> cell) l : (forall p, same_value (g p) (g' p)) ->
  same_value (nanmean (map g l)) (nanmean (map g' l)).
Proof.
  intros H. apply (is_mean_eq _ _ (non_nan (map g l)) (non_nan (map g' l))); try apply nanmean_is_mean.
  - induction l as [|p t IH]; [reflexivity|]. specialize (H p). unfold non_nan in *. cbn [map flat_map].
    rewrite !app_length, IH. destruct (g p), (g' p); cbn in *; try contradiction; reflexivity.
  - induction l as [|p t IH]; [reflexivity|]. specialize (H p). unfold non_nan in *. cbn [map flat_map].
    rewrite !qsum_app, IH. destruct (g p), (g' p); cbn in *; try contradiction; [rewrite H; reflexivity|reflexivity].
Qed.
Lemma safe_divide_scale c n d n' d' : (0 < c)%Q ->
  same_value n' (option_map (Qmult c) n) -> same_value d' (option_map (Qmult c) d) ->
  same_value (safe_divide n' d') (safe_divide n d).
Proof.
  intros Hc H1 H2. destruct n as [x|], n' as [x'|], d as [y|], d' as [y'|]; cbn in *; try contradiction; try reflexivity; try exact I.
  assert (Z : forall a b, (a == c * b)%Q -> Qeq_bool a 0 = Qeq_bool b 0).
  { intros a b E. destruct (Qeq_bool b 0) eqn:B.
    - apply qeq_true in B. apply Qeq_bool_iff. rewrite E, B. ring.
    - apply qeq_false in B. destruct (Qeq_bool a 0) eqn:A; [|reflexivity]. exfalso. apply B.
      apply qeq_true in A. rewrite A in E. symmetry in E. apply Qmult_integral in E as [E|E]; [lra|exact E]. }
  rewrite (Z _ _ H1), (Z _ _ H2).
  assert (P : Qle_bool 0 x' = Qle_bool 0 x).
  { destruct (Qle_bool 0 x) eqn:A; [apply qle_true in A; apply Qle_bool_iff; rewrite H1; apply Qmult_le_0_compat; lra|].
    apply qle_false in A. destruct (Qle_bool 0 x') eqn:B; [|reflexivity]. apply qle_true in B. exfalso. nra. }
  rewrite P. destruct (Qeq_bool y 0) eqn:Y; [destruct (Qeq_bool x 0); [reflexivity|destruct (Qle_bool 0 x); reflexivity]|].
  apply qeq_false in Y. cbn. rewrite H1, H2. field. split; [exact Y|lra].
Qed.
Lemma err1_scale c p : same_value (err1 (option_map (Qmult c) (fst p), option_map (Qmult c) (snd p))) (option_map (Qmult c) (err1 p)).
Proof. destruct p as [[x|] [y|]]; cbn; try exact I. ring. Qed.
Lemma abs_scale c z z' : (0 < c)%Q -> same_value z' (option_map (Qmult c) z) ->
  same_value (lift1 Qabs z') (option_map (Qmult c) (lift1 Qabs z)).
Proof.
  intros Hc H. destruct z as [x|], z' as [x'|]; cbn in *; try contradiction; [|exact I].
  rewrite H, Qabs_Qmult, (Qabs_pos c) by lra. reflexivity.
Qed.
Lemma same_refl a : same_value a a.
Proof. destruct a; cbn; [reflexivity|exact I]. Qed.
Lemma sym_denom_scale c p : (0 < c)%Q ->
  same_value (sym_denom (option_map (Qmult c) (fst p), option_map (Qmult c) (snd p))) (option_map (Qmult c) (sym_denom p)).
Proof.
  intros Hc. destruct p as [[x|] [y|]]; try exact I. unfold sym_denom. cbn [fst snd lift1 lift2 option_map same_value].
  rewrite !Qabs_Qmult, (Qabs_pos c) by lra. ring.
Qed.
(** the relative metrics do not depend on the unit of measurement *)
Theorem C84_unit_free_partial : unit_free mape /\ unit_free mpe /\ unit_free scaled_smape /\ unit_free smape /\ unit_free sbias.
Proof.
  assert (S1 : unit_free scaled_smape).
  { intros c yt yp Hc. unfold scaled_smape. rewrite scaled_arrays. destruct (arrays2 yt yp) as [l|]; cbn [option_map]; [|exact I].
    rewrite map_map. apply mean_map_same. intros p. apply (safe_divide_scale c); [exact Hc| |apply sym_denom_scale, Hc].
    apply abs_scale; [exact Hc|apply err1_scale]. }
  split; [|split; [|split; [exact S1|split]]].
  - intros c yt yp Hc. unfold mape. rewrite scaled_arrays. destruct (arrays2 yt yp) as [l|]; cbn [option_map]; [|exact I].
    rewrite map_map. apply mean_map_same. intros p. apply (safe_divide_scale c); [exact Hc| |cbn [fst]; apply same_refl].
    apply abs_scale; [exact Hc|apply err1_scale].
  - intros c yt yp Hc. unfold mpe, percentage_error. rewrite scaled_arrays. destruct (arrays2 yt yp) as [l|]; cbn [option_map]; [|exact I].
    rewrite map_map. apply mean_map_same. intros p. apply (safe_divide_scale c); [exact Hc|apply err1_scale|cbn [fst]; apply same_refl].
  - intros c yt yp Hc. unfold smape. specialize (S1 c yt yp Hc).
    destruct (scaled_smape (scaled c yt) (scaled c yp)) as [[x|]|], (scaled_smape yt yp) as [[y|]|]; cbn in *; try contradiction; try exact I.
    rewrite S1. reflexivity.
  - intros c yt yp Hc. unfold sbias. rewrite scaled_arrays. destruct (arrays2 yt yp) as [l|]; cbn [option_map]; [|exact I].
    rewrite map_map.
    assert (H : same_value (nanmean (map (fun x => safe_divide (err1 (option_map (Qmult c) (fst x), option_map (Qmult c) (snd x))) (sym_denom (option_map (Qmult c) (fst x), option_map (Qmult c) (snd x)))) l))
                           (nanmean (map (fun p => safe_divide (err1 p) (sym_denom p)) l))).
    { apply mean_map_same. intros p. apply (safe_divide_scale c); [exact Hc|apply err1_scale|apply sym_denom_scale, Hc]. }
    destruct (nanmean _) as [x|], (nanmean (map (fun p => safe_divide (err1 p) (sym_denom p)) l)) as [y|]; cbn in *; try contradiction; [rewrite H; reflexivity|exact I].
Qed.
(** the scaled error is NaN for data measured in a large unit *)
Theorem C84_mase_refuted : ~ unit_free mase.
Proof.
  intros H. specialize (H (1 # 1000000000)%Q (full [0; 1]%Q) (full [1; 1]%Q) ltac:(lra)). vm_compute in H. exact H.
Qed.
Example C84_case : mape (scaled 1000 (full [1; 2]%Q)) (scaled 1000 (full [1; 1]%Q)) <> Some None.
Proof. vm_compute. discriminate. Qed.

Print Assumptions C80_missing_ignored_partial.
Print Assumptions C80_percentage_refuted.
Print Assumptions C80_coverage_refuted.
Print Assumptions C80_tracking_refuted.
Print Assumptions C81_actual_direction_partial.
Print Assumptions C81_documented_refuted.
Print Assumptions C81_many_thresholds.
Print Assumptions C82_rolling_coverage.
Print Assumptions C82_edges_refuted.
Print Assumptions C83_weighted_mae.
Print Assumptions C83_weighted_mse_partial.
Print Assumptions C83_weighted_mse_missing_refuted.
Print Assumptions C83_weighted_errors_add_up.
Print Assumptions C84_unit_free_partial.
Print Assumptions C84_mase_refuted.
