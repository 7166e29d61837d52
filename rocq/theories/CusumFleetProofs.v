(** The columns of [VectorizedCUSUMDetectorModel] and the model for one series. *)
From Verif Require Import Common PySlice CusumModel CusumDetModel CusumSpec CusumProofs CusumStateProofs
  CusumDetProps CusumMagProps CusumVecProps CusumRunModel CusumShiftProofs CusumPathProofs.
Require Import Reals.
Require Import String List.
Require Import Sorted.
Open Scope Z_scope.

Lemma all_some_nth_error {A} (l : list (option A)) : forall r k, all_some l = Some r ->
  nth_error l k = option_map Some (nth_error r k).
Proof.
  induction l as [|[x|] l IH]; intros r k H; cbn [all_some] in H; [injection H as <-; destruct k; reflexivity| |discriminate].
  destruct (all_some l) as [r'|]; [|discriminate]. injection H as <-. destruct k; [reflexivity|]. cbn [nth_error]. apply IH. reflexivity.
Qed.
Lemma all_some_length {A} (l : list (option A)) : forall r, all_some l = Some r -> length r = length l.
Proof.
  induction l as [|[x|] l IH]; intros r H; cbn [all_some] in H; [injection H as <-; reflexivity| |discriminate].
  destruct (all_some l) as [r'|]; [|discriminate]. injection H as <-. cbn. f_equal. now apply IH.
Qed.
Lemma all_some_in_none {A} (l : list (option A)) : all_some l = None -> In None l.
Proof.
  induction l as [|[x|] l IH]; cbn [all_some]; intros H; [discriminate| |left; reflexivity].
  destruct (all_some l); [discriminate|]. right. now apply IH.
Qed.

(** ** One column of a scan *)
Definition total (std : list Q -> option Q) : Prop := forall l, l <> [] -> std l <> None.

Lemma slice_to_ne {A} (l : list A) b : 0 < b -> l <> [] -> py_slice l None (Some b) <> [].
Proof.
  intros B N E. apply (f_equal (@length A)) in E. unfold py_slice in E. rewrite firstn_length in E.
  cbn [skipn Z.to_nat length] in E. destruct l as [|x l]; [congruence|].
  assert (0 < norm_idx (Z.of_nat (length (x :: l))) b).
  { unfold norm_idx. destruct (Z.ltb_spec b 0); [lia|]. cbn [length]. lia. }
  cbn [length] in *. lia.
Qed.
Lemma qmean_ne l : l <> [] -> exists q, qmean l = Some q.
Proof. destruct l; [congruence|]. eexists. reflexivity. Qed.

Lemma detector_index A dirs times ts l : detector A dirs times ts = Some l ->
  forall r, In r l -> 0 <= m_index (snd r) /\ In (m_time (snd r)) times.
Proof.
  intros H r I. split; [|eapply detector_times; eauto]. revert H. unfold detector.
  destruct (directions dirs) as [ds|]; [|discriminate].
  destruct (all_metas (change_meta A times ts) (keys [] ds)) as [x|] eqn:E; [|discriminate].
  intros H. apply (f_equal (fun o => match o with Some y => y | None => [] end)) in H. cbn in H. subst l.
  destruct r as (d, m). apply filter_In in I as (I & _). apply all_metas_spec in E as (_ & E). apply E in I.
  unfold change_meta in I. destruct (get_change_point _ _ _ _ _) as [c|]; [|discriminate].
  unfold decide in I. destruct (nth_z times (cp_index c)) as [t|] eqn:N; [|discriminate].
  destruct (llr_window _ _ _). destruct (mag_change _ _ _ _); [|discriminate].
  injection I as <-. cbn. unfold nth_z in N. destruct (Z.ltb_spec (cp_index c) 0); [discriminate|]. assumption.
Qed.

(** an alert that is on *)
Lemma off_same g std s vals i t fs : inv s -> alert_fired s = true -> total std ->
  (g_adapted g = false \/ 0 < i /\ vals <> []) ->
  fit (watched g) (g_std_ratio g) (g_adapted g) s (seen std vals i t fs) = Some (off_multi g std true s vals i t).
Proof.
  intros (I1 & I2 & I3) FI TS AD. unfold fit, off_multi. rewrite FI. cbn [negb].
  cbn [seen s_cur_mean s_hist_mean s_hist_std s_time]. rewrite andb_true_r.
  assert (B : (if g_adapted g then
      {| cps := cps s; alert_fired := alert_fired s; pre_mean := qmean (py_slice vals None (Some i));
         pre_std := std (py_slice vals None (Some i)); number_of_normal_scan := number_of_normal_scan s;
         alert_direction := alert_direction s |} else s)
   = (if g_adapted g then
      {| cps := cps s; alert_fired := alert_fired s;
         pre_mean := combine_first (qmean (py_slice vals None (Some i))) (pre_mean s);
         pre_std := combine_first (std (py_slice vals None (Some i))) (pre_std s);
         number_of_normal_scan := number_of_normal_scan s; alert_direction := alert_direction s |} else s)).
  { destruct (g_adapted g); [|reflexivity]. destruct AD as [AD|(P & N)]; [discriminate|].
    pose proof (slice_to_ne vals i P N) as NE. destruct (qmean_ne _ NE) as (q & ->).
    destruct (std (py_slice vals None (Some i))) as [w|] eqn:W; [reflexivity|]. exfalso. exact (TS _ NE W). }
  rewrite FI in B. rewrite B. clear B.
  set (s1 := if g_adapted g then _ else s).
  assert (E1 : cps s1 = cps s /\ number_of_normal_scan s1 = 0 /\ alert_direction s1 = alert_direction s).
  { unfold s1. destruct (g_adapted g); cbn; auto. }
  destruct E1 as (E1 & E2 & E3). destruct (I2 FI) as (C & D).
  unfold normal_multi.
  destruct (if_normal_defined s1 (qmean (py_slice vals (Some i) None)) (watched g) (g_std_ratio g)) as (b & ->); [congruence|].
  destruct b; cbn [cps number_of_normal_scan alert_direction pre_mean pre_std alert_fired set_alert_off andb].
  - rewrite E2. cbn [Z.add]. change (NORMAL_TOLERENCE <=? 1) with true. cbn [andb cps set_alert_off].
    destruct (rev (cps s1)) as [|c r] eqn:R; [apply rev_nil in R; congruence|]. reflexivity.
  - rewrite andb_false_r. cbn [cps].
    destruct (rev (cps s1)) as [|c r] eqn:R; [apply rev_nil in R; congruence|]. reflexivity.
Qed.
(** a column without an alert is not touched by the second case *)
Lemma off_idle g std s vals i t : number_of_normal_scan s = 0 -> off_multi g std false s vals i t = s.
Proof.
  intros N. unfold off_multi. rewrite andb_false_r.
  assert (X : normal_multi s None (watched g) (g_std_ratio g) = false).
  { unfold normal_multi, if_normal. destruct (alert_direction s), (pre_mean s), (pre_std s); reflexivity. }
  rewrite X, N. cbn [andb Z.add cps].
  assert (E : {| cps := cps s; alert_fired := alert_fired s; pre_mean := pre_mean s; pre_std := pre_std s;
                 number_of_normal_scan := 0; alert_direction := alert_direction s |} = s).
  { destruct s; cbn in *. subst. reflexivity. }
  destruct (rev (cps s)); exact E.
Qed.
(** an alert that is off *)
Lemma on_same g std s times vals v p i : inv s -> alert_fired s = false -> total std -> vals <> [] ->
  scan_index g times = Some i -> 1 < Z.of_nat (length vals) - i ->
  detector (det_args g (i, Z.of_nat (length vals))) (det_dirs g) times vals = Some p ->
  Forall2 same_but_stable v p ->
  fit_scan g std s times vals = Some (on_multi std s vals (first_of v)) /\
  inv (on_multi std s vals (first_of v)) /\
  (cps (on_multi std s vals (first_of v)) = cps s \/
   exists t, In t times /\ cps (on_multi std s vals (first_of v)) <> [] /\
     last (cps (on_multi std s vals (first_of v))) 0 = secs t).
Proof.
  intros (I1 & I2 & I3) FI TS NV SI EN DT F. unfold fit_scan. rewrite SI, FI. cbn [negb andb].
  destruct (Z.ltb_spec 1 (Z.of_nat (length vals) - i)) as [_|]; [|lia]. rewrite DT.
  assert (F2 : Forall2 (same_spot 0) v p).
  { clear - F. induction F as [|a b l l' H F IH]; [constructor|]. constructor; [|exact IH].
    destruct H as (A & B & C & _). repeat split; cbn; congruence. }
  pose proof (first_of_rel _ _ _ F2) as FR.
  assert (ENB : (1 <? Z.of_nat (length vals) - i) = true) by (apply Z.ltb_lt; lia).
  destruct (first_of v) as [r|] eqn:FV.
  - destruct (first_of p) as [r'|] eqn:FP; [|contradiction]. destruct FR as (D & X & T). cbn [Z.add] in T.
    apply first_of_in in FP. destruct (detector_index _ _ _ _ _ DT r' FP) as (M0 & MT). rewrite <- T in MT. rewrite <- X in M0.
    assert (FO : found_of std vals (secs (m_time (snd r'))) r' = found_of std vals (secs (m_time (snd r))) r).
    { unfold found_of. rewrite D, X, <- T. reflexivity. }
    rewrite FO. unfold fit. rewrite FI. cbn [negb seen s_enough s_found earliest]. rewrite ENB. cbn [negb].
    unfold on_multi. set (f := found_of std vals (secs (m_time (snd r))) r).
    assert (NE : py_slice vals None (Some (m_index (snd r) + 1)) <> []) by (apply slice_to_ne; [lia|exact NV]).
    assert (CM : combine_first (f_mean f) (pre_mean s) = f_mean f).
    { unfold f, found_of. cbn [f_mean]. destruct (qmean_ne _ NE) as (q & ->). reflexivity. }
    assert (CS : combine_first (f_std f) (pre_std s) = f_std f).
    { unfold f, found_of. cbn [f_std]. destruct (std _) as [w|] eqn:W; [reflexivity|]. exfalso. exact (TS _ NE W). }
    rewrite CM, CS. split; [reflexivity|]. destruct (push_cp_spec (cps s) (f_time f) I1) as (_ & P1 & P2 & P3). split.
    + split; [exact P1|]. split; [|exact I3]. intros _. split; [exact P2|discriminate].
    + right. exists (m_time (snd r)). split; [exact MT|]. split; [exact P2|exact P3].
  - destruct (first_of p) as [r'|]; [contradiction|]. cbn [on_multi].
    unfold fit. rewrite FI. cbn [negb seen s_enough s_found]. rewrite ENB. cbn [negb].
    split; [reflexivity|]. split; [exact (conj I1 (conj I2 I3))|left; reflexivity].
Qed.

Lemma zip_nth_inv {A B C} (f : A -> B -> C) l : forall m i z, nth_error (zip_with f l m) i = Some z ->
  exists x y, nth_error l i = Some x /\ nth_error m i = Some y /\ z = f x y.
Proof.
  induction l as [|a l IH]; intros [|b m] i z H; [destruct i; discriminate..|]. destruct i; cbn in H.
  - injection H as <-. exists a, b. auto.
  - apply IH in H. exact H.
Qed.
Lemma combine_nth_some {A B} (l : list A) : forall (m : list B) i x y,
  nth_error l i = Some x -> nth_error m i = Some y -> nth_error (combine l m) i = Some (x, y).
Proof.
  induction l as [|a l IH]; intros [|b m] i x y X Y; [destruct i; discriminate..|].
  destruct i; cbn in *; [congruence|]. eauto.
Qed.

(** all columns of a scan *)
Lemma scan_same g std sts times cols i : Forall inv sts -> total std -> length sts = length cols ->
  (forall v, In v cols -> length v = length times) ->
  scan_index g times = Some i -> 0 <= i -> i + 3 <= Z.of_nat (length times) ->
  (g_adapted g = false \/ 0 < i) ->
  match fit_multi g std sts times cols with
  | Some sts' =>
      length sts' = length sts /\
      forall j s v, nth_error sts j = Some s -> nth_error cols j = Some v ->
        exists s', nth_error sts' j = Some s' /\ fit_scan g std s times v = Some s' /\ inv s' /\
          (cps s' = cps s \/ exists t, In t times /\ cps s' <> [] /\ last (cps s') 0 = secs t)
  | None => ~ (g_magnitude g = None /\ understood (det_dirs g))
  end.
Proof.
  intros IV TS LS LC SI I0 I3 AD. unfold fit_multi. rewrite SI.
  set (n := Z.of_nat (length times)). set (on := fun s => negb (alert_fired s) && (1 <? n - i)).
  assert (EN : (1 <? n - i) = true) by (apply Z.ltb_lt; unfold n; lia).
  assert (ON : forall s, on s = negb (alert_fired s)) by (intros s; unfold on; rewrite EN; apply andb_true_r).
  set (A := det_args g (i, n)).
  assert (VC : valid_call A times cols).
  { split; [exact LC|]. split; [unfold n in *; lia|]. cbn. unfold n. lia. }
  assert (NV : forall v, In v cols -> v <> []).
  { intros v I E. apply LC in I. rewrite E in I. cbn in I. unfold n in *. lia. }
  (* the change points of the columns without an alert *)
  assert (CPS : match (if existsb on sts then
      option_map (zip_with (fun s l => if on s then first_of l else None) sts) (vec_detector A (det_dirs g) times cols)
      else Some (map (fun _ => None) sts)) with
    | Some cps => length cps = length sts /\ forall j s v, nth_error sts j = Some s -> nth_error cols j = Some v ->
        exists cp, nth_error cps j = Some cp /\ (alert_fired s = true -> cp = None) /\
          (alert_fired s = false -> exists l p, cp = first_of l /\ detector A (det_dirs g) times v = Some p /\
             Forall2 same_but_stable l p)
    | None => ~ (g_magnitude g = None /\ understood (det_dirs g))
    end).
  { destruct (existsb on sts) eqn:EX.
    - destruct (vec_detector A (det_dirs g) times cols) as [out|] eqn:VD; cbn [option_map].
      + destruct (C272_columns _ _ _ _ _ VC VD) as (LO & COL). split; [apply zip_length; congruence|].
        intros j s v S V. destruct (COL j v V) as (l & p & NL & D & F).
        exists (if on s then first_of l else None). split; [rewrite (zip_nth_error _ _ _ _ s l); auto|].
        rewrite ON. split; intros FI; rewrite FI; cbn [negb]; [reflexivity|eauto].
      + intros (NM & U). apply (C272_raises _ _ _ _ VC U) in VD as (ts & I & N).
        destruct VC as (LEN & L3 & W).
        destruct (C270_returns A (det_dirs g) times ts) as (o & O); auto.
        * rewrite (LEN ts I). reflexivity.
        * rewrite (LEN ts I). exact L3.
        * cbn. lia.
        * rewrite (LEN ts I). exact W.
        * congruence.
    - split; [apply map_length|]. intros j s v S V. exists None. split; [rewrite nth_error_map, S; reflexivity|].
      split; [reflexivity|]. intros FI. exfalso.
      assert (existsb on sts = true); [|congruence]. apply existsb_exists. exists s.
      split; [eapply nth_error_In; eauto|]. rewrite ON, FI. reflexivity. }
  fold n. fold on. destruct (if existsb on sts then _ else _) as [cps|]; [|exact CPS].
  destruct CPS as (LCP & CPS).
  set (sts1 := zip_with _ (combine sts cols) cps).
  assert (L1 : length sts1 = length sts).
  { unfold sts1. rewrite zip_length; rewrite combine_length; lia. }
  assert (N1 : forall j s v, nth_error sts j = Some s -> nth_error cols j = Some v ->
    exists cp, nth_error sts1 j = Some (on_multi std s v cp) /\ (alert_fired s = true -> cp = None) /\
          (alert_fired s = false -> exists l p, cp = first_of l /\ detector A (det_dirs g) times v = Some p /\
             Forall2 same_but_stable l p)).
  { intros j s v S V. destruct (CPS j s v S V) as (cp & NC & R). exists cp. split; [|exact R].
    unfold sts1. rewrite (zip_nth_error _ _ _ _ (s, v) cp); [reflexivity|now apply combine_nth_some|exact NC]. }
  split.
  { destruct (existsb alert_fired sts); [|exact L1]. apply zip_length. rewrite combine_length. lia. }
  intros j s v S V. destruct (N1 j s v S V) as (cp & NS & ONF & OFF).
  assert (LV : length v = length times) by (apply LC; eapply nth_error_In; eauto).
  assert (IS : inv s) by (rewrite Forall_forall in IV; apply IV; eapply nth_error_In; eauto).
  assert (NVV : v <> []) by (apply NV; eapply nth_error_In; eauto).
  destruct (alert_fired s) eqn:FI.
  - rewrite (ONF eq_refl) in NS. cbn [on_multi] in NS.
    replace (existsb alert_fired sts) with true.
    2:{ symmetry. apply existsb_exists. exists s. split; [eapply nth_error_In; eauto|exact FI]. }
    exists (off_multi g std true s v i (secs (last times 0))). split.
    { rewrite (zip_nth_error _ _ _ _ s (s, v)); [rewrite FI; reflexivity|exact S|now apply combine_nth_some]. }
    assert (AD' : g_adapted g = false \/ 0 < i /\ v <> []) by (destruct AD; auto).
    unfold fit_scan. rewrite SI, FI. cbn [negb andb].
    pose proof (off_same g std s v i (secs (last times 0)) [] IS FI TS AD') as E. split; [exact E|].
    destruct (fit_step (watched g) (g_std_ratio g) (g_adapted g) s (seen std v i (secs (last times 0)) []) IS)
      as (s2 & E2 & IV2 & _ & CP). rewrite E in E2. injection E2 as <-. split; [exact IV2|].
    left. apply CP. exact FI.
  - destruct (OFF eq_refl) as (l & p & -> & DT & F2). unfold A, n in DT. rewrite <- LV in DT.
    destruct (on_same g std s times v l p i IS FI TS NVV SI) as (E & IV2 & CP); auto.
    { rewrite LV. lia. }
    exists (on_multi std s v (first_of l)). split; [|auto].
    destruct (existsb alert_fired sts); [|exact NS].
    rewrite (zip_nth_error _ _ _ _ s (on_multi std s v (first_of l), v)); [|exact S|now apply combine_nth_some].
    rewrite FI. cbn [fst snd]. rewrite off_idle; [reflexivity|]. apply IV2.
Qed.
