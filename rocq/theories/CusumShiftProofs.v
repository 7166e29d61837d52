(** Moving all times by a constant moves the times of the change points and nothing else. *)
From Verif Require Import Common PySlice CusumModel CusumDetModel CusumSpec CusumProofs CusumStateProofs
  CusumDetProps CusumMagProps CusumVecProps CusumRunModel.
Require Import Reals.
Require Import String List.
Require Import Sorted.
Open Scope Z_scope.

Definition later (k : Z) (m : meta) : meta :=
  MkMeta (m_index m) (k + m_time m) (m_mu0 m) (m_mu1 m) (m_stable m) (m_llr_int m) (m_p_int m)
    (m_llr m) (m_p m) (m_found m).

Lemma nth_z_map {A B} (f : A -> B) l i : nth_z (map f l) i = option_map f (nth_z l i).
Proof. unfold nth_z. destruct (i <? 0); [reflexivity|]. apply nth_error_map. Qed.
Lemma find_time_later k times t : forall i, find_time (map (Z.add k) times) (k + t) i = find_time times t i.
Proof.
  induction times as [|x l IH]; intros i; [reflexivity|]. cbn [map find_time].
  destruct (Z.eqb_spec (k + x) (k + t)), (Z.eqb_spec x t); auto; lia.
Qed.
Lemma span_later k times : times <> [] ->
  zmaxl (map (Z.add k) times) - zminl (map (Z.add k) times) = zmaxl times - zminl times.
Proof.
  destruct times as [|x l]; [congruence|]. intros _. unfold zmaxl, zminl. cbn [map].
  assert (A : fold_right Z.max (k + x) (map (Z.add k) l) = k + fold_right Z.max x l).
  { induction l as [|y l IH]; [reflexivity|]. cbn [map fold_right]. rewrite IH. lia. }
  assert (B : fold_right Z.min (k + x) (map (Z.add k) l) = k + fold_right Z.min x l).
  { clear A. induction l as [|y l IH]; [reflexivity|]. cbn [map fold_right]. rewrite IH. lia. }
  lia.
Qed.
Lemma count_days_later k quant ts times t0 t1 mag ratio : forall n i,
  count_days quant ts (map (Z.add k) times) (k + t0) (k + t1) mag ratio i n
  = count_days quant ts times t0 t1 mag ratio i n.
Proof.
  induction n as [|n IH]; intros i; [reflexivity|]. cbn [count_days].
  replace (k + t0 - i * day_ns) with (k + (t0 - i * day_ns)) by ring.
  replace (k + t1 - i * day_ns) with (k + (t1 - i * day_ns)) by ring.
  rewrite !find_time_later, IH. reflexivity.
Qed.
Lemma magnitude_later k quant ratio times w ts :
  magnitude_compare quant ratio (map (Z.add k) times) w ts = magnitude_compare quant ratio times w ts.
Proof.
  unfold magnitude_compare. rewrite !nth_z_map.
  destruct (quant _); [|reflexivity]. destruct (nth_z times (fst w)) as [t0|] eqn:E0; [|reflexivity].
  destruct (nth_z times (snd w)) as [t1|]; [|reflexivity]. cbn [option_map].
  rewrite span_later.
  - rewrite count_days_later. reflexivity.
  - intros ->. unfold nth_z in E0. destruct (_ <? 0); [discriminate|]. destruct (Z.to_nat (fst w)); discriminate.
Qed.
Lemma decide_later k A d times ts i mu0 mu1 st :
  decide A d (map (Z.add k) times) ts i mu0 mu1 st = option_map (later k) (decide A d times ts i mu0 mu1 st).
Proof.
  unfold decide. rewrite nth_z_map. destruct (nth_z times i) as [t|]; [|reflexivity]. cbn [option_map].
  destruct (llr_window ts (a_window A) i) as [li pi].
  assert (M : mag_change A d (map (Z.add k) times) ts = mag_change A d times ts).
  { unfold mag_change. destruct (a_magnitude A), (a_window A); try reflexivity. rewrite magnitude_later. reflexivity. }
  rewrite M. destruct (mag_change A d times ts); reflexivity.
Qed.
Lemma detector_later k A dirs times ts :
  detector A dirs (map (Z.add k) times) ts
  = option_map (map (fun r => (fst r, later k (snd r)))) (detector A dirs times ts).
Proof.
  unfold detector. destruct (directions dirs) as [ds|]; [|reflexivity].
  assert (M : forall l, all_metas (change_meta A (map (Z.add k) times) ts) l
    = option_map (map (fun r => (fst r, later k (snd r)))) (all_metas (change_meta A times ts) l)).
  { induction l as [|d l IH]; [reflexivity|]. cbn [all_metas]. rewrite IH.
    assert (C : change_meta A (map (Z.add k) times) ts d = option_map (later k) (change_meta A times ts d)).
    { unfold change_meta. destruct (get_change_point _ _ _ _ _); [|reflexivity]. apply decide_later. }
    rewrite C. destruct (change_meta A times ts d), (all_metas (change_meta A times ts) l); reflexivity. }
  rewrite M. destruct (all_metas (change_meta A times ts) (keys [] ds)) as [l|]; [|reflexivity].
  cbn [option_map]. f_equal. unfold convert. induction l as [|r l IH]; [reflexivity|].
  cbn [map filter]. cbn [snd later m_found]. destruct (m_found (snd r) || a_all A); cbn [map]; rewrite IH; reflexivity.
Qed.
Lemma detector_times A dirs times ts l : detector A dirs times ts = Some l ->
  forall r, In r l -> In (m_time (snd r)) times.
Proof.
  unfold detector. destruct (directions dirs) as [ds|]; [|discriminate].
  destruct (all_metas (change_meta A times ts) (keys [] ds)) as [x|] eqn:E; [|discriminate].
  intros H. apply (f_equal (fun o => match o with Some y => y | None => [] end)) in H. cbn in H. subst l.
  intros (d, m) I. apply filter_In in I as (I & _). apply all_metas_spec in E as (_ & E). apply E in I.
  unfold change_meta in I. destruct (get_change_point _ _ _ _ _) as [c|]; [|discriminate].
  unfold decide in I. destruct (nth_z times (cp_index c)) as [t|] eqn:N; [|discriminate].
  destruct (llr_window _ _ _). destruct (mag_change _ _ _ _); [|discriminate].
  injection I as <-. cbn. unfold nth_z in N. destruct (_ <? 0); [discriminate|]. eapply nth_error_In; eauto.
Qed.

(** ** The earliest change point *)
Definition same_spot (k : Z) (v p : direction * meta) : Prop :=
  fst v = fst p /\ m_index (snd v) = m_index (snd p) /\ k + m_time (snd v) = m_time (snd p).
Lemma first_meta_rel k l : forall l' r r', same_spot k r r' -> Forall2 (same_spot k) l l' ->
  same_spot k (first_meta r l) (first_meta r' l').
Proof.
  induction l as [|x l IH]; intros l' r r' H F; inversion F as [|? y ? l2 Hxy F2]; subst; [exact H|].
  cbn [first_meta]. destruct H as (A & B & C), Hxy as (A2 & B2 & C2).
  destruct (Z.ltb_spec (m_time (snd x)) (m_time (snd r))), (Z.ltb_spec (m_time (snd y)) (m_time (snd r'))); try lia.
  - apply IH; [repeat split; assumption|assumption].
  - apply IH; [repeat split; assumption|assumption].
Qed.
Lemma first_of_rel k l l' : Forall2 (same_spot k) l l' ->
  match first_of l, first_of l' with
  | None, None => True
  | Some r, Some r' => same_spot k r r'
  | _, _ => False
  end.
Proof. intros F. inversion F; subst; [exact I|]. cbn [first_of]. apply first_meta_rel; assumption. Qed.
Lemma first_meta_in l : forall r, In (first_meta r l) (r :: l).
Proof.
  induction l as [|x l IH]; intros r; [left; reflexivity|]. cbn [first_meta].
  destruct (m_time (snd x) <? m_time (snd r)).
  - right. apply IH.
  - destruct (IH r) as [E|I]; [left; exact E|right; right; exact I].
Qed.
Lemma first_of_in l r : first_of l = Some r -> In r l.
Proof. destruct l as [|x l]; [discriminate|]. cbn. intros E; injection E as <-. apply first_meta_in. Qed.

Lemma last_map {A B} (f : A -> B) l d d' : l <> [] -> last (map f l) d' = f (last l d).
Proof.
  induction l as [|x l IH]; [congruence|]. intros _. destruct l as [|y l]; [reflexivity|].
  change (last (map f (x :: y :: l)) d') with (last (map f (y :: l)) d'). rewrite IH by discriminate. reflexivity.
Qed.
Lemma first_ge_later k times t : forall i, first_ge (map (Z.add k) times) (k + t) i = first_ge times t i.
Proof.
  induction times as [|x l IH]; intros i; [reflexivity|]. cbn [map first_ge].
  destruct (Z.leb_spec (k + t) (k + x)), (Z.leb_spec t x); auto; lia.
Qed.
Lemma scan_index_later g k times : times <> [] -> scan_index g (map (Z.add k) times) = scan_index g times.
Proof.
  intros N. unfold scan_index, time2idx_right. rewrite (last_map _ _ 0) by assumption.
  replace (k + last times 0 - g_scan g) with (k + (last times 0 - g_scan g)) by ring. apply first_ge_later.
Qed.

(** ** One step *)
Definition whole_seconds (times : list Z) : Prop := forall t, In t times -> second <= t /\ (second | t).
Lemma secs_whole t : (second | t) -> secs t * second = t.
Proof. intros (q & ->). unfold secs. rewrite Z.div_mul; [reflexivity|discriminate]. Qed.
Lemma push_last l t : (length l <= 10)%nat -> exists r, rev (push_cp l t) = t :: r.
Proof.
  intros L. destruct (push_cp_spec l t L) as (_ & _ & N & E).
  destruct (rev (push_cp l t)) as [|x r] eqn:R; [apply rev_nil in R; contradiction|].
  apply (rev_last _ 0) in R. rewrite E in R. subst. eexists; reflexivity.
Qed.

Lemma step_same g std s ctimes ptimes vals pvals k v p i :
  inv s -> whole_seconds ctimes -> 0 <= k -> (second | k) -> ptimes <> [] -> incl ptimes ctimes ->
  scan_index g ctimes = Some i -> 1 < Z.of_nat (length vals) - i ->
  detector (det_args g (i, Z.of_nat (length vals))) (det_dirs g) ctimes vals = Some p ->
  Forall2 same_but_stable v p ->
  (alert_fired s = true -> last (cps s) 0 * second < k + nth 0 ptimes 0) ->
  match fit_scan g std s (map (Z.add k) ctimes) vals with
  | None => None
  | Some s' => option_map (pair s') (predict (g_score g) s' (map (Z.add k) ptimes) pvals)
  end =
  match fit_vec_row g std s ctimes vals (first_of v) k with
  | None => None
  | Some (s', res) =>
      option_map (pair s')
        (predict_col (g_score g) (alert_fired s') (pre_mean s') (pre_std s') res ptimes pvals)
  end /\
  forall s' res, fit_vec_row g std s ctimes vals (first_of v) k = Some (s', res) ->
    inv s' /\ (alert_fired s' = true ->
       (alert_fired s = true /\ last (cps s') 0 = last (cps s) 0) \/
       exists t, In t ctimes /\ last (cps s') 0 * second = k + t).
Proof.
  intros IV WS K0 KS NP IP SI EN DT F OLD.
  assert (NC : ctimes <> []) by (destruct ptimes as [|x]; [congruence|]; intros ->; apply (IP x); left; reflexivity).
  unfold fit_scan, fit_vec_row. rewrite scan_index_later by assumption. rewrite SI.
  rewrite (last_map _ _ 0) by assumption.
  destruct (Z.ltb_spec 1 (Z.of_nat (length vals) - i)) as [_|]; [|lia].
  destruct (alert_fired s) eqn:FI; cbn [negb andb].
  - (* an alert that is on *)
    destruct IV as (I1 & I2 & I3). rewrite (Z.add_comm k (last ctimes 0)).
    set (sc := seen std vals i (secs (last ctimes 0 + k)) []).
    destruct (fit_step (watched g) (g_std_ratio g) (g_adapted g) s sc) as (s' & -> & IV' & _ & ON).
    { exact (conj I1 (conj I2 I3)). }
    destruct (ON FI) as (CP & _ & _). split.
    + cbn [option_map]. f_equal. unfold predict, predict_col. destruct ptimes as [|t0 pt]; [congruence|].
      cbn [map option_map]. destruct (alert_fired s') eqn:FI'; [|reflexivity].
      rewrite CP. destruct (rev (cps s)) as [|c r] eqn:RV; [apply rev_nil in RV; destruct (I2 FI); contradiction|].
      apply (rev_last _ 0) in RV. specialize (OLD eq_refl). rewrite RV in OLD. cbn [nth] in OLD.
      destruct (Z.leb_spec (k + t0) (c * second)); [lia|reflexivity].
    + intros s2 res E. cbn [option_map] in E. injection E as <- <-. split; [exact IV'|].
      intros _. left. rewrite CP. auto.
  - (* an alert that is off *)
    rewrite detector_later, DT. cbn [option_map].
    assert (F2 : Forall2 (same_spot k) v (map (fun r => (fst r, later k (snd r))) p)).
    { clear - F. induction F as [|a b l l' H F IH]; [constructor|]. cbn [map]. constructor; [|exact IH].
      destruct H as (A & B & C & _). repeat split; cbn; congruence. }
    assert (IN : forall r, In r v -> In (m_time (snd r)) ctimes).
    { intros r I. pose proof (detector_times _ _ _ _ _ DT) as T. clear - F I T.
      induction F as [|a b l l' H F IH]; [destruct I|]. destruct I as [<-|I].
      - destruct H as (_ & _ & -> & _). apply T. left; reflexivity.
      - apply IH; [exact I|]. intros x X. apply T. right; exact X. }
    pose proof (first_of_rel _ _ _ F2) as FR.
    destruct (first_of v) as [r|] eqn:FV.
    + destruct (first_of (map _ p)) as [r'|]; [|contradiction]. destruct FR as (D & X & T).
      apply first_of_in in FV. specialize (IN r FV). destruct (WS _ IN) as (POS & WH).
      assert (FO : found_of std vals (secs (m_time (snd r'))) r' = found_of std vals (secs (m_time (snd r) + k)) r).
      { unfold found_of. rewrite D, X, <- T, (Z.add_comm k). reflexivity. }
      rewrite FO. unfold fit. rewrite FI. cbn [negb seen s_enough s_found earliest].
      destruct (Z.ltb_spec 1 (Z.of_nat (length vals) - i)) as [_|]; [|lia]. cbn [negb].
      set (f := found_of std vals (secs (m_time (snd r) + k)) r).
      set (s' := set_alert_on _ _ _ _). destruct IV as (I1 & I2 & I3).
      destruct (push_last (cps s) (f_time f) I1) as (rest & RV).
      assert (SK : secs (m_time (snd r) + k) * second = m_time (snd r) + k).
      { apply secs_whole. apply Z.divide_add_r; assumption. }
      assert (FT : f_time f * second = m_time (snd r) + k) by exact SK.
      assert (SM : secs (m_time (snd r)) * second = m_time (snd r)) by (apply secs_whole; assumption).
      split.
      * f_equal. unfold predict, predict_col. destruct ptimes as [|t0 pt]; [congruence|].
        change (alert_fired s') with true. change (cps s') with (push_cp (cps s) (f_time f)). rewrite RV.
        cbn [map]. rewrite FT.
        assert (SP : 0 < secs (m_time (snd r))) by (unfold second in *; nia).
        destruct (secs (m_time (snd r))) as [|c|c] eqn:SC; [lia| |lia]. rewrite SM.
        replace (m_time (snd r) + k) with (k + m_time (snd r)) by ring.
        change ((k + t0) :: map (Z.add k) pt) with (map (Z.add k) (t0 :: pt)). rewrite find_time_later.
        destruct (Z.leb_spec (k + t0) (k + m_time (snd r))), (Z.leb_spec t0 (m_time (snd r))); try lia; [|reflexivity].
        destruct (find_time (t0 :: pt) (m_time (snd r)) 0); reflexivity.
      * intros s2 res E. injection E as <- <-. split.
        { unfold inv, s'. cbn. destruct (push_cp_spec (cps s) (f_time f) I1) as (_ & P1 & P2 & _).
          split; [exact P1|]. split; [|exact I3]. intros _. split; [exact P2|discriminate]. }
        intros _. right. exists (m_time (snd r)). split; [exact IN|].
        change (cps s') with (push_cp (cps s) (f_time f)). rewrite (rev_last _ 0 _ _ RV). lia.
    + destruct (first_of (map _ p)) as [r'|]; [contradiction|].
      unfold fit. rewrite FI. cbn [negb seen s_enough s_found].
      destruct (Z.ltb_spec 1 (Z.of_nat (length vals) - i)) as [_|]; [|lia]. cbn [negb]. split.
      * f_equal. unfold predict, predict_col. rewrite FI. destruct ptimes as [|t0 pt]; [congruence|]. reflexivity.
      * intros s2 res E. injection E as <- <-. split; [exact IV|]. congruence.
Qed.
