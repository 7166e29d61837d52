(** C276: the CUSUM model for several series at once scores every column as the model for one
    series would. *)
From Verif Require Import Common PySlice CusumModel CusumDetModel CusumSpec CusumProofs CusumStateProofs
  CusumDetProps CusumMagProps CusumVecProps CusumRunModel CusumShiftProofs CusumPathProofs CusumPathProps
  CusumFleetProofs CusumFleetRunProofs.
Require Import Reals.
Require Import String List.
Require Import Sorted.
Open Scope Z_scope.

(** ** Specification *)

(** named columns of [n] values, the names all different *)
Definition table (n : nat) (names : list string) (cols : list (list Q)) : Prop :=
  NoDup names /\ length names = length cols /\ cols <> [] /\ forall v, In v cols -> length v = n.
(** the standard deviation of some values is a number *)
Definition has_std (std : list Q -> option Q) : Prop := forall l, l <> [] -> std l <> None.

(** ** Lemmas *)
Lemma zeros_cells names a j name : NoDup names -> nth_error names j = Some name ->
  cells (zeros_frame names a) name = repeat (V 0) a.
Proof.
  intros ND N. destruct a as [|a].
  - cbn [zeros_frame]. unfold cells, lookup, value_name. cbn [find fst rows length].
    destruct (String.eqb "value" name); reflexivity.
  - cbn [zeros_frame]. unfold cells. rewrite (lookup_map (fun _ => repeat (V 0) (Datatypes.S a))); [reflexivity|].
    eapply nth_error_In; eauto.
Qed.
Lemma zeros_framed names a : names <> [] -> framed (zeros_frame names a) /\ rows (zeros_frame names a) = a.
Proof.
  intros N. destruct a as [|a].
  - split; [|reflexivity]. split; [discriminate|]. intros c [<-|[]]. reflexivity.
  - cbn [zeros_frame]. destruct names as [|x names]; [congruence|].
    assert (R : rows (map (fun y => (y, repeat (V 0) (Datatypes.S a))) (x :: names)) = Datatypes.S a).
    { cbn [map rows]. apply repeat_length. }
    split; [|exact R]. split; [discriminate|]. intros c I. rewrite R. apply in_map_iff in I as (y & <- & _). apply repeat_length.
Qed.
Lemma zeros_keys names a name : In name (keys_of (zeros_frame names a)) <->
  (a = 0%nat /\ name = value_name) \/ ((0 < a)%nat /\ In name names).
Proof.
  destruct a as [|a]; cbn [zeros_frame].
  - cbn. split; [intros [<-|[]]; auto|]. intros [(_ & ->)|(H & _)]; [auto|lia].
  - unfold keys_of. rewrite map_map. cbn [fst]. rewrite map_id. split; [intros H; right; split; [lia|exact H]|].
    intros [(H & _)|(_ & H)]; [discriminate|exact H].
Qed.
Lemma key_cells fr name : In name (keys_of fr) -> lookup fr name = Some (cells fr name).
Proof. intros I. apply lookup_some in I as (c & E). unfold cells. rewrite E. reflexivity. Qed.
Lemma predict_init k times vals : predict k init times vals = Some (map (fun _ => V 0) vals).
Proof. reflexivity. Qed.

Lemma fleet_call g std t0 f n names times cols org regular :
  evenly t0 f n times -> table n names cols -> (org < n)%nat -> has_std std -> g_adapted g = false ->
  match fit_predict_multi g std f names times cols (Z.of_nat org) with
  | Some (sts, fr) =>
      forall j v name, nth_error cols j = Some v -> nth_error names j = Some name ->
        exists s w, fit_predict (with_vec false g) std f regular times v (Z.of_nat org) init = Some (s, w) /\
          nth_error sts j = Some s /\ lookup fr name = Some w
  | None => ~ (g_magnitude g = None /\ understood (det_dirs g)) \/
      forall j v, nth_error cols j = Some v ->
        fit_predict (with_vec false g) std f regular times v (Z.of_nat org) init = None
  end /\
  forall sts fr, fit_predict_multi g std f names times cols (Z.of_nat org) = Some (sts, fr) ->
    ~ In "value"%string names ->
    lookup fr "value"%string =
      if (g_hist g <=? Z.of_nat org * f) && (g_scan g <=? Z.of_nat n * f) then Some (repeat VNaN (n - org)) else None.
Proof.
  intros (ET & F & P0 & W0 & WF) (ND & LN & NC & LC) ORG TS AD.
  assert (EV : evenly t0 f n times) by (repeat split; assumption).
  fold (grid t0 f 0 n) in ET. subst times. set (times := grid t0 f 0 n) in *.
  unfold fit_predict_multi, fit_predict. change (windows_ok (with_vec false g) f) with (windows_ok g f).
  destruct (negb (windows_ok g f)) eqn:WO; [split; [right; reflexivity|discriminate]|]. apply negb_false_iff in WO.
  cbv zeta. change (g_vectorized (with_vec false g)) with false. cbn [andb].
  change (g_scan (with_vec false g)) with (g_scan g). change (g_hist (with_vec false g)) with (g_hist g).
  change (g_score (with_vec false g)) with (g_score g). change (smooth_of (with_vec false g)) with (smooth_of g).
  change (step_of (with_vec false g)) with (step_of g). change (rest_path (with_vec false g)) with (rest_path g).
  assert (NN : names <> []) by (intros E; rewrite E in LN; destruct cols; [congruence|discriminate]).
  assert (LT : length times = n) by apply grid_length.
  assert (DT : py_slice times (Some (Z.of_nat org)) None = grid t0 f org (n - org)).
  { unfold py_slice. rewrite LT, norm_idx_in by lia.
    replace (Z.to_nat (Z.of_nat n - Z.of_nat org)) with (n - org)%nat by lia. rewrite Nat2Z.id.
    change (cut org (n - org) times = grid t0 f org (n - org)). apply cut_grid. lia. }
  assert (N0 : nth 0 times 0 = t0) by (unfold times; rewrite grid_nth by lia; cbn; lia).
  assert (FN : last times 0 = t0 + Z.of_nat (n - 1) * f).
  { unfold times. replace n with (Datatypes.S (n - 1)) at 1 by lia. rewrite grid_last. reflexivity. }
  assert (NO : nth 0 (grid t0 f org (n - org)) 0 = t0 + Z.of_nat org * f) by (rewrite grid_nth by lia; f_equal; lia).
  rewrite DT, LT, N0, FN, NO.
  set (final := t0 + Z.of_nat (n - 1) * f) in *.
  set (smooths := map (smooth_of g f) cols).
  assert (LSM : forall v, In v smooths -> length v = n).
  { intros v I. apply in_map_iff in I as (u & <- & U). rewrite smooth_length. apply LC. exact U. }
  assert (LSMC : length smooths = length cols) by apply map_length.
  set (ini := map (fun _ => init) cols).
  assert (LI : length ini = length cols) by apply map_length.
  (* everything at once *)
  assert (WHOLE : forall (b : bool), (g_hist g <=? Z.of_nat org * f) && (g_scan g <=? Z.of_nat n * f) = false ->
    match option_map (fun v => (ini, combine names v))
       (predict_multi (g_score g) ini (grid t0 f org (n - org)) (map (fun v => py_slice v (Some (Z.of_nat org)) None) smooths)) with
    | Some (sts, fr) => forall j v name, nth_error cols j = Some v -> nth_error names j = Some name ->
        exists s w, option_map (pair init) (predict (g_score g) init (grid t0 f org (n - org))
            (py_slice (smooth_of g f v) (Some (Z.of_nat org)) None)) = Some (s, w) /\
          nth_error sts j = Some s /\ lookup fr name = Some w
    | None => False
    end /\
    forall sts fr, option_map (fun v => (ini, combine names v))
       (predict_multi (g_score g) ini (grid t0 f org (n - org)) (map (fun v => py_slice v (Some (Z.of_nat org)) None) smooths))
       = Some (sts, fr) -> ~ In "value"%string names ->
     lookup fr "value"%string =
      if (g_hist g <=? Z.of_nat org * f) && (g_scan g <=? Z.of_nat n * f) then Some (repeat VNaN (n - org)) else None).
  { intros _ NV.
    assert (PC : forall j v, nth_error cols j = Some v ->
      nth_error (zip_with (fun s v => predict_col (g_score g) (alert_fired s) (pre_mean s) (pre_std s)
         (match rev (cps s) with [] => None | c :: _ => Some c end) (grid t0 f org (n - org)) v) ini
         (map (fun v => py_slice v (Some (Z.of_nat org)) None) smooths)) j
      = Some (Some (map (fun _ => V 0) (py_slice (smooth_of g f v) (Some (Z.of_nat org)) None)))).
    { intros j v HV. rewrite (zip_nth_error _ _ _ _ init (py_slice (smooth_of g f v) (Some (Z.of_nat org)) None)).
      - f_equal. destruct (predict_same (g_score g) init (grid t0 f org (n - org))
          (py_slice (smooth_of g f v) (Some (Z.of_nat org)) None)) as (x & PX & _ & PC).
        + apply init_inv.
        + intros E. apply (f_equal (@length Z)) in E. rewrite grid_length in E. cbn in E. lia.
        + intros N. exfalso. apply N. reflexivity.
        + rewrite predict_init in PX. injection PX as <-. exact PC.
      - unfold ini. rewrite nth_error_map, HV. reflexivity.
      - unfold smooths. rewrite !nth_error_map, HV. reflexivity. }
    unfold predict_multi. destruct (all_some _) as [w|] eqn:AS.
    - cbn [option_map].
      assert (LW : length w = length names).
      { rewrite (all_some_length _ _ AS), zip_length; rewrite ?map_length; lia. }
      split.
      + intros j v name HV N. exists init, (map (fun _ => V 0) (py_slice (smooth_of g f v) (Some (Z.of_nat org)) None)).
        split; [rewrite predict_init; reflexivity|].
        split; [unfold ini; rewrite nth_error_map, HV; reflexivity|].
        apply (lookup_combine names w j); [exact ND|exact N|].
        pose proof (all_some_nth_error _ _ j AS) as X. rewrite (PC j v HV) in X.
        destruct (nth_error w j); [|discriminate]. cbn in X. congruence.
      + intros sts fr E NVAL. injection E as <- <-. rewrite NV. apply lookup_none. rewrite keys_combine by exact LW. exact NVAL.
    - exfalso. apply all_some_in_none in AS. apply In_nth_error in AS as (j & N).
      destruct (nth_error cols j) as [v|] eqn:HV; [rewrite (PC j v HV) in N; discriminate|].
      apply nth_error_None in HV. assert (J : (j < length (zip_with (fun s v => predict_col (g_score g) (alert_fired s) (pre_mean s) (pre_std s)
         (match rev (cps s) with [] => None | c :: _ => Some c end) (grid t0 f org (n - org)) v) ini
         (map (fun v => py_slice v (Some (Z.of_nat org)) None) smooths)))%nat) by (apply nth_error_Some; congruence).
      rewrite zip_length in J; rewrite ?map_length; lia. }
  unfold windows_ok in WO. apply andb_true_iff in WO as (WO1 & WO2).
  apply negb_true_iff, orb_false_iff in WO2 as (SC & HC). apply Z.ltb_ge in SC, HC.
  destruct (Z.ltb_spec final (Z.max (t0 + g_hist g) (t0 + Z.of_nat org * f))) as [EARLY|EARLY].
  { destruct (WHOLE true) as (A & B).
    { apply andb_false_iff. left. apply Z.leb_gt. unfold final in EARLY. nia. }
    split; [|exact B]. destruct (option_map _ _) as [(sts, fr)|]; [exact A|destruct A]. }
  destruct (time2idx_right (grid t0 f org (n - org)) _) as [a|] eqn:TR; [|split; [right; reflexivity|discriminate]].
  unfold time2idx_right in TR. pose proof TR as TR'.
  apply first_ge_bound in TR as (A0 & x & NX & XX). rewrite Z.sub_0_r in NX.
  assert (AB : (Z.to_nat a < n - org)%nat).
  { rewrite <- (grid_length t0 f org (n - org)). apply nth_error_Some. congruence. }
  apply nth_error_nth with (d := 0) in NX. rewrite NX. rewrite grid_nth in NX by lia.
  destruct (Z.ltb_spec (final - t0 + f) (g_scan g)) as [SHORT|SHORT].
  { destruct (WHOLE true) as (A & B).
    { apply andb_false_iff. right. apply Z.leb_gt. unfold final in SHORT. nia. }
    split; [|exact B]. destruct (option_map _ _) as [(sts, fr)|]; [exact A|destruct A]. }
  clear WHOLE.
  match goal with |- context [step_of ?g ?a ?b ?c] => set (step := step_of g a b c) end.
  assert (ST : f <= step).
  { unfold step, step_of, final. destruct (g_step g) as [st|].
    - apply andb_true_iff in WO1 as (_ & W). apply negb_true_iff, Z.ltb_ge in W. exact W.
    - apply Z.min_glb; [|nia]. apply Z.div_le_lower_bound; lia. }
  set (m := if Z.min (final + f - step) final <? x then 0%nat else Z.to_nat ((Z.min (final + f - step) final - x) / step + 1)).
  assert (DR : date_range x (Z.min (final + f - step) final) step = map (fun k => x + Z.of_nat k * step) (seq 0 m)).
  { unfold date_range, m. destruct (_ <? x); reflexivity. }
  rewrite DR.
  assert (CX : cnt_lt times x = Z.of_nat (org + Z.to_nat a)) by (rewrite <- NX; apply grid_count; [exact F|lia]).
  destruct (zeros_framed names (Z.to_nat a) NN) as (FZ & RZ).
  assert (VALUE0 : (g_hist g <=? Z.of_nat org * f) && (g_scan g <=? Z.of_nat n * f) = (Z.to_nat a =? 0)%nat).
  { replace (g_scan g <=? Z.of_nat n * f) with true by (symmetry; apply Z.leb_le; unfold final in SHORT; nia).
    rewrite andb_true_r. destruct (Nat.eqb_spec (Z.to_nat a) 0) as [E|E].
    - apply Z.leb_le. rewrite E in NX. nia.
    - apply Z.leb_gt. destruct (Z.lt_ge_cases (Z.of_nat org * f) (g_hist g)); [assumption|exfalso].
      replace (Z.max (t0 + g_hist g) (t0 + Z.of_nat org * f)) with (t0 + Z.of_nat org * f) in TR' by lia.
      replace (n - org)%nat with (Datatypes.S (n - org - 1)) in TR' by lia. unfold grid in TR'. cbn [seq map first_ge] in TR'.
      rewrite Z.leb_refl in TR'. injection TR' as <-. cbn in E. lia. }
  pose proof (fleet_loop g std names t0 f n cols smooths step F P0 W0 WF TS AD SC HC ltac:(lia) ND LN NC LC LSM LSMC
    m x ini (zeros_frame names (Z.to_nat a)) LI ltac:(lia) FZ) as LOOP.
  cbv zeta in LOOP. fold times in LOOP.
  assert (GD : Forall (good (t0 + cnt_lt times x * f)) ini).
  { apply Forall_forall. intros s I. apply in_map_iff in I as (? & <- & _). apply good_init. }
  specialize (LOOP GD).
  destruct (loop_multi g std names times cols smooths step (map (fun k => x + Z.of_nat k * step) (seq 0 m)) ini
    (zeros_frame names (Z.to_nat a))) as [(sts1, fr1)|].
  2:{ split; [|discriminate]. destruct LOOP as [X|X]; [left; exact X|]. right. intros j v HV.
      rewrite loop_with. fold times. rewrite (X j init v (smooth_of g f v)).
      - reflexivity.
      - unfold ini. rewrite nth_error_map, HV. reflexivity.
      - exact HV.
      - unfold smooths. rewrite nth_error_map, HV. reflexivity. }
  destruct LOOP as (k & L1 & GR & KK & GD1 & COL). pose proof GR as (FR1 & RW1 & KY1 & CV1).
  assert (CM : cnt_lt times (x + Z.of_nat m * step) <= Z.of_nat n).
  { pose proof (cnt_lt_le times (x + Z.of_nat m * step)) as B. rewrite LT in B. lia. }
  assert (ONE : forall j v name, nth_error cols j = Some v -> nth_error names j = Some name ->
     exists s1 x1, nth_error sts1 j = Some s1 /\ length x1 = k /\ cells fr1 name = repeat (V 0) (Z.to_nat a) ++ x1 /\
       loop_path g std times v (smooth_of g f v) step (map (fun k => x + Z.of_nat k * step) (seq 0 m)) init = Some (s1, x1)).
  { intros j v name HV N. destruct (COL j init v (smooth_of g f v) name) as (s1 & x1 & N1 & LX & CC & E).
    - unfold ini. rewrite nth_error_map, HV. reflexivity.
    - exact HV.
    - unfold smooths. rewrite nth_error_map, HV. reflexivity.
    - exact N.
    - exists s1, x1. rewrite (zeros_cells names _ j name ND N) in CC. auto. }
  assert (HEAD : map (fun _ : Z => V 0) (py_slice (grid t0 f org (n - org)) None (Some a)) = repeat (V 0) (Z.to_nat a)).
  { replace a with (Z.of_nat (Z.to_nat a)) at 1 by lia. rewrite slice_first_cut by (rewrite grid_length; lia).
    rewrite <- (cut_length 0 (Z.to_nat a) (grid t0 f org (n - org))) at 2 by (rewrite grid_length; lia).
    generalize (cut 0 (Z.to_nat a) (grid t0 f org (n - org))). intros l. induction l; [reflexivity|]. cbn. f_equal. assumption. }
  rewrite RW1, RZ. unfold rest_path. rewrite HEAD.
  set (remain := Z.of_nat n - Z.of_nat org - Z.of_nat (Z.to_nat a + k)).
  assert (NVK : ~ In "value"%string names -> cells fr1 "value"%string = cells (zeros_frame names (Z.to_nat a)) "value"%string ++ repeat VNaN k) by (intros NV; apply CV1; exact NV).
  assert (ZV : ~ In "value"%string names -> Z.to_nat a = 0%nat -> cells (zeros_frame names (Z.to_nat a)) "value"%string = []).
  { intros _ ->. reflexivity. }
  destruct (Z.ltb_spec 0 remain) as [RM|RM].
  - assert (HE : Z.of_nat n - remain = Z.of_nat (org + Z.to_nat a + k)) by (unfold remain; lia).
    set (he := (org + Z.to_nat a + k)%nat) in *. rewrite HE, Nat2Z.id.
    assert (HEN : (he < n)%nat) by (unfold remain in RM; lia).
    assert (NH : nth he times 0 = t0 + Z.of_nat he * f) by (unfold times; rewrite grid_nth by lia; reflexivity).
    rewrite NH.
    destruct (time2idx_left times (t0 + Z.of_nat he * f - g_hist g)) as [hs|] eqn:HS.
    2:{ split; [|discriminate]. right. intros j v HV. rewrite loop_with. fold times.
        destruct (nth_error names j) as [name|] eqn:N.
        - destruct (ONE j v name HV N) as (s1 & x1 & _ & LX & _ & ->). rewrite app_length, repeat_length, LX, LT.
          fold remain. destruct (Z.ltb_spec 0 remain); [|lia]. rewrite HE, Nat2Z.id.
          rewrite NH. rewrite HS. reflexivity.
        - apply nth_error_None in N. assert (j < length cols)%nat by (apply nth_error_Some; congruence). lia. }
    pose proof HS as HS'. apply grid_left_inv in HS' as (_ & HS0 & _ & HSB); [|exact F].
    pose proof (fleet_step g std names t0 f n cols smooths (Z.to_nat hs) he n sts1
        F P0 W0 WF TS AD SC LN ltac:(lia) NC LC LSM LSMC ltac:(nia) ltac:(lia) ltac:(lia)) as STEP.
    rewrite !Z2Nat.id in STEP by lia.
    assert (CE : cnt_lt times (x + Z.of_nat m * step) = Z.of_nat he) by (unfold he; lia).
    rewrite CE in GD1. specialize (STEP GD1). fold times in STEP.
    destruct (one_step_multi g std names times cols smooths hs (Z.of_nat he) (Z.of_nat n) sts1) as [(sts2, fr2)|].
    2:{ split; [left; exact STEP|discriminate]. }
    destruct STEP as (w & -> & LW & L2 & _ & FR2 & RW2 & COL2). cbn [option_map fst snd].
    destruct (extend_spec fr1 (combine names w) FR1 FR2) as (FE & RE & CE2).
    assert (GR2 : grown names (extend fr1 (combine names w)) (zeros_frame names (Z.to_nat a)) (k + (n - he))).
    { eapply grown_trans; [exact GR|]. apply grown_extend; auto. lia. }
    destruct GR2 as (_ & _ & KY2 & CV2). split.
    + intros j v name HV N. destruct (ONE j v name HV N) as (s1 & x1 & N1 & LX & CC & E1).
      destruct (COL2 j s1 v (smooth_of g f v) N1 HV) as (s2 & x2 & N2 & NX2 & LX2 & E2).
      { unfold smooths. rewrite nth_error_map, HV. reflexivity. }
      exists s2, (repeat (V 0) (Z.to_nat a) ++ x1 ++ x2). split; [|split; [exact N2|]].
      * rewrite loop_with. fold times. rewrite E1. rewrite app_length, repeat_length, LX, LT. fold remain.
        destruct (Z.ltb_spec 0 remain); [|lia]. rewrite HE, Nat2Z.id.
        rewrite NH. rewrite HS.
        rewrite E2. reflexivity.
      * rewrite key_cells.
        -- rewrite CE2, CC, <- app_assoc. do 3 f_equal. unfold cells. rewrite (lookup_combine names w j name x2 ND N NX2). reflexivity.
        -- apply KY2. right. split; [lia|]. eapply nth_error_In; eauto.
    + intros sts fr E NV. injection E as <- <-. rewrite VALUE0. destruct (Nat.eqb_spec (Z.to_nat a) 0) as [AZ|AZ].
      * rewrite key_cells.
        -- rewrite CV2, ZV by auto. cbn [app]. do 2 f_equal. unfold he. lia.
        -- apply KY2. left. apply zeros_keys. left. split; [exact AZ|reflexivity].
      * apply lookup_none. rewrite KY2, zeros_keys. intros [[(Z & _)|(_ & Z)]|(_ & Z)]; tauto.
  - split.
    + intros j v name HV N. destruct (ONE j v name HV N) as (s1 & x1 & N1 & LX & CC & E1).
      exists s1, (repeat (V 0) (Z.to_nat a) ++ x1). split; [|split; [exact N1|]].
      * rewrite loop_with. fold times. rewrite E1. rewrite app_length, repeat_length, LX, LT. fold remain.
        destruct (Z.ltb_spec 0 remain); [lia|]. cbn [option_map fst snd]. rewrite app_nil_r. reflexivity.
      * rewrite key_cells; [rewrite CC; reflexivity|]. apply KY1. destruct (Nat.eq_dec k 0) as [K0|K0].
        -- left. apply zeros_keys. right. split; [unfold remain in RM; lia|]. eapply nth_error_In; eauto.
        -- right. split; [lia|]. eapply nth_error_In; eauto.
    + intros sts fr E NV. injection E as <- <-. rewrite VALUE0. destruct (Nat.eqb_spec (Z.to_nat a) 0) as [AZ|AZ].
      * rewrite key_cells.
        -- rewrite NVK, ZV by auto. cbn [app]. do 2 f_equal. unfold remain in RM. lia.
        -- apply KY1. left. apply zeros_keys. left. split; [exact AZ|reflexivity].
      * apply lookup_none. rewrite KY1, zeros_keys. intros [[(Z & _)|(_ & Z)]|(_ & Z)]; tauto.
Qed.

(** ** The theorems *)

(** Every column has the scores and the final state that a new model for one series gives for
    that column, whatever the other columns are. *)
Theorem C276_columns : forall g std t0 f n names times cols org regular sts fr,
  evenly t0 f n times -> table n names cols -> (org < n)%nat -> has_std std -> g_adapted g = false ->
  fit_predict_multi g std f names times cols (Z.of_nat org) = Some (sts, fr) ->
  forall j v name, nth_error cols j = Some v -> nth_error names j = Some name ->
    exists s w, fit_predict (with_vec false g) std f regular times v (Z.of_nat org) init = Some (s, w) /\
      nth_error sts j = Some s /\ lookup fr name = Some w.
Proof.
  intros g std t0 f n names times cols org regular sts fr EV TB ORG TS AD H.
  destruct (fleet_call g std t0 f n names times cols org regular EV TB ORG TS AD) as (A & _).
  rewrite H in A. exact A.
Qed.
(** Without a magnitude test the call raises an exception only if it does so for every column. *)
Theorem C276_raises : forall g std t0 f n names times cols org regular,
  evenly t0 f n times -> table n names cols -> (org < n)%nat -> has_std std -> g_adapted g = false ->
  g_magnitude g = None -> understood (det_dirs g) ->
  fit_predict_multi g std f names times cols (Z.of_nat org) = None ->
  forall v, In v cols -> fit_predict (with_vec false g) std f regular times v (Z.of_nat org) init = None.
Proof.
  intros g std t0 f n names times cols org regular EV TB ORG TS AD NM U H v I.
  destruct (fleet_call g std t0 f n names times cols org regular EV TB ORG TS AD) as (A & _).
  rewrite H in A. destruct A as [A|A]; [exfalso; apply A; auto|]. apply In_nth_error in I as (j & J). eapply A; eauto.
Qed.
(** Besides the columns asked for there is one called "value" without any score exactly when
    the history is as long as the historical window (and the series as long as the scan
    window). *)
Theorem C276_value : forall g std t0 f n names times cols org sts fr,
  evenly t0 f n times -> table n names cols -> (org < n)%nat -> has_std std -> g_adapted g = false ->
  fit_predict_multi g std f names times cols (Z.of_nat org) = Some (sts, fr) ->
  ~ In "value"%string names ->
  lookup fr "value"%string =
    if (g_hist g <=? Z.of_nat org * f) && (g_scan g <=? Z.of_nat n * f) then Some (repeat VNaN (n - org)) else None.
Proof.
  intros g std t0 f n names times cols org sts fr EV TB ORG TS AD H NV.
  destruct (fleet_call g std t0 f n names times cols org true EV TB ORG TS AD) as (_ & A). eapply A; eauto.
Qed.

Definition demo_names : list string := ["a"; "b"]%string.
Definition demo_grid (n : nat) : list Z := map (fun i => 1000000000 + Z.of_nat i * 1000000000) (seq 0 n).
Lemma demo_grid_evenly n : evenly 1000000000 1000000000 n (demo_grid n).
Proof. split; [reflexivity|]. repeat split; try lia; exists 1; reflexivity. Qed.
Lemma demo_plain : fit_predict (with_vec false demo_config) flat 1000000000 true (demo_grid 4) [2; 2; 2; 2]%Q 2 init
  = Some (init, [V 0; V 0]).
Proof.
  assert (D : forall A, a_threshold A = (1 / 100)%R -> a_magnitude A = None -> (1 <= a_max_iter A)%nat -> a_all A = false ->
     a_window A = Some (0, 3) -> forall times, length times = 3%nat -> detector A DNone times [2; 2; 2]%Q = Some []).
  { intros A TH NM IT NA W times LT. destruct (C270_returns A DNone times [2; 2; 2]%Q) as (out & O).
    - exact LT.
    - cbn. lia.
    - exact IT.
    - rewrite W. cbn. lia.
    - exact NM.
    - left. left. reflexivity.
    - rewrite O. f_equal. apply (C270_constant A DNone times [2; 2; 2]%Q out 2%Q); auto.
      + cbn. lia.
      + rewrite W. cbn. lia.
      + rewrite TH. split; Lra.lra.
      + intros v [<-|[<-|[<-|[]]]]; reflexivity. }
  assert (FS : forall times, length times = 3%nat -> scan_index demo_config times = Some 0 ->
     fit_scan demo_config flat init times [2; 2; 2]%Q = Some init).
  { intros times L SI. unfold fit_scan. rewrite SI. change (negb (alert_fired init) && (1 <? Z.of_nat (length [2; 2; 2]%Q) - 0)) with true.
    cbv iota. change (det_dirs demo_config) with DNone. rewrite D by (first [reflexivity | exact L | cbn; lia]). reflexivity. }
  unfold fit_predict. change (negb (windows_ok (with_vec false demo_config) 1000000000)) with false. cbv zeta iota.
  match goal with |- (if ?x then _ else _) = _ => change x with false end. cbv iota.
  match goal with |- match ?x with _ => _ end = _ => change x with (Some 0) end. cbv iota.
  match goal with |- (if ?x then _ else _) = _ => change x with false end. cbv iota.
  match goal with |- match (if ?x then _ else _) with _ => _ end = _ => change x with false end. cbv iota.
  rewrite loop_with.
  match goal with |- context [loop_path _ _ _ _ ?sm ?st ?starts _] =>
    change starts with [3000000000; 4000000000]; change st with 1000000000; change sm with [2 / 2; 4 / 2; 4 / 2; 4 / 2]%Q end.
  assert (E1 : one_step demo_config flat (demo_grid 4) [2; 2; 2; 2]%Q [2 / 2; 4 / 2; 4 / 2; 4 / 2]%Q 0 2 3 init = Some (init, [V 0])).
  { unfold one_step. match goal with |- context [fit_scan _ _ _ ?a ?b] =>
      change a with [1000000000; 2000000000; 3000000000]; change b with [2; 2; 2]%Q end.
    rewrite FS by reflexivity. reflexivity. }
  assert (E2 : one_step demo_config flat (demo_grid 4) [2; 2; 2; 2]%Q [2 / 2; 4 / 2; 4 / 2; 4 / 2]%Q 1 3 4 init = Some (init, [V 0])).
  { unfold one_step. match goal with |- context [fit_scan _ _ _ ?a ?b] =>
      change a with [2000000000; 3000000000; 4000000000]; change b with [2; 2; 2]%Q end.
    rewrite FS by reflexivity. reflexivity. }
  cbn [loop_path].
  repeat match goal with |- context [time2idx_right ?a ?b] => let v := eval vm_compute in (time2idx_right a b) in change (time2idx_right a b) with v end.
  repeat match goal with |- context [time2idx_left (demo_grid 4) ?b] => let v := eval vm_compute in (time2idx_left (demo_grid 4) b) in change (time2idx_left (demo_grid 4) b) with v end.
  cbv iota. change (2 + 1 <=? 2) with false. change (3 + 1 <=? 3) with false. cbv iota.
  change (2 + 1) with 3. change (3 + 1) with 4. rewrite E1, E2. vm_compute. reflexivity.
Qed.
(** two constant columns, two points of history: both are scored, and the column "value"
    without scores is returned in addition. *)
Theorem C276_value_refuted : exists g std t0 f n names times cols org sts fr,
  evenly t0 f n times /\ table n names cols /\ (org < n)%nat /\ has_std std /\ g_adapted g = false /\
  fit_predict_multi g std f names times cols (Z.of_nat org) = Some (sts, fr) /\
  lookup fr "a"%string = Some [V 0; V 0] /\ lookup fr "b"%string = Some [V 0; V 0] /\
  ~ In "value"%string names /\ lookup fr "value"%string = Some [VNaN; VNaN].
Proof.
  set (cols := [[2; 2; 2; 2]; [2; 2; 2; 2]]%Q).
  assert (TB : table 4 demo_names cols).
  { split; [|split; [reflexivity|split; [discriminate|]]].
    - constructor; [intros [H|[]]; discriminate|]. constructor; [intros []|constructor].
    - intros v [<-|[<-|[]]]; reflexivity. }
  assert (TS : has_std flat) by (intros [|x l] N; [congruence|discriminate]).
  assert (EV := demo_grid_evenly 4). assert (ORG : (2 < 4)%nat) by lia.
  assert (NV : ~ In "value"%string demo_names) by (intros [H|[H|[]]]; discriminate).
  destruct (fit_predict_multi demo_config flat 1000000000 demo_names (demo_grid 4) cols (Z.of_nat 2)) as [(sts, fr)|] eqn:H.
  - exists demo_config, flat, 1000000000, 1000000000, 4%nat, demo_names, (demo_grid 4), cols, 2%nat, sts, fr.
    split; [exact EV|]. split; [exact TB|]. split; [lia|]. split; [exact TS|]. split; [reflexivity|]. split; [exact H|].
    assert (COL : forall j name, nth_error cols j = Some [2; 2; 2; 2]%Q -> nth_error demo_names j = Some name -> lookup fr name = Some [V 0; V 0]).
    { intros j name J N. destruct (C276_columns demo_config _ _ _ _ _ _ _ _ true _ _ EV TB ORG TS eq_refl H j _ name J N) as (s & w & E & _ & L).
      change (Z.of_nat 2) with 2 in E. rewrite demo_plain in E. injection E as <- <-. exact L. }
    split; [apply (COL 0%nat); reflexivity|]. split; [apply (COL 1%nat); reflexivity|]. split; [exact NV|].
    rewrite (C276_value demo_config _ _ _ _ _ _ _ _ _ _ EV TB ORG TS eq_refl H NV). reflexivity.
  - exfalso. assert (U : understood (det_dirs demo_config)) by (left; left; reflexivity).
    pose proof (C276_raises demo_config _ _ _ _ _ _ _ _ true EV TB ORG TS eq_refl eq_refl U H [2; 2; 2; 2]%Q (or_introl eq_refl)) as E.
    change (Z.of_nat 2) with 2 in E. rewrite demo_plain in E. discriminate.
Qed.
Example C276_case : exists sts fr,
  table 4 demo_names [[2; 2; 2; 2]; [2; 2; 2; 2]]%Q /\
  fit_predict_multi demo_config flat 1000000000 demo_names (demo_grid 4) [[2; 2; 2; 2]; [2; 2; 2; 2]]%Q 2 = Some (sts, fr) /\
  nth_error sts 0 = Some init /\ nth_error sts 1 = Some init.
Proof.
  set (cols := [[2; 2; 2; 2]; [2; 2; 2; 2]]%Q).
  assert (TB : table 4 demo_names cols).
  { split; [|split; [reflexivity|split; [discriminate|]]].
    - constructor; [intros [H|[]]; discriminate|]. constructor; [intros []|constructor].
    - intros v [<-|[<-|[]]]; reflexivity. }
  assert (TS : has_std flat) by (intros [|x l] N; [congruence|discriminate]).
  assert (EV := demo_grid_evenly 4). assert (ORG : (2 < 4)%nat) by lia.
  destruct (fit_predict_multi demo_config flat 1000000000 demo_names (demo_grid 4) cols (Z.of_nat 2)) as [(sts, fr)|] eqn:H.
  - exists sts, fr. split; [exact TB|]. split; [exact H|].
    assert (COL : forall j name, nth_error cols j = Some [2; 2; 2; 2]%Q -> nth_error demo_names j = Some name -> nth_error sts j = Some init).
    { intros j name J N. destruct (C276_columns demo_config _ _ _ _ _ _ _ _ true _ _ EV TB ORG TS eq_refl H j _ name J N) as (s & w & E & L & _).
      change (Z.of_nat 2) with 2 in E. rewrite demo_plain in E. injection E as <- <-. exact L. }
    split; [exact (COL 0%nat _ eq_refl eq_refl)|exact (COL 1%nat _ eq_refl eq_refl)].
  - exfalso. assert (U : understood (det_dirs demo_config)) by (left; left; reflexivity).
    pose proof (C276_raises demo_config _ _ _ _ _ _ _ _ true EV TB ORG TS eq_refl eq_refl U H [2; 2; 2; 2]%Q (or_introl eq_refl)) as E.
    change (Z.of_nat 2) with 2 in E. rewrite demo_plain in E. discriminate.
Qed.
(** With [adapted_pre_mean] the two models keep different levels when no row is older than the
    scan window: the model for one series has no level any more, the one for several keeps the
    level it had. *)
Theorem C276_adapted_refuted : exists g std s times v s1 s2,
  g_adapted g = true /\ ready s (nth 0 times 0) /\ length v = length times /\
  fit_multi g std [s] times [v] = Some [s1] /\ fit_scan g std s times v = Some s2 /\
  pre_mean s1 = Some 1%Q /\ pre_mean s2 = None /\ alert_fired s1 = true /\ alert_fired s2 = true.
Proof.
  exists (MkConfig (1 / 100) 1 None (13 # 10) None 9000000000 2000000000 (Some 1000000000) true false Change),
    flat, (alert_at 0), [1000000000; 2000000000; 3000000000], [5; 5; 7]%Q.
  eexists _, _. split; [reflexivity|].
  split; [split; [cbn; lia|]; split; [reflexivity|]; intros _; split; [discriminate|]; split; [discriminate|]; cbn; lia|].
  split; [reflexivity|]. split; [vm_compute; reflexivity|]. split; [vm_compute; reflexivity|]. vm_compute. auto.
Qed.

Print Assumptions C276_columns.
Print Assumptions C276_raises.
Print Assumptions C276_value.
Print Assumptions C276_value_refuted.
Print Assumptions C276_adapted_refuted.
