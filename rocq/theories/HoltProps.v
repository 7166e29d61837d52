(** C291: what the Holt-Winters forecaster returns, with and without empirical intervals, for every smoothing model. *)
From Coq Require Import String.
From Coq Require Import Reals QArith Lra.
From Coq Require Import List ZArith Bool Lia.
From Verif Require Import Common PySlice OutlierModel OutlierProps HeuristicModel HeuristicSpec HeuristicProps BacktestModel BacktestSpec BacktestProofs EmpIntervalModel HoltModel.
Import ListNotations.
Open Scope R_scope.

(** ** Specification *)
Definition last_time (times : list Z) (last : Z) : Prop := In last times /\ forall t, In t times -> (t <= last)%Z.
(** the first [n] times after [t] on the grid of [f] *)
Definition times_after (f : freq) (t : Z) (n : nat) : list Z := map (fun i => after (next f) (S i) t) (seq 0 n).
(** every time of the series is on the grid of [f] *)
Definition on_grid (f : freq) (times : list Z) : Prop := (forall t, (t < next f t)%Z) /\ forall t, In t times -> roll f t = t.
(** a smoothing model that can be fitted to every part of the series and forecasts as many steps as asked *)
Definition answers (forecast : params -> list R -> nat -> option (list R)) (p : params) : Prop :=
  forall values steps, exists fc, forecast p values steps = Some fc /\ length fc = steps.
(** the daily frequency: every time is on the grid that starts at it *)
Definition daily (day : freq) : Prop := (forall t, (t < next day t)%Z) /\ forall t, roll day t = t.

(** ** Lemmas *)
Lemma zmax_last times last : last_time times last -> zmax times = last.
Proof. intros [I B]. assert (N : times <> []) by (destruct times; [destruct I|discriminate]). destruct (zmax_spec times N) as [J C]. specialize (B _ J). specialize (C _ I). lia. Qed.
Lemma times_after_length f t n : length (times_after f t n) = n.
Proof. unfold times_after. rewrite map_length, seq_length. reflexivity. Qed.
Lemma dates_on f times last n : last_time times last -> (forall t, (t < next f t)%Z) -> roll f last = last -> dates (Some f) times n = Some (times_after f last n).
Proof. intros L NL RL. unfold dates. rewrite (zmax_last _ _ L), (future_on (roll f) (next f) NL); [reflexivity|exact RL]. Qed.
Lemma map_fst_combine {A B} (a : list A) (b : list B) : length a = length b -> map fst (combine a b) = a.
Proof. revert b. induction a as [|x a IH]; intros [|y b] L; cbn in *; try reflexivity; try discriminate. f_equal. apply IH. lia. Qed.
Lemma map_snd_combine {A B} (a : list A) (b : list B) : length a = length b -> map snd (combine a b) = b.
Proof. revert b. induction a as [|x a IH]; intros [|y b] L; cbn in *; try reflexivity; try discriminate. f_equal. apply IH. lia. Qed.
Lemma plain_rows forecast p values n ds rows : plain forecast p values n ds = Some rows ->
  exists fc, forecast p values n = Some fc /\ map r_time rows = ds /\ map r_fcst rows = fc /\ Forall (fun r => r_bounds r = None) rows.
Proof.
  unfold plain. destruct (forecast p values n) as [fc|]; [|discriminate]. destruct (Nat.eqb_spec (length ds) (length fc)) as [E|E]; [|discriminate]. intros H. apply (f_equal (fun o => match o with Some x => x | None => [] end)) in H. subst rows. exists fc.
  split; [reflexivity|]. rewrite !map_map. cbn [r_time r_fcst]. split; [apply (map_fst_combine ds fc E)|]. split; [apply (map_snd_combine ds fc E)|]. apply Forall_forall. intros r Hr. apply in_map_iff in Hr as (q & <- & _). reflexivity.
Qed.
Lemma plain_some forecast p values n ds fc : forecast p values n = Some fc -> length ds = length fc -> exists rows, plain forecast p values n ds = Some rows /\ length rows = length fc.
Proof. intros F E. unfold plain. rewrite F, (proj2 (Nat.eqb_eq _ _) E). eexists. split; [reflexivity|]. rewrite map_length, combine_length. lia. Qed.
Lemma eci_rows f day ppf forecast p times values level a b sl n rows last :
  daily day -> last_time times last -> eci f day ppf forecast p times values level a b sl n = Some rows ->
  exists fc c d, forecast p values n = Some fc /\ map r_time rows = times_after day last n /\ map r_fcst rows = fc /\
    forall h, (h < length fc)%nat -> r_bounds (nth h rows (Row 0 0 None)) =
      Some (nth h fc 0 - ppf level * (INR (S h) * c + d), nth h fc 0 + ppf level * (INR (S h) * c + d)).
Proof.
  intros [NL RO] L. unfold eci. destruct (run_cv _ _ _ _ _ _ _ _) as [errors|]; [|discriminate]. rewrite (dates_on day times last n L NL (RO last)).
  destruct (plain _ _ _ _ _) as [pr|] eqn:P; [|discriminate]. apply plain_rows in P as (fc & F & T & V & _). unfold get_eci. destruct (emp_se errors) as [y|]; [|discriminate]. destruct (emp_lr y) as [[c d]|]; [|discriminate].
  intros H. apply (f_equal (fun o => match o with Some x => x | None => [] end)) in H. subst rows. exists fc, c, d.
  assert (LF : length fc = length pr) by (rewrite <- V; apply map_length).
  set (er := map _ (combine (map INR (seq 1 (length (map r_fcst pr)))) (map r_fcst pr))). 
  assert (LE : length er = length pr) by (unfold er; rewrite map_length, combine_length, map_length, seq_length, map_length; lia).
  assert (NE : forall h, (h < length fc)%nat -> nth h er (ERow 0 0 0) = ERow (nth h fc 0) (nth h fc 0 - ppf level * (INR (S h) * c + d)) (nth h fc 0 + ppf level * (INR (S h) * c + d))).
  { intros h Hh. unfold er. rewrite V. rewrite (nth_indep _ _ ((fun q : R * R => ERow (snd q) (snd q - ppf level * (fst q * c + d)) (snd q + ppf level * (fst q * c + d))) (INR 0, 0))) by (rewrite map_length, combine_length, map_length, seq_length; lia).
    rewrite (map_nth (fun q : R * R => ERow (snd q) (snd q - ppf level * (fst q * c + d)) (snd q + ppf level * (fst q * c + d)))), combine_nth by (rewrite map_length, seq_length; reflexivity).
    cbn [fst snd]. rewrite map_nth, seq_nth by exact Hh. reflexivity. }
  clearbody er. split; [exact F|]. rewrite !map_map. cbn [r_time r_fcst].
  split. { rewrite <- (map_map fst r_time), map_fst_combine by congruence. exact T. }
  split. { rewrite <- (map_map snd EmpIntervalModel.fcst), map_snd_combine by congruence. apply nth_ext with (d := 0) (d' := 0); [rewrite map_length; congruence|]. intros h Hh. rewrite map_length in Hh.
    change 0 with (EmpIntervalModel.fcst (ERow 0 0 0)) at 1. rewrite map_nth, NE by congruence. reflexivity. }
  intros h Hh. set (g := fun q : row * emp_row => Row (r_time (fst q)) (EmpIntervalModel.fcst (snd q)) (Some (lower (snd q), upper (snd q)))).
  rewrite (nth_indep _ _ (g (Row 0 0 None, ERow 0 0 0))) by (rewrite map_length, combine_length; lia). rewrite map_nth, combine_nth by congruence. unfold g. cbn [fst snd r_bounds]. rewrite NE by exact Hh. reflexivity.
Qed.
(** ** Forecasts without intervals *)
(** one row per step at the times of the frequency that follow the data, whether it is given or inferred *)
Theorem C291_plain : forall infer day ppf forecast insample p times values n k f last fc,
  k_freq k = Some f \/ (k_freq k = None /\ infer times = Some f) -> k_alpha k = None ->
  last_time times last -> (forall t, (t < next f t)%Z) -> roll f last = last ->
  forecast p values n = Some fc -> length fc = n ->
  exists rows, predict infer day ppf forecast insample true p times values n false k = Some rows /\
    map r_time rows = times_after f last n /\ map r_fcst rows = fc /\ Forall (fun r => r_bounds r = None) rows.
Proof.
  intros infer day ppf forecast insample p times values n k f last fc FR AL L NL RL F LF. unfold predict. cbn [negb].
  replace (dates (match k_freq k with Some f => Some f | None => infer times end) times n) with (dates (Some f) times n) by (destruct FR as [-> | [-> ->]]; reflexivity).
  rewrite (dates_on f times last n L NL RL), AL. destruct (plain_some forecast p values n (times_after f last n) fc F) as (rows & E & _); [rewrite times_after_length; congruence|].
  rewrite E. exists rows. split; [reflexivity|]. apply plain_rows in E as (fc' & F' & T & V & B). split; [exact T|]. split; [congruence|exact B].
Qed.
(** a series that ends between two times of a given frequency gets no forecast *)
Theorem C291_off_grid_refuted : forall infer day ppf forecast insample p times values n h k f last,
  k_freq k = Some f -> k_alpha k = None -> last_time times last -> (forall t, (t < next f t)%Z) -> (last < roll f last)%Z ->
  answers forecast p -> predict infer day ppf forecast insample true p times values n h k = None.
Proof.
  intros infer day ppf forecast insample p times values n h k f last FR AL L NL RL AN. unfold predict. cbn [negb]. rewrite FR, AL. unfold dates. rewrite (zmax_last _ _ L). unfold plain.
  destruct (AN values n) as (fc & -> & E). destruct (Nat.eqb_spec (length (future (roll f) (next f) last n)) (length fc)) as [H|H]; [|reflexivity]. rewrite (future_off (roll f) (next f) NL last n RL) in H. lia.
Qed.
(** ** Forecasts with intervals *)
(** the forecasts of the fitted model, each with bounds at the same distance on both sides; the distance is linear in the horizon
    and scaled by the normal quantile at 1 - alpha *)
Theorem C291_interval : forall infer day ppf forecast insample p times values n k alpha last rows,
  daily day -> k_alpha k = Some alpha -> last_time times last ->
  predict infer day ppf forecast insample true p times values n false k = Some rows ->
  exists fc c d, forecast p values n = Some fc /\ map r_fcst rows = fc /\
    forall h, (h < length fc)%nat -> r_bounds (nth h rows (Row 0 0 None)) =
      Some (nth h fc 0 - ppf (1 - alpha) * (INR (S h) * c + d), nth h fc 0 + ppf (1 - alpha) * (INR (S h) * c + d)).
Proof.
  intros infer day ppf forecast insample p times values n k alpha last rows D AL L. unfold predict. cbn [negb]. destruct (dates _ _ _); [|discriminate]. rewrite AL.
  destruct (eci _ _ _ _ _ _ _ _ _ _ _ _) as [rs|] eqn:E; [|discriminate]. intros H. assert (rs = rows) as <- by congruence. destruct (eci_rows _ _ _ _ _ _ _ _ _ _ _ _ _ _ D L E) as (fc & c & d & F & _ & V & B). exists fc, c, d. auto.
Qed.
(** asking for intervals does not change the forecasts *)
Theorem C291_same_forecasts : forall infer day ppf forecast insample p times values n f tr te sl alpha last rows rows',
  daily day -> last_time times last ->
  predict infer day ppf forecast insample true p times values n false (Kwargs f (Some alpha) tr te sl) = Some rows ->
  predict infer day ppf forecast insample true p times values n false (Kwargs f None tr te sl) = Some rows' ->
  map r_fcst rows = map r_fcst rows'.
Proof.
  intros infer day ppf forecast insample p times values n f tr te sl alpha last rows rows' D L H H'. destruct (C291_interval _ _ _ _ _ _ _ _ _ (Kwargs f (Some alpha) tr te sl) alpha _ _ D eq_refl L H) as (fc & c & d & F & V & _).
  unfold predict in H'. cbn [negb k_alpha k_freq] in H'. destruct (dates _ _ _); [|discriminate]. destruct (plain _ _ _ _ _) as [rs|] eqn:E; [|discriminate]. assert (rs = rows') as <- by congruence. apply plain_rows in E as (fc' & F' & _ & V' & _). congruence.
Qed.
(** but it changes their times: with intervals they are daily, whatever frequency the data have or the caller gives *)
Theorem C291_interval_times : forall infer day ppf forecast insample p times values n k alpha last rows,
  daily day -> k_alpha k = Some alpha -> last_time times last ->
  predict infer day ppf forecast insample true p times values n false k = Some rows ->
  map r_time rows = times_after day last n.
Proof.
  intros infer day ppf forecast insample p times values n k alpha last rows D AL L. unfold predict. cbn [negb]. destruct (dates _ _ _); [|discriminate]. rewrite AL.
  destruct (eci _ _ _ _ _ _ _ _ _ _ _ _) as [rs|] eqn:E; [|discriminate]. intros H. assert (rs = rows) as <- by congruence. destruct (eci_rows _ _ _ _ _ _ _ _ _ _ _ _ _ _ D L E) as (fc & c & d & F & T & _). exact T.
Qed.
Theorem C291_interval_times_refuted : forall infer day ppf forecast insample p times values n k f alpha last rows,
  daily day -> k_alpha k = Some alpha -> last_time times last ->
  k_freq k = Some f \/ (k_freq k = None /\ infer times = Some f) -> next f last <> next day last ->
  predict infer day ppf forecast insample true p times values (S n) false k = Some rows ->
  map r_time rows <> times_after f last (S n).
Proof.
  intros infer day ppf forecast insample p times values n k f alpha last rows D AL L _ NE H. rewrite (C291_interval_times _ _ _ _ _ _ _ _ _ _ _ _ _ D AL L H). unfold times_after. cbn [seq map after]. congruence.
Qed.
(** a series whose frequency cannot be inferred gets no intervals, even when the caller gives the frequency *)
Theorem C291_given_frequency_refuted : forall infer day ppf forecast insample p times values n h f alpha tr te sl,
  infer times = None -> (sl = None -> 5 <= length values)%nat -> (forall s, sl = Some s -> (1 <= s)%Z) ->
  predict infer day ppf forecast insample true p times values n h (Kwargs f (Some alpha) tr te sl) = None.
Proof.
  intros infer day ppf forecast insample p times values n h f alpha tr te sl IN S1 S2. unfold predict. cbn [negb k_alpha k_freq k_train k_test k_sliding]. destruct (dates _ _ _); [|reflexivity].
  unfold eci. replace (run_cv _ _ _ _ _ _ _ _) with (@None (list (list R))); [reflexivity|]. symmetry. unfold run_cv. destruct (rolling_ctor _ _ _); [|reflexivity].
  destruct (rolling_splits _ _ _ _ _) as [[trs tes]|] eqn:E; [|reflexivity]. apply rolling_folds in E as (train & test & _ & _ & LT & LE & _).
  assert (P : (1 <= default sl (Z.of_nat (length values) / 5))%Z). { destruct sl as [s|]; cbn [default]; [apply S2; reflexivity|]. specialize (S1 eq_refl). apply Z.div_le_lower_bound; lia. }
  destruct trs as [|tr0 trs]; [cbn [length] in LT; lia|]. destruct tes as [|te0 tes]; [cbn [length] in LE; lia|]. cbn [combine folds]. unfold fold. rewrite IN. reflexivity.
Qed.
(** fewer than ten points are too few for intervals with the default settings *)
Theorem C291_short_refuted : forall infer day ppf forecast insample p times values n h f alpha sl tr,
  (length values < 10)%nat ->
  predict infer day ppf forecast insample true p times values n h (Kwargs f (Some alpha) tr None sl) = None.
Proof.
  intros infer day ppf forecast insample p times values n h f alpha sl tr LV. unfold predict. cbn [negb k_alpha k_freq k_train k_test k_sliding default]. destruct (dates _ _ _); [|reflexivity].
  unfold eci. replace (run_cv _ _ _ _ _ _ _ _) with (@None (list (list R))); [reflexivity|]. symmetry. unfold run_cv. destruct (rolling_ctor _ _ _); [|reflexivity].
  destruct (rolling_splits _ _ _ _ _) as [[trs tes]|] eqn:E; [|reflexivity]. exfalso. unfold rolling_splits in E.
  assert (T : (absolute_size (Z.of_nat (length values)) 10 <= 0)%Z).
  { destruct (absolute_size_spec (Z.of_nat (length values)) 10) as [B _]. assert (C : (inject_Z (absolute_size (Z.of_nat (length values)) 10) < inject_Z 1)%Q).
    { assert ((inject_Z (Z.of_nat (length values)) < inject_Z 10)%Q) by (rewrite <- Zlt_Qlt; lia). change (inject_Z 10) with 10%Q in H. change (inject_Z 1) with 1%Q. Lqa.lra. }
    rewrite <- Zlt_Qlt in C. lia. }
  destruct ((_ <=? 0)%Z || _)%bool in E; [discriminate|]. rewrite (proj2 (Z.leb_le _ _) T) in E. discriminate.
Qed.
Lemma folds_answer infer forecast p times values f l test :
  infer times = Some f -> on_grid f times -> answers forecast p -> length times = length values ->
  (forall q, In q l -> causal_fold (Z.of_nat (length values)) 0 test (fst q) (snd q)) ->
  exists es, folds (infer times) forecast p times values l = Some es /\ length es = length l /\ Forall (fun e => Z.of_nat (length e) = test) es.
Proof.
  intros IN [NL OG] AN LV. induction l as [|[tr te] l IH]; intros C; [exists []; repeat split; constructor|]. destruct IH as (es & E & LE & FE); [intros q Hq; apply C; right; exact Hq|].
  specialize (C (tr, te) (or_introl eq_refl)). cbn [fst snd] in C. destruct C as (C1 & C2 & C3 & C4 & C5 & C6).
  cbn [folds]. rewrite E.
  assert (FO : exists e, fold (infer times) forecast p times values tr te = Some e /\ Z.of_nat (length e) = test).
  { unfold fold. rewrite IN. set (tt := py_slice times _ _). set (test_v := py_slice values (Some (fst te)) _). set (tv := py_slice values _ _).
    assert (LT : Z.of_nat (length tt) = (snd tr - fst tr)%Z) by (apply py_slice_length; lia).
    assert (LX : Z.of_nat (length test_v) = test) by (unfold test_v; rewrite py_slice_length; lia).
    assert (NT : tt <> []) by (destruct tt; [cbn [length] in LT; lia|discriminate]).
    assert (IT : forall t, In t tt -> In t times). { intros t Ht. unfold tt in Ht. rewrite py_slice_in in Ht by lia. rewrite <- (firstn_skipn (Z.to_nat (fst tr)) times). apply in_or_app. right. rewrite <- (firstn_skipn (Z.to_nat (snd tr - fst tr)) (skipn _ times)). apply in_or_app. left. exact Ht. }
    destruct (zmax_spec tt NT) as [ZI ZB]. rewrite (dates_on f tt (zmax tt) (length test_v) (conj ZI ZB) NL (OG _ (IT _ ZI))).
    destruct (AN tv (length test_v)) as (fc & F & LF). destruct (plain_some forecast p tv (length test_v) (times_after f (zmax tt) (length test_v)) fc F) as (rows & P & LR); [rewrite times_after_length; congruence|]. rewrite P, (proj2 (Nat.eqb_eq _ _) (eq_trans LR LF)).
    eexists. split; [reflexivity|]. rewrite map_length, combine_length, map_length. lia. }
  destruct FO as (e & -> & Le). exists (e :: es). split; [reflexivity|]. split; [cbn [length]; lia|]. constructor; assumption.
Qed.
Lemma eci_defined ppf level es test pr : (2 <= length es)%nat -> (0 < test)%Z -> Forall (fun e => Z.of_nat (length e) = test) es -> exists rows, get_eci ppf level es pr = Some rows.
Proof.
  intros L T F. unfold get_eci. destruct es as [|e [|e' es]]; [cbn in L; lia|cbn in L; lia|]. cbn [emp_se]. apply Forall_inv in F.
  destruct (emp_lr _) as [[a b]|] eqn:E; [eexists; reflexivity|]. exfalso. unfold emp_lr in E. destruct e as [|x e]; [cbn in F; lia|]. cbn [length seq map] in E. destruct (map _ (seq 1 (length e))); discriminate.
Qed.
(** ten points on the grid of their frequency are enough *)
Theorem C291_enough : forall infer day ppf forecast insample p times values n f alpha last,
  daily day -> infer times = Some f -> on_grid f times -> answers forecast p -> last_time times last ->
  length times = length values -> (10 <= length values)%nat ->
  exists rows, predict infer day ppf forecast insample true p times values n false (Kwargs None (Some alpha) None None None) = Some rows /\ length rows = n.
Proof.
  intros infer day ppf forecast insample p times values n f alpha last D IN OG AN L LV LT.
  assert (Q : exists rows, predict infer day ppf forecast insample true p times values n false (Kwargs None (Some alpha) None None None) = Some rows).
  2:{ destruct Q as (rows & E). exists rows. split; [exact E|]. pose proof (C291_interval_times _ _ _ _ _ _ _ _ _ (Kwargs None (Some alpha) None None None) alpha _ _ D eq_refl L E) as T. rewrite <- (map_length r_time), T. apply times_after_length. }
  unfold predict. cbn [negb k_alpha k_freq k_train k_test k_sliding default]. rewrite IN, (dates_on f times last n L (proj1 OG) (proj2 OG last (proj1 L))). unfold eci.
  set (sl := (Z.of_nat (length values) / 5)%Z). assert (SL : (2 <= sl)%Z) by (apply Z.div_le_lower_bound; lia).
  assert (SZ : (10 <= inject_Z (Z.of_nat (length values)))%Q) by (change 10%Q with (inject_Z 10); rewrite <- Zle_Qle; lia).
  assert (CT : rolling_ctor 70 10 sl = true). { unfold rolling_ctor. replace (0 <=? sl)%Z with true by (symmetry; apply Z.leb_le; lia). reflexivity. }
  unfold run_cv. rewrite CT. destruct (rolling_succeeds (Z.of_nat (length values)) 70 10 sl true) as ([trs tes] & E); [lia|exact CT|lia|Lqa.lra|Lqa.lra|]. rewrite E.
  apply rolling_folds in E as (train & test & _ & _ & L1 & L2 & C).
  assert (T0 : (0 < test)%Z). { destruct (C 0%nat ltac:(lia)) as [(_ & _ & _ & _ & P & _) _]. exact P. }
  destruct (folds_answer infer forecast p times values f (combine trs tes) test IN OG AN LV) as (es & E & LE & FE).
  { intros q Hq. destruct (In_nth _ _ ((0, 0), (0, 0))%Z Hq) as (i & Hi & <-). rewrite combine_length in Hi. rewrite combine_nth by congruence. cbn [fst snd]. apply C. lia. }
  rewrite <- IN, E. rewrite (dates_on day times last n L (proj1 D) (proj2 D last)). destruct (AN values n) as (fc & F & LF). destruct (plain_some forecast p values n (times_after day last n) fc F) as (rows & P & LR); [rewrite times_after_length; congruence|]. rewrite P.
  destruct (eci_defined ppf (1 - alpha) es test (map r_fcst rows)) as (er & ER); [rewrite LE, combine_length; lia|exact T0|exact FE|]. rewrite ER. eexists. reflexivity.
Qed.
(** ** History, fitting, parameters *)
(** asking for the history puts the in-sample forecasts, without bounds, before the same rows *)
Theorem C291_history : forall infer day ppf forecast insample p times values n k rows,
  length (insample p values) = length times ->
  predict infer day ppf forecast insample true p times values n true k = Some rows <->
  exists past rest, rows = past ++ rest /\ predict infer day ppf forecast insample true p times values n false k = Some rest /\
    map r_time past = times /\ map r_fcst past = insample p values /\ Forall (fun r => r_bounds r = None) past.
Proof.
  intros infer day ppf forecast insample p times values n k rows LI. unfold predict. cbn [negb]. destruct (dates _ _ _); [|split; [discriminate|intros (a & b & _ & X & _); discriminate]].
  set (o := match k_alpha k with Some _ => _ | None => _ end). destruct o as [fc|]; [|split; [discriminate|intros (a & b & _ & X & _); discriminate]]. split.
  - intros H. exists (map (fun d => Row (fst d) (snd d) None) (combine times (insample p values))), fc. split; [congruence|]. split; [reflexivity|]. rewrite !map_map. cbn [r_time r_fcst].
    split; [apply (map_fst_combine times (insample p values)); congruence|]. split; [apply (map_snd_combine times (insample p values)); congruence|]. apply Forall_forall. intros r Hr. apply in_map_iff in Hr as (q & <- & _). reflexivity.
  - intros (past & rest & -> & X & T & V & B). assert (rest = fc) as -> by congruence. apply (f_equal Some), (f_equal (fun q => q ++ fc)). clear X LI. rewrite <- T, <- V. clear T V. induction past as [|[t v b] past IH]; [reflexivity|]. apply Forall_cons_iff in B as [B0 B]. cbn in B0 |- *. subst b. f_equal. apply IH. exact B.
Qed.
Theorem C291_unfitted : forall infer day ppf forecast insample p times values n h k,
  predict infer day ppf forecast insample false p times values n h k = None.
Proof. reflexivity. Qed.
(** the parameters are accepted exactly when trend and seasonality are absent or one of the four names, and are kept as given *)
Theorem C291_parameters : forall t d s sp p,
  make_params t d s sp = Some p <->
  ((forall x, t = Some x \/ s = Some x -> In x ["add"; "mul"; "additive"; "multiplicative"]%string) /\ p = Params t d s sp).
Proof.
  assert (K : forall o, known o = true <-> forall x, o = Some x -> In x ["add"; "mul"; "additive"; "multiplicative"]%string).
  { intros [x|]; cbn [known]; [|split; [intros _ x E; discriminate|reflexivity]]. rewrite existsb_exists. split; [intros (y & I & E) z Z; apply String.eqb_eq in E; congruence|]. intros H. exists x. split; [apply H; reflexivity|apply String.eqb_refl]. }
  intros t d s sp p. unfold make_params. destruct (known t) eqn:T; [destruct (known s) eqn:S'|]; cbn [negb].
  - split; [|intros [_ ->]; reflexivity]. intros H. split; [intros x [E|E]; [apply (proj1 (K t) T), E|apply (proj1 (K s) S'), E]|congruence].
  - split; [discriminate|]. intros [H _]. rewrite (proj2 (K s)) in S' by (intros x E; apply H; right; exact E). discriminate.
  - split; [discriminate|]. intros [H _]. rewrite (proj2 (K t)) in T by (intros x E; apply H; left; exact E). discriminate.
Qed.

(** twelve hourly points (times in hours): the forecasts are one hour apart without intervals, one day apart with them *)
Definition hour : freq := Freq (fun t => t) (fun t => t + 1)%Z.
Definition day24 : freq := Freq (fun t => t) (fun t => t + 24)%Z.
Definition hours12 : list Z := [0; 1; 2; 3; 4; 5; 6; 7; 8; 9; 10; 11]%Z.
Definition naive (p : params) (v : list R) (n : nat) : option (list R) := Some (repeat (List.last v 0) n).
Lemma hours12_last : last_time hours12 11.
Proof. split; [unfold hours12; cbn [In]; lia|]. intros t Ht. unfold hours12 in Ht. cbn [In] in Ht. lia. Qed.
Example C291_case : forall ppf insample p,
  exists rows rows', 
    predict (fun _ => Some hour) day24 ppf naive insample true p hours12 (map INR (seq 0 12)) 2 false (Kwargs None None None None None) = Some rows /\
    predict (fun _ => Some hour) day24 ppf naive insample true p hours12 (map INR (seq 0 12)) 2 false (Kwargs None (Some (1/10)) None None None) = Some rows' /\
    map r_time rows = [12; 13]%Z /\ map r_time rows' = [35; 59]%Z /\ map r_fcst rows = map r_fcst rows'.
Proof.
  intros ppf insample p.
  assert (HN : forall t, (t < next hour t)%Z) by (intros t; cbn; lia). assert (DD : daily day24) by (split; intros t; cbn; lia).
  assert (AN : answers naive p) by (intros v n; eexists; split; [reflexivity|apply repeat_length]).
  destruct (C291_plain (fun _ => Some hour) day24 ppf naive insample p hours12 (map INR (seq 0 12)) 2 (Kwargs None None None None None) hour 11 _ (or_intror (conj eq_refl eq_refl)) eq_refl hours12_last HN eq_refl eq_refl (repeat_length _ _)) as (rows & E & T & V & _).
  destruct (C291_enough (fun _ => Some hour) day24 ppf naive insample p hours12 (map INR (seq 0 12)) 2 hour (1/10) 11 DD eq_refl (conj HN (fun _ _ => eq_refl)) AN hours12_last eq_refl) as (rows' & E' & _); [cbn; lia|].
  exists rows, rows'. split; [exact E|]. split; [exact E'|]. split; [exact T|]. split; [exact (C291_interval_times _ _ _ _ _ _ _ _ _ (Kwargs None (Some (1/10)) None None None) (1/10) _ _ DD eq_refl hours12_last E')|].
  symmetry. exact (C291_same_forecasts _ _ _ _ _ _ _ _ _ _ _ _ _ _ _ _ _ DD hours12_last E' E).
Qed.

Print Assumptions C291_plain.
Print Assumptions C291_off_grid_refuted.
Print Assumptions C291_interval.
Print Assumptions C291_same_forecasts.
Print Assumptions C291_interval_times.
Print Assumptions C291_interval_times_refuted.
Print Assumptions C291_given_frequency_refuted.
Print Assumptions C291_short_refuted.
Print Assumptions C291_enough.
Print Assumptions C291_history.
Print Assumptions C291_unfitted.
Print Assumptions C291_parameters.
