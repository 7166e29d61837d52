(** Theorems about saving and loading detector models (C18). *)
From Coq Require Import List String QArith Bool Lia Arith.
From Verif Require Import SerialModel SerialSpec.
Import ListNotations.
Open Scope string_scope.
Open Scope list_scope.

Lemma plain_trip : forall v, plain v -> exists j, dumps v = Some j /\ loads j = v.
Proof.
  induction 1 as [|b|q|s|l H IH].
  - now exists JNull.
  - now exists (JBool b).
  - now exists (JNum q).
  - now exists (JStr s).
  - assert (E : exists js, (fix all (l : list pyval) : option (list json) :=
        match l with [] => Some [] | x :: l => match dumps x, all l with Some j, Some js => Some (j :: js) | _, _ => None end end) l = Some js
        /\ map loads js = l).
    { clear H. induction l as [|x l IHl].
      - now exists [].
      - destruct (IH x (or_introl eq_refl)) as (j & D & L).
        destruct IHl as (js & D' & L'). { intros v Hv. apply IH. now right. }
        exists (j :: js). rewrite D, D'. split; [reflexivity|]. cbn. now rewrite L, L'. }
    destruct E as (js & D & L). exists (JArr js). cbn. rewrite D. split; [reflexivity|]. now rewrite L.
Qed.
Lemma dict_trip : forall d, (forall k v, In (k, v) d -> plain v) -> exists o, dumps_dict d = Some o /\ loads_dict o = d.
Proof.
  induction d as [|[k v] d IH]; intros H.
  - now exists [].
  - destruct (plain_trip v (H k v (or_introl eq_refl))) as (j & D & L).
    destruct IH as (o & D' & L'). { intros k' v' Hv. apply (H k' v'). now right. }
    exists ((k, j) :: o). split; [cbn; now rewrite D, D'|]. change (loads_dict ((k, j) :: o)) with ((k, loads j) :: loads_dict o). now rewrite L, L'.
Qed.
Ltac pl := intros ?k ?v ?Hin; cbn in Hin; repeat (destruct Hin as [Hin|Hin]; [injection Hin as <- <-; try assumption; try constructor|]); try contradiction.
Lemma dumps_dict_none : forall d k v, In (k, v) d -> dumps v = None -> dumps_dict d = None.
Proof.
  induction d as [|[k0 v0] d IH]; intros k v H D; [destruct H|]. cbn.
  destruct H as [H|H]; [injection H as -> ->; now rewrite D|].
  rewrite (IH _ _ H D). now destruct (dumps v0).
Qed.

(** StatSigDetectorModel: everything except anomaly_scores_only comes back, whatever arguments are passed with the
    serialised model; anomaly_scores_only is the one passed. *)
Theorem C18_statsig_partial : forall timedelta_ok unit_ok a m a',
  statsig_init timedelta_ok unit_ok None a = Some m ->
  plain (n_control a) -> plain (n_test a) -> plain (rem_season a) -> plain (seasonal_period a) ->
  plain (use_corrected a) -> plain (max_split a) -> plain (min_perc a) ->
  reloads statsig_serialize (fun o => statsig_init timedelta_ok unit_ok (Some o) a') m
    (StatSig (n_control m) (n_test m) (time_unit m) (rem_season m) (seasonal_period m) (use_corrected m) (max_split m)
       (scores_only a') (min_perc m)).
Proof.
  intros td uo a m a' I P1 P2 P3 P4 P5 P6 P7.
  unfold statsig_init in I. cbn [n_control n_test time_unit rem_season seasonal_period use_corrected max_split min_perc] in I.
  destruct (is_none (n_control a) || is_none (n_test a)) eqn:N; [discriminate|].
  destruct (check_unit td uo (time_unit a)) as [tu|] eqn:U; [|discriminate].
  injection I as <-.
  assert (T : plain tu /\ check_unit td uo tu = Some tu).
  { unfold check_unit in U. destruct (time_unit a) as [| | |s| | | | |]; try discriminate.
    - injection U as <-. split; [constructor|reflexivity].
    - destruct (td s) eqn:E1.
      + injection U as <-. split; [constructor|]. cbn. now rewrite E1.
      + destruct (uo s && td ("1" ++ s)%string) eqn:E2; [|discriminate]. assert (X : tu = VStr ("1" ++ s)%string) by congruence. subst tu. clear U. apply andb_prop in E2 as [_ E2].
        split; [constructor|]. unfold check_unit; cbv beta iota; now rewrite E2. }
  destruct T as [T C]. unfold reloads, statsig_serialize. cbn [n_control n_test time_unit rem_season seasonal_period use_corrected max_split min_perc].
  match goal with |- context [dumps_dict ?d] => destruct (dict_trip d) as (o & D & L); [pl|] end.
  exists o. split; [exact D|]. unfold statsig_init. rewrite L. cbn. now rewrite N, C.
Qed.
(** so a detector that computes scores only comes back, from the documented StatSigDetectorModel(serialized_model=...), as
    one that does not. *)
Theorem C18_statsig_refuted : forall timedelta_ok unit_ok a m,
  statsig_init timedelta_ok unit_ok None a = Some m -> scores_only a = VBool true ->
  lost statsig_serialize (fun o => statsig_init timedelta_ok unit_ok (Some o) statsig_defaults) m.
Proof.
  intros td uo a m I S o _ E.
  assert (M : scores_only m = VBool true).
  { unfold statsig_init in I. cbn in I. destruct (is_none (n_control a) || is_none (n_test a)); [discriminate|].
    destruct (check_unit td uo (time_unit a)); [|discriminate]. injection I as <-. exact S. }
  unfold statsig_init in E.
  destruct (item (loads_dict o) "n_test"); [|discriminate]. destruct (item (loads_dict o) "n_control"); [|discriminate].
  destruct (item (loads_dict o) "time_unit"); [|discriminate].
  cbn in E. destruct (is_none p0 || is_none p); [discriminate|]. destruct (check_unit td uo p1); [|discriminate].
  injection E as <-. cbn in M. discriminate.
Qed.
Example C18_statsig_case : exists m,
  statsig_init (fun s => String.eqb s "1D") (fun s => String.eqb s "D") None
    (StatSig (VNum 7) (VNum 3) (VStr "D") (VBool true) (VStr "daily") (VBool false) (VNum 100) (VBool true) (VNum 5)) = Some m /\ time_unit m = VStr "1D".
Proof. eexists. split; reflexivity. Qed.

(** MultiStatSigDetectorModel: the multiple testing method, skip_rescaling and use_corrected_scores are those passed with the
    serialised model. *)
Theorem C18_multi_partial : forall timedelta_ok unit_ok a m a',
  multi_init timedelta_ok unit_ok None a = Some m ->
  plain (n_control (base a)) -> plain (n_test (base a)) -> plain (rem_season (base a)) -> plain (seasonal_period (base a)) ->
  plain (use_corrected (base a)) -> plain (min_perc (base a)) ->
  use_corrected (base a') = use_corrected (base a) -> method a' = method a -> skip_rescaling a' = skip_rescaling a ->
  reloads multi_serialize (fun o => multi_init timedelta_ok unit_ok (Some o) a') m m.
Proof.
  intros td uo a m a' I P1 P2 P3 P4 P5 P6 E1 E2 E3.
  unfold multi_init in I.
  match type of I with context [statsig_init td uo None ?b] => set (b0 := b) in I end.
  destruct (statsig_init td uo None b0) as [s|] eqn:S; [|discriminate]. injection I as <-.
  assert (SS : exists tu, check_unit td uo (time_unit (base a)) = Some tu /\ s = StatSig (n_control (base a)) (n_test (base a)) tu (rem_season (base a))
     (seasonal_period (base a)) (VBool true) (VNum 500) (VBool false) (min_perc (base a)) /\ is_none (n_control (base a)) || is_none (n_test (base a)) = false).
  { unfold statsig_init in S. cbn in S. destruct (is_none (n_control (base a)) || is_none (n_test (base a))) eqn:N; [discriminate|].
    destruct (check_unit td uo (time_unit (base a))) as [tu|]; [|discriminate]. exists tu. injection S as <-. repeat split. }
  destruct SS as (tu & U & -> & N).
  assert (T : plain tu /\ check_unit td uo tu = Some tu).
  { unfold check_unit in U. destruct (time_unit (base a)) as [| | |w| | | | |]; try discriminate.
    - injection U as <-. split; [constructor|reflexivity].
    - destruct (td w) eqn:F1.
      + injection U as <-. split; [constructor|]. cbn. now rewrite F1.
      + destruct (uo w && td ("1" ++ w)%string) eqn:F2; [|discriminate]. assert (X : tu = VStr ("1" ++ w)%string) by congruence. subst tu. clear U. apply andb_prop in F2 as [_ F2].
        split; [constructor|]. unfold check_unit; cbv beta iota; now rewrite F2. }
  destruct T as [T C].
  unfold reloads, multi_serialize, statsig_serialize. cbn [base n_control n_test time_unit rem_season seasonal_period use_corrected max_split min_perc].
  match goal with |- context [dumps_dict ?d] => destruct (dict_trip d) as (o & D & L); [pl|] end.
  exists o. split; [exact D|]. unfold multi_init, statsig_init. rewrite L. cbn. rewrite N, C. cbn. now rewrite E1, E2, E3.
Qed.
Theorem C18_multi_refuted : forall timedelta_ok unit_ok a m a',
  multi_init timedelta_ok unit_ok None a = Some m ->
  method a' <> method a \/ skip_rescaling a' <> skip_rescaling a \/ use_corrected (base a') <> use_corrected (base a) ->
  lost multi_serialize (fun o => multi_init timedelta_ok unit_ok (Some o) a') m.
Proof.
  intros td uo a m a' I H o _ E. unfold multi_init in I, E.
  match type of I with context [statsig_init td uo None ?b] => destruct (statsig_init td uo None b) as [s|]; [|discriminate] end.
  match type of E with context [statsig_init td uo (Some o) ?b] => destruct (statsig_init td uo (Some o) b) as [s'|]; [|discriminate] end.
  injection I as <-. injection E as E1 E2 E3. intuition congruence.
Qed.
Example C18_multi_case : exists m,
  multi_init (fun _ => true) (fun _ => true) None
    (Multi (StatSig (VNum 7) (VNum 3) VNone (VBool false) (VStr "weekly") (VBool false) VNone VNone (VNum 0)) (VStr "bonferroni") (VBool false)) = Some m
  /\ method m <> VStr "fdr_bh".
Proof. eexists. split; [reflexivity|discriminate]. Qed.

(** RollingStatsModel: whatever was written cannot be read back (the statistic comes back as a string, which has no
    attribute value). *)
Theorem C18_rolling_refuted : forall a m a', rolling_init None a = Some m ->
  forall o, rolling_serialize m = Some o -> rolling_init (Some o) a' = None.
Proof.
  intros a m a' I o O. unfold rolling_init. destruct m as [m e]. unfold rolling_serialize in O.
  cbn [dumps_dict] in O.
  repeat match type of O with context [dumps ?v] => let j := fresh "j" in let E := fresh "E" in destruct (dumps v) as [j|] eqn:E; [|discriminate] end.
  injection O as <-. cbn -[loads value_of].
  assert (S : value_of (loads j0) = None).
  { destruct j0; reflexivity. }
  now rewrite S.
Qed.
Example C18_rolling_case : exists m o,
  rolling_init None (Rolling (VNum 10) (VStr "MAD") (VBool false) (VBool true) (VStr "daily") (VNum 1) (VNum (3#2)) (VBool false)) = Some m
  /\ statistics (fst m) = VStrEnum "mad" /\ rolling_serialize m = Some o.
Proof. eexists. eexists. split; [reflexivity|]. split; reflexivity. Qed.

(** BocpdDetectorModel: slow_drift comes back, the threshold does not. *)
Theorem C18_bocpd_partial : forall a m a', bocpd_init None a = Some m -> plain (slow_drift a) ->
  reloads bocpd_serialize (fun o => bocpd_init (Some o) a') m (Bocpd (slow_drift a) (threshold a')).
Proof.
  intros a m a' I P. injection I as <-. unfold reloads, bocpd_serialize.
  match goal with |- context [dumps_dict ?d] => destruct (dict_trip d) as (o & D & L); [pl|] end.
  exists o. split; [exact D|]. unfold bocpd_init. now rewrite L.
Qed.
Theorem C18_bocpd_refuted : forall a m a', bocpd_init None a = Some m -> threshold a' <> threshold a ->
  lost bocpd_serialize (fun o => bocpd_init (Some o) a') m.
Proof.
  intros [x y] m a' I H o O E. cbn [threshold slow_drift] in H. injection I as <-. unfold bocpd_serialize in O. cbn in O.
  destruct (dumps x); [|discriminate]. injection O as <-. unfold bocpd_init in E. cbn in E. injection E as _ E1. now apply H.
Qed.
(** BocpdTrendDetectorModel writes the same text for all parameters: no way of reading can recover them. *)
Theorem C18_bocpd_trend_refuted : forall load : object -> option bocpd_trend, exists m, lost bocpd_trend_serialize load m.
Proof.
  intros load. destruct (load [("slow_drift", JBool true)]) as [m0|] eqn:L.
  - destruct (alpha_t m0) eqn:A.
    1: exists (BocpdTrend (VNum 1) (VNum 1)); intros o O E; injection O as <-; rewrite L in E; injection E as ->; discriminate.
    all: exists (BocpdTrend VNone (VNum 1)); intros o O E; injection O as <-; rewrite L in E; injection E as ->; discriminate.
  - exists (BocpdTrend (VNum 1) (VNum 1)). intros o O E. injection O as <-. rewrite L in E. discriminate.
Qed.

(** CUSUMDetectorModel: the parameters and the whole detection state come back; vectorized and adapted_pre_mean are replaced
    by the values passed, if values are passed. *)
Theorem C18_cusum : forall m a' vectorized',
  (forall k v, In (k, v) (params_dict (c_params m) ++ state_dict (c_state m)) -> plain v) -> plain (c_vectorized m) -> plain (trans_flag m) ->
  adapted_pre_mean a' = VNone \/ adapted_pre_mean a' = adapted_pre_mean (c_params m) ->
  vectorized' = VNone \/ vectorized' = c_vectorized m ->
  reloads cusum_serialize (fun o => cusum_init (Some o) a' vectorized') m (Cusum (c_params m) (c_vectorized m) (c_state m) (VBool false)).
Proof.
  intros [p v s f] a' v' P PV PF EA EV. cbn [c_params c_vectorized c_state trans_flag] in *. unfold reloads, cusum_serialize. cbn [c_params c_vectorized c_state trans_flag].
  match goal with |- context [dumps_dict ?d] => destruct (dict_trip d) as (o & D & L) end.
  { intros k w H. rewrite !in_app_iff in H. destruct H as [H|[H|H]].
    - apply (P k w). rewrite in_app_iff. now right.
    - apply (P k w). rewrite in_app_iff. now left.
    - destruct H as [H|[H|[]]]; injection H as <- <-; assumption. }
  exists o. split; [exact D|]. unfold cusum_init. rewrite L. destruct p, s. cbn -[is_none] in *.
  destruct EA as [->| ->]; destruct EV as [->| ->]; cbn [is_none]; try reflexivity.
  - now destruct (is_none v).
  - now destruct (is_none adapted_pre_mean).
  - now destruct (is_none adapted_pre_mean), (is_none v).
Qed.
(** In particular a detector just constructed comes back exactly. *)
Theorem C18_cusum_new : forall a vectorized m a',
  cusum_init None a vectorized = Some m ->
  plain (scan_window a) -> plain (historical_window a) -> plain (step_window a) -> plain (c_threshold a) -> plain (delta_std_ratio a) ->
  plain (magnitude_quantile a) -> plain (magnitude_ratio a) -> plain (change_directions a) ->
  plain (c_remove_seasonality a) -> plain (season_period_freq a) -> plain (adapted_pre_mean a) -> plain vectorized ->
  adapted_pre_mean a' = VNone ->
  reloads cusum_serialize (fun o => cusum_init (Some o) a' VNone) m m.
Proof.
  intros a vec m a' I P1 P2 P3 P4 P5 P6 P7 P8 P9 P10 P11 P12 EA.
  unfold cusum_init, new_params in I.
  destruct (is_none (scan_window a) || is_none (historical_window a)); [discriminate|].
  destruct (score_value (score_func a)) as [sf|] eqn:SF; [|discriminate].
  injection I as <-.
  assert (PS : plain sf). { unfold score_value in SF. destruct (score_func a); try discriminate; injection SF as <-; constructor. }
  assert (PD : plain (directions (change_directions a))).
  { unfold directions. destruct (change_directions a); try exact P8. constructor. intros v [<-|[]]. constructor. }
  refine (C18_cusum _ a' VNone _ _ _ (or_introl EA) (or_introl eq_refl)).
  - intros k v H. cbn -[truthy] in H.
    repeat (destruct H as [H|H]; [injection H as <- <-; try assumption; try constructor; try (intros ? []); try (destruct (truthy _); [assumption|constructor])|]). destruct H.
  - cbn -[truthy]. destruct (truthy vec); [assumption|constructor].
  - constructor.
Qed.
Example C18_cusum_case : exists m,
  cusum_init None (CusumParams (VNum 10) (VNum 100) (VNum 5) (VNum (1#100)) (VNum 1) (VNum (3#4)) (VNum (4#3)) (VStr "increase") (VEnum "z_score") (VBool true) (VStr "weekly") VNone) (VBool true) = Some m
  /\ change_directions (c_params m) = VList [VStr "increase"] /\ score_func (c_params m) = VStr "z_score" /\ c_vectorized m = VBool true.
Proof. eexists. repeat split; reflexivity. Qed.
(** VectorizedCUSUMDetectorModel: before use what is written cannot be read, after use nothing can be written. *)
Theorem C18_vcusum_refuted : forall a m a', vcusum_init None a = Some m ->
  (forall o, vcusum_serialize m = Some o -> vcusum_init (Some o) a' = None) /\
  (forall s meta, alert_fired s = VObject -> vcusum_serialize (VCusum (v_params m) (Some (s, meta))) = None).
Proof.
  intros a m a' I. unfold vcusum_init in I. destruct (new_params a) as [p|]; [|discriminate]. injection I as <-. split.
  - intros o O. unfold vcusum_serialize in O. cbn [v_params v_state] in O. rewrite app_nil_r in O.
    assert (N : item (loads_dict o) "cps" = None).
    { unfold params_dict in O. cbn [dumps_dict dumps] in O.
      repeat match type of O with context [dumps ?v] => destruct (dumps v) as [?|]; [|discriminate] end.
      injection O as <-. reflexivity. }
    unfold vcusum_init. now rewrite N.
  - intros s meta H. unfold vcusum_serialize. cbn [v_params v_state].
    apply (dumps_dict_none _ "alert_fired" VObject); [|reflexivity]. right. rewrite in_app_iff. right. rewrite in_app_iff. left.
    right. left. now rewrite H.
Qed.
Example C18_vcusum_case : exists m o,
  vcusum_init None (CusumParams (VNum 10) (VNum 100) (VNum 5) (VNum (1#100)) (VNum 1) VNone (VNum (4#3)) VNone (VEnum "change") (VBool false) (VStr "daily") VNone) = Some m
  /\ vcusum_serialize m = Some o.
Proof. eexists. eexists. split; reflexivity. Qed.

(** DistributionDistanceModel *)
Theorem C18_distance : forall a m a', distance_init None a = Some m -> plain (window_size_sec a) ->
  reloads distance_serialize (fun o => distance_init (Some o) a') m m.
Proof.
  intros a m a' I P. unfold distance_init in I.
  destruct (distance_metric a) as [| | |s| | | | |]; try discriminate. destruct (jsd_base a) as [| |q| | | | | |]; try discriminate.
  destruct (mem s metrics); [|discriminate]. injection I as <-. unfold reloads, distance_serialize.
  cbn [window_size_sec distance_metric jsd_base validate_monotonic].
  match goal with |- context [dumps_dict ?d] => destruct (dict_trip d) as (o & D & L); [pl|] end.
  exists o. split; [exact D|]. unfold distance_init. rewrite L. reflexivity.
Qed.
Example C18_distance_case : exists m,
  distance_init None (Distance (VNum 3600) (VStr "cityblock") (VNum 1) VNone) = Some m /\ jsd_base m = VNum 2 /\ validate_monotonic m = VBool false.
Proof. eexists. repeat split; reflexivity. Qed.

(** IntervalDetectorModel (no test statistic) and the two sample detectors (with one) *)
Theorem C18_interval : forall a m a', interval_init None a = Some m ->
  (test_statistic a' = None <-> test_statistic a = None) ->
  reloads interval_serialize (fun o => interval_init (Some o) a') m m.
Proof.
  intros a m a' I T. unfold interval_init in I.
  destruct (set_alpha (i_alpha a)) as [al|] eqn:EA; [|discriminate].
  destruct (set_duration (duration a)) as [du|] eqn:ED; [|discriminate].
  destruct (set_enum test_types (test_type a)) as [tt|] eqn:ET; [|discriminate].
  assert (A : set_alpha al = Some al /\ plain al).
  { unfold set_alpha in EA. destruct (i_alpha a) as [| |q| | | | | |]; try discriminate. destruct (Qle_bool 0 q && Qle_bool q 1) eqn:B; [|discriminate].
    injection EA as <-. split; [unfold set_alpha; now rewrite B|constructor]. }
  assert (D : set_duration du = Some du /\ plain du).
  { unfold set_duration in ED. destruct (duration a) as [| |q| | | | | |]; try discriminate.
    - injection ED as <-. split; [reflexivity|constructor].
    - destruct (Qle_bool q 0) eqn:B; [discriminate|]. injection ED as <-. split; [unfold set_duration; now rewrite B|constructor]. }
  assert (E : exists s, tt = VEnum s /\ mem s test_types = true).
  { unfold set_enum in ET. destruct (test_type a) as [| | | | | | |s|]; try discriminate. destruct (mem s test_types) eqn:B; [|discriminate].
    injection ET as <-. now exists s. }
  destruct A as [A PA], D as [D PD], E as (s & -> & Ms).
  destruct (test_statistic a) as [ts|] eqn:TS.
  - destruct (set_enum test_statistics ts) as [ts'|] eqn:ES; [|discriminate]. injection I as <-.
    assert (E : exists w, ts' = VEnum w /\ mem w test_statistics = true).
    { unfold set_enum in ES. destruct ts as [| | | | | | |w|]; try discriminate. destruct (mem w test_statistics) eqn:B; [|discriminate].
      injection ES as <-. now exists w. }
    destruct E as (w & -> & Mw). unfold reloads, interval_serialize. cbn [test_type value_of test_statistic i_alpha duration].
    match goal with |- context [dumps_dict ?d] => destruct (dict_trip d) as (o & DD & L); [pl|] end.
    exists o. split; [exact DD|]. unfold interval_init. rewrite L. cbn -[test_types test_statistics mem set_alpha set_duration].
    rewrite A, D, Ms. cbn -[test_types test_statistics mem]. rewrite Ms. destruct (test_statistic a') eqn:TS'.
    + rewrite Mw. cbn -[test_types test_statistics mem]. now rewrite Mw.
    + discriminate (proj1 T eq_refl).
  - injection I as <-. unfold reloads, interval_serialize. cbn [test_type value_of test_statistic i_alpha duration].
    match goal with |- context [dumps_dict ?d] => destruct (dict_trip d) as (o & DD & L); [pl|] end.
    exists o. split; [exact DD|]. unfold interval_init. rewrite L. cbn -[test_types test_statistics mem set_alpha set_duration].
    rewrite A, D, Ms. cbn -[test_types test_statistics mem]. rewrite Ms. now rewrite (proj2 T eq_refl).
Qed.
Example C18_interval_case : exists m,
  interval_init None (Interval (VNum (1#20)) (VNum 5) (VEnum "two_sided") (Some (VEnum "relative_difference"))) = Some m.
Proof. eexists. reflexivity. Qed.

(** OutlierDetectorModel *)
Theorem C18_outlier : forall a m a', outlier_init None a = Some m -> plain (decomp a) -> plain (iqr_mult a) ->
  reloads outlier_serialize (fun o => outlier_init (Some o) a') m m.
Proof.
  intros [c k] m a' I P1 P2. injection I as <-. unfold reloads, outlier_serialize. cbn [decomp iqr_mult] in *.
  match goal with |- context [dumps_dict ?d] => destruct (dict_trip d) as (o & D & L); [pl|] end.
  exists o. split; [exact D|]. unfold outlier_init. now rewrite L.
Qed.
(** MultivariateAnomalyDetectorModel can never be written. *)
Theorem C18_multivariate_refuted : forall m, multivariate_serialize m = None.
Proof. reflexivity. Qed.

(** The Prophet detectors: given back the same parameters, the fitted model returns; no way of reading what is written can
    recover the parameters; before fitting nothing can be written. *)
Theorem C18_prophet_partial : forall prophet text params (model_to_json : prophet -> text) (model_from_json : text -> prophet) (m : prophet_detector prophet params),
  (forall f, model_from_json (model_to_json f) = f) -> p_model _ _ m <> None ->
  exists t, prophet_serialize _ _ _ model_to_json m = Some t /\ prophet_init _ _ _ model_from_json (Some t) (p_params _ _ m) = m.
Proof.
  intros prophet text params mj fj [p [f|]] H N; [|now destruct N]. exists (mj f). split; [reflexivity|]. unfold prophet_init. cbn. now rewrite H.
Qed.
Theorem C18_prophet_refuted : forall prophet text params (model_to_json : prophet -> text) (model_from_json : text -> prophet) (a b : params) (f : prophet), a <> b ->
  (forall load : text -> option (prophet_detector prophet params),
     ~ (forall m t, p_model _ _ m = Some f -> prophet_serialize _ _ _ model_to_json m = Some t -> load t = Some m)) /\
  prophet_serialize _ _ _ model_to_json (prophet_init _ _ _ model_from_json None a) = None.
Proof.
  intros prophet text params mj fj a b f N. split; [|reflexivity]. intros load H.
  pose proof (H (ProphetDetector _ _ a (Some f)) (mj f) eq_refl eq_refl) as Ha.
  pose proof (H (ProphetDetector _ _ b (Some f)) (mj f) eq_refl eq_refl) as Hb.
  rewrite Ha in Hb. injection Hb as E. now apply N.
Qed.
(** StaticThresholdModel holds no Prophet model, so it can never be written. *)
Theorem C18_static_refuted : forall prophet text (model_to_json : prophet -> text) (model_from_json : text -> prophet),
  static_serialize _ _ model_to_json (static_init _ _ model_from_json None) = None.
Proof. reflexivity. Qed.

Print Assumptions C18_statsig_partial.
Print Assumptions C18_statsig_refuted.
Print Assumptions C18_multi_partial.
Print Assumptions C18_multi_refuted.
Print Assumptions C18_rolling_refuted.
Print Assumptions C18_bocpd_partial.
Print Assumptions C18_bocpd_refuted.
Print Assumptions C18_bocpd_trend_refuted.
Print Assumptions C18_cusum.
Print Assumptions C18_cusum_new.
Print Assumptions C18_vcusum_refuted.
Print Assumptions C18_distance.
Print Assumptions C18_interval.
Print Assumptions C18_outlier.
Print Assumptions C18_multivariate_refuted.
Print Assumptions C18_prophet_partial.
Print Assumptions C18_prophet_refuted.
Print Assumptions C18_static_refuted.
