(** C292: what cross validation runs and reports, for every model, metric and series. *)
From Coq Require Import String.
From Verif Require Import Common PySlice BacktestModel BacktestSpec BacktestProofs PartitionProofs CrossModel.
From Coq Require Import List Lia.
Import ListNotations.
Open Scope Z_scope.

(** ** Specification *)
(** [count] of the names are [name] *)
Definition occurrences (name : string) (names : list string) : nat := count_occ string_dec names name.
(** [v] is [k] times the mean of the metric over the folds, weighted by their numbers of test points *)
Definition times_mean (k : nat) (F : list Q -> list Q -> Q) (rs : list fold_result) (v : Q) : Prop :=
  exists m, (v == inject_Z (Z.of_nat k) * m)%Q /\
    is_weighted_mean m (map (fun r => length (fr_truth r)) rs) (map (fun r => F (fr_truth r) (fr_pred r)) rs).
(** fold [r] of the series: a training part, then [test] points; the training part starts at the beginning of the series, or has
    [train] points if its size is constant *)
Definition fold_of (data : list Q) (const : bool) (train test : Z) (r : fold_result) : Prop :=
  exists before after, data = before ++ fr_train r ++ fr_truth r ++ after /\ fr_train r <> [] /\
    Z.of_nat (length (fr_truth r)) = test /\ (if const then Z.of_nat (length (fr_train r)) = train else before = []).

(** ** The dict of errors *)
Lemma get_bump d name x m : get (bump d name x) m = if String.eqb name m then match get d m with Some v => Some (v + x)%Q | None => None end else get d m.
Proof.
  induction d as [|[k v] d IH]; cbn [bump get]; [destruct (String.eqb name m); reflexivity|].
  destruct (String.eqb_spec k name) as [->|N]; cbn [get]; [destruct (String.eqb_spec name m); reflexivity|].
  destruct (String.eqb_spec k m) as [->|N']; [|exact IH]. destruct (String.eqb_spec name m); [congruence|reflexivity].
Qed.
Lemma get_app d k v m : get (d ++ [(k, v)]) m = match get d m with Some w => Some w | None => if String.eqb k m then Some v else None end.
Proof. induction d as [|[k' v'] d IH]; cbn [app get]; [reflexivity|]. destruct (String.eqb k' m); [reflexivity|exact IH]. Qed.
Lemma get_reset d name m : get (map (fun q => if String.eqb (fst q) name then (fst q, 0%Q) else q) d) m = if String.eqb name m then match get d m with Some _ => Some 0%Q | None => None end else get d m.
Proof.
  induction d as [|[k v] d IH]; cbn [map get fst]; [destruct (String.eqb name m); reflexivity|].
  destruct (String.eqb_spec k name) as [->|N]; cbn [get]; destruct (String.eqb_spec name m) as [->|N2]; try reflexivity; try exact IH.
  - destruct (String.eqb_spec k m); [congruence|exact IH].
  - destruct (String.eqb_spec k m); [reflexivity|exact IH].
Qed.
Lemma get_put0 d name m : get (put0 d name) m = if String.eqb name m then Some 0%Q else get d m.
Proof.
  unfold put0. destruct (get d name) as [v|] eqn:E; [rewrite get_reset|rewrite get_app]; destruct (String.eqb_spec name m) as [->|N]; try reflexivity; try (rewrite E; reflexivity). destruct (get d m); reflexivity.
Qed.
Lemma prepare_spec core names : forall d ms d', prepare core names d = Some (ms, d') ->
  map fst ms = names /\ Forall (fun m => core (fst m) = Some (snd m)) ms /\
  forall m, get d' m = if in_dec string_dec m names then Some 0%Q else get d m.
Proof.
  induction names as [|name names IH]; intros d ms d' H; cbn [prepare] in H.
  - assert (ms = [] /\ d' = d) as [-> ->] by (split; congruence). split; [reflexivity|]. split; [constructor|]. reflexivity.
  - destruct (core name) as [f|] eqn:C; [|discriminate]. destruct (prepare core names (put0 d name)) as [[ms1 d1]|] eqn:E; [|discriminate].
    assert (ms = (name, f) :: ms1 /\ d' = d1) as [-> ->] by (split; congruence). apply IH in E as (N & F & G). split; [cbn; congruence|]. split; [constructor; assumption|].
    intros m. rewrite G, get_put0. destruct (in_dec string_dec m names) as [I|I], (in_dec string_dec m (name :: names)) as [J|J]; try reflexivity.
    + exfalso. apply J. right. exact I.
    + destruct J as [->|J]; [rewrite String.eqb_refl; reflexivity|contradiction].
    + destruct (String.eqb_spec name m) as [->|_]; [|reflexivity]. exfalso. apply J. left. reflexivity.
Qed.
Lemma prepare_none core names : forall d, prepare core names d = None <-> exists name, In name names /\ core name = None.
Proof.
  induction names as [|name names IH]; intros d; cbn [prepare]; [split; [discriminate|intros (n & [] & _)]|].
  destruct (core name) eqn:C; [|split; [intros _; exists name; split; [left; reflexivity|exact C]|reflexivity]].
  specialize (IH (put0 d name)). destruct (prepare core names (put0 d name)) as [[ms d']|].
  - split; [discriminate|]. intros (n & [->|I] & N); [congruence|]. destruct IH as [_ IH]. discriminate IH. exists n. auto.
  - split; [|reflexivity]. intros _. destruct IH as [IH _]. destruct (IH eq_refl) as (n & I & N). exists n. split; [right; exact I|exact N].
Qed.
Lemma score_fold_get core (methods : list (string * metric)) total r name F : Forall (fun m => core (fst m) = Some (snd m)) methods -> core name = Some F ->
  forall d v, get d name = Some v ->
  exists v', get (score_fold methods total d r) name = Some v' /\
    (v' == v + inject_Z (Z.of_nat (occurrences name (map fst methods))) * (inject_Z (Z.of_nat (length (fr_truth r))) / total * F (fr_truth r) (fr_pred r)))%Q.
Proof.
  intros FA C. unfold score_fold. set (w := (inject_Z (Z.of_nat (length (fr_truth r))) / total)%Q). clearbody w. induction methods as [|[k f] ms IH]; intros d v G.
  - exists v. split; [exact G|]. unfold occurrences. cbn [map count_occ]. change (inject_Z (Z.of_nat 0)) with 0%Q. ring.
  - apply Forall_cons_iff in FA as [Ck FA]. cbn [fst snd] in Ck. cbn [fold_left fst snd map]. unfold occurrences in *. cbn [count_occ]. destruct (string_dec k name) as [->|N].
    + assert (f = F) as -> by congruence. destruct (IH FA (bump d name (w * F (fr_truth r) (fr_pred r))) (v + w * F (fr_truth r) (fr_pred r))%Q) as (v' & G' & E); [rewrite get_bump, String.eqb_refl, G; reflexivity|].
      exists v'. split; [exact G'|]. rewrite E, Nat2Z.inj_succ. unfold Z.succ. rewrite inject_Z_plus. change (inject_Z 1) with 1%Q. ring.
    + destruct (IH FA (bump d k (w * f (fr_truth r) (fr_pred r))) v) as (v' & G' & E); [rewrite get_bump; destruct (String.eqb_spec k name); [contradiction|exact G]|]. exists v'. split; assumption.
Qed.
Lemma scores_get core (methods : list (string * metric)) total rs name F : Forall (fun m => core (fst m) = Some (snd m)) methods -> core name = Some F ->
  forall d v, get d name = Some v ->
  exists v', get (fold_left (score_fold methods total) rs d) name = Some v' /\
    (v' == v + inject_Z (Z.of_nat (occurrences name (map fst methods))) * wsum F total rs)%Q.
Proof.
  intros FA C. induction rs as [|r rs IH]; intros d v G; cbn [fold_left].
  - exists v. split; [exact G|]. unfold wsum. cbn. ring.
  - destruct (score_fold_get core methods total r name F FA C d v G) as (v1 & G1 & E1). destruct (IH _ _ G1) as (v2 & G2 & E2). exists v2. split; [exact G2|]. rewrite E2, E1. unfold wsum. cbn [map qsum fold_right]. unfold qsum. cbn [fold_right]. ring.
Qed.
Lemma score_unknown (methods : list (string * metric)) total name rs : ~ In name (map fst methods) -> forall d, get (fold_left (score_fold methods total) rs d) name = get d name.
Proof.
  intros N. induction rs as [|r rs IH]; intros d; cbn [fold_left]; [reflexivity|]. rewrite IH. unfold score_fold. clear IH. revert d. induction methods as [|[k f] ms IHm]; intros d; cbn [fold_left]; [reflexivity|]. rewrite IHm by (intros I; apply N; right; exact I).
  rewrite get_bump. cbn [fst]. destruct (String.eqb_spec k name) as [->|_]; [|reflexivity]. exfalso. apply N. left. reflexivity.
Qed.

(** ** Construction *)
Lemma make_spec core names data train test folds const multi c : make_cv core names data train test folds const multi = Some c ->
  exists ms d, c = Cross (BT train test folds const data multi ms [] d) [] [] /\ prepare core names [] = Some (ms, d) /\ rolling_ctor train test folds = true /\ data <> [].
Proof.
  unfold make_cv, expanding_window, rolling_window, rolling_origin. destruct (pct_ok train); [|discriminate]. destruct (pct_ok test); [|discriminate]. cbn [negb]. destruct (folds <? 0); [discriminate|]. destruct data as [|x data]; [discriminate|]. cbn [length Nat.eqb].
  destruct const; destruct (rolling_ctor train test folds); try discriminate; destruct (prepare core names []) as [[ms d]|]; try discriminate; intros H; exists ms, d; (split; [congruence|]); (split; [reflexivity|]); (split; [reflexivity|discriminate]).
Qed.
(** the settings are accepted exactly when both percentages are in (0, 100] and fit together, there is data, the number of folds is
    not negative and every metric is known *)
Theorem C292_accepted : forall core names data train test folds const multi,
  make_cv core names data train test folds const multi <> None <->
  (0 < train <= 100)%Q /\ (0 < test <= 100)%Q /\ (train + test <= 100)%Q /\ (1 < folds -> ~ (train + test == 100)%Q) /\ 0 <= folds /\ data <> [] /\
  (forall name, In name names -> core name <> None).
Proof.
  intros core names data train test folds const multi. split.
  - intros H. destruct (make_cv core names data train test folds const multi) as [c|] eqn:E; [|congruence]. clear H. apply make_spec in E as (ms & d & _ & P & RC & D). unfold rolling_ctor in RC. rewrite !andb_true_iff in RC. destruct RC as [[[[P1 P2] P3] P4] P5].
    apply pct_pos in P1. apply pct_pos in P2. apply Qle_bool_iff in P3. apply Z.leb_le in P5. split; [exact P1|]. split; [exact P2|]. split; [exact P3|]. split; [|split; [exact P5|split; [exact D|]]].
    + intros F Q1. apply negb_true_iff in P4. apply Qeq_bool_iff in Q1. rewrite Q1 in P4. cbn in P4. apply Z.ltb_ge in P4. lia.
    + intros name I N. assert (prepare core names [] = None) by (apply prepare_none; exists name; auto). congruence.
  - intros (A & B & C & D & E & F & G) H. unfold make_cv, expanding_window, rolling_window, rolling_origin in H.
    assert (PK : forall q, (0 < q <= 100)%Q -> pct_ok q = true). { intros q [X Y]. unfold pct_ok. apply andb_true_iff. split; [apply negb_true_iff; destruct (Qle_bool q 0) eqn:Z0; [apply Qle_bool_iff in Z0; lra|reflexivity]|apply Qle_bool_iff; exact Y]. }
    assert (RC : rolling_ctor train test folds = true). { unfold rolling_ctor. rewrite (PK _ A), (PK _ B). replace (Qle_bool (train + test) 100) with true by (symmetry; apply Qle_bool_iff; exact C). replace (0 <=? folds) with true by (symmetry; apply Z.leb_le; exact E). cbn [andb]. rewrite andb_true_r. apply negb_true_iff, andb_false_iff. destruct (Z.ltb_spec 1 folds) as [L|L]; [left|right; reflexivity]. destruct (Qeq_bool (train + test) 100) eqn:Q1; [|reflexivity]. apply Qeq_bool_iff in Q1. destruct (D L Q1). }
    rewrite (PK _ A), (PK _ B), RC in H. cbn [negb] in H. destruct (Z.ltb_spec folds 0); [lia|]. destruct data as [|x data]; [congruence|]. cbn [length Nat.eqb] in H.
    assert (PR : prepare core names [] <> None). { intros PN. apply prepare_none in PN as (n & I & N). exact (G n I N). }
    destruct (prepare core names []) as [[ms d]|]; [|congruence]. destruct const; discriminate.
Qed.
(** ** Running *)
Lemma run_spec forecast train test folds const data multi ms rs0 d c :
  run_cv forecast c = Some (Cross (BT train test folds const data multi ms rs0 d) rs0 d) ->
  exists trs tes new, rolling_splits (Z.of_nat (length (b_data (c_backtester c)))) (b_start (c_backtester c)) (b_test (c_backtester c)) (b_steps (c_backtester c)) (b_const (c_backtester c)) = Some (trs, tes) /\
    create_models forecast (b_data (c_backtester c)) 0 trs tes = Some new /\ rs0 = (if b_multi (c_backtester c) then new else b_results (c_backtester c) ++ new) /\ rs0 <> [] /\ forallb fold_ok rs0 = true /\
    ms = b_methods (c_backtester c) /\ d = fold_left (score_fold ms (total_length rs0)) rs0 (b_errors (c_backtester c)).
Proof.
  unfold run_cv, run_backtest. destruct (rolling_splits _ _ _ _ _) as [[trs tes]|]; [|discriminate]. destruct (create_models _ _ _ _ _) as [new|] eqn:CM; [|discriminate]. set (rs := if b_multi _ then new else _) in *.
  intros H. exists trs, tes, new. split; [reflexivity|]. split; [exact CM|]. destruct rs as [|r rs'] eqn:RS; [discriminate|]. destruct (forallb fold_ok (r :: rs')) eqn:FO; [|discriminate]. injection H; intros; subst ms rs0 d. split; [exact (eq_sym RS)|]. split; [discriminate|]. split; [exact FO|]. split; reflexivity.
Qed.
Lemma run_shape forecast c c' : run_cv forecast c = Some c' -> exists rs d, c' = Cross (BT (b_start (c_backtester c)) (b_test (c_backtester c)) (b_steps (c_backtester c)) (b_const (c_backtester c)) (b_data (c_backtester c)) (b_multi (c_backtester c)) (b_methods (c_backtester c)) rs d) rs d.
Proof.
  unfold run_cv, run_backtest. destruct (rolling_splits _ _ _ _ _) as [[trs tes]|]; [|discriminate]. destruct (create_models _ _ _ _ _) as [new|]; [|discriminate]. set (rs := if b_multi _ then new else _). destruct rs as [|r rs']; [discriminate|]. destruct (forallb fold_ok (r :: rs')); [|discriminate]. intros H. injection H as <-. eexists. eexists. reflexivity.
Qed.
(** before run_cv there is no error to get *)
Theorem C292_before : forall core names data train test folds const multi c name,
  make_cv core names data train test folds const multi = Some c -> error_value c name = None /\ c_results c = [].
Proof. intros core names data train test folds const multi c name H. apply make_spec in H as (ms & d & -> & _). split; reflexivity. Qed.
(** run_cv runs [folds] folds, each training part directly before its test part; afterwards the value of each metric is its mean over the
    folds, weighted by size, and other names have none *)
Lemma run_value core names data train test folds const multi forecast c c' : 
  make_cv core names data train test folds const multi = Some c -> run_cv forecast c = Some c' ->
  (forall name F, In name names -> core name = Some F -> exists v, error_value c' name = Some v /\ times_mean (occurrences name names) F (c_results c') v) /\
  (forall name, ~ In name names -> error_value c' name = None).
Proof.
  intros M RU. apply make_spec in M as (ms & d0 & -> & P & RC & D). destruct (run_shape _ _ _ RU) as (rs & d & ->). apply run_spec in RU as (trs & tes & new & _ & _ & _ & NE & FO & _ & ED). cbn [c_backtester b_errors b_methods b_start b_test b_steps b_const b_data b_multi] in *.
  apply prepare_spec in P as (N & FA & G). unfold error_value. cbn [c_errors c_results]. split.
  - intros name F I C. destruct (scores_get core ms (total_length rs) rs name F FA C d0 0%Q) as (v & GV & E); [rewrite G; destruct (in_dec string_dec name names); [reflexivity|contradiction]|]. exists v. split; [rewrite ED; exact GV|]. rewrite N in E.
    exists (wsum F (total_length rs) rs). split; [rewrite E; ring|]. apply wsum_weighted_mean, total_length_pos; assumption.
  - intros name I. rewrite ED, score_unknown by (rewrite N; exact I). rewrite G. destruct (in_dec string_dec name names); [contradiction|reflexivity].
Qed.
Theorem C292_mean : forall core names data train test folds const multi forecast c c' name F,
  make_cv core names data train test folds const multi = Some c -> run_cv forecast c = Some c' ->
  NoDup names -> In name names -> core name = Some F ->
  exists v, error_value c' name = Some v /\
    is_weighted_mean v (map (fun r => length (fr_truth r)) (c_results c')) (map (fun r => F (fr_truth r) (fr_pred r)) (c_results c')).
Proof.
  intros core names data train test folds const multi forecast c c' name F M RU ND I C. destruct (run_value _ _ _ _ _ _ _ _ _ _ _ M RU) as [V _]. destruct (V name F I C) as (v & G & m & E & W). exists v. split; [exact G|].
  unfold occurrences in E. rewrite (proj1 (NoDup_count_occ' string_dec names) ND name I) in E. change (inject_Z (Z.of_nat 1)) with 1%Q in E. unfold is_weighted_mean in *. rewrite E, Qmult_1_l. exact W.
Qed.
Theorem C292_unknown : forall core names data train test folds const multi forecast c c' name,
  make_cv core names data train test folds const multi = Some c -> run_cv forecast c = Some c' -> ~ In name names -> error_value c' name = None.
Proof. intros core names data train test folds const multi forecast c c' name M RU. apply (run_value _ _ _ _ _ _ _ _ _ _ _ M RU). Qed.
(** a metric listed twice is reported as twice its mean, and so on *)
Theorem C292_listed_twice_refuted : forall core names data train test folds const multi forecast c c' name F,
  make_cv core names data train test folds const multi = Some c -> run_cv forecast c = Some c' -> occurrences name names = 2%nat -> core name = Some F ->
  exists v, error_value c' name = Some v /\ times_mean 2 F (c_results c') v.
Proof.
  intros core names data train test folds const multi forecast c c' name F M RU O C. destruct (run_value _ _ _ _ _ _ _ _ _ _ _ M RU) as [V _]. rewrite <- O. apply V; [|exact C]. apply (count_occ_In string_dec). unfold occurrences in O. lia.
Qed.
Theorem C292_folds : forall core names data train test folds const multi forecast c c',
  make_cv core names data train test folds const multi = Some c -> run_cv forecast c = Some c' ->
  exists n_train n_test, is_percent_of (Z.of_nat (length data)) train n_train /\ is_percent_of (Z.of_nat (length data)) test n_test /\
    Z.of_nat (length (c_results c')) = folds /\ Forall (fold_of data const n_train n_test) (c_results c').
Proof.
  intros core names data train test folds const multi forecast c c' M RU. apply make_spec in M as (ms & d0 & -> & P & RC & D). destruct (run_shape _ _ _ RU) as (rs & d & ->). apply run_spec in RU as (trs & tes & new & SP & CM & ER & NE & _). cbn [c_backtester b_errors b_methods b_start b_test b_steps b_const b_data b_multi b_results app] in *.
  assert (rs = new) as -> by (destruct multi; exact ER). destruct (rolling_rows _ _ _ _ _ _ _ _ _ _ SP CM) as (a & b & A & B & L & R). exists a, b. split; [exact A|]. split; [exact B|]. cbn [c_results]. split.
  - rewrite L. unfold rolling_ctor in RC. rewrite !andb_true_iff in RC. destruct RC as [_ Z0]. apply Z.leb_le in Z0. lia.
  - apply Forall_forall. intros r Hr. destruct (R r Hr) as (bf & af & X). exists bf, af. exact X.
Qed.
(** no folds are accepted, but then run_cv raises *)
Theorem C292_zero_folds_refuted : forall core names data train test const multi forecast c,
  make_cv core names data train test 0 const multi = Some c -> run_cv forecast c = None.
Proof.
  intros core names data train test const multi forecast c M. destruct (run_cv forecast c) as [c'|] eqn:RU; [|reflexivity]. destruct (C292_folds _ _ _ _ _ _ _ _ _ _ _ M RU) as (_ & _ & _ & _ & L & _). exfalso.
  apply make_spec in M as (ms & d & -> & _). destruct (run_shape _ _ _ RU) as (rs & d' & ->). apply run_spec in RU as (_ & _ & _ & _ & _ & _ & NE & _). cbn [c_results] in L. destruct rs; [congruence|cbn in L; lia].
Qed.
(** running again doubles every error *)
Theorem C292_again_refuted : forall core names data train test folds const forecast c c' c'' name v,
  make_cv core names data train test folds const true = Some c -> run_cv forecast c = Some c' -> run_cv forecast c' = Some c'' ->
  error_value c' name = Some v -> exists w, error_value c'' name = Some w /\ (w == 2 * v)%Q.
Proof.
  intros core names data train test folds const forecast c c' c'' name v M R1 R2 V. pose proof M as M0. apply make_spec in M as (ms & d0 & -> & P & RC & D). destruct (run_shape _ _ _ R1) as (rs & d & ->). destruct (run_shape _ _ _ R2) as (rs2 & d2 & ->).
  apply run_spec in R1 as (trs & tes & new & SP & CM & ER & NE & FO & _ & ED). apply run_spec in R2 as (trs2 & tes2 & new2 & SP2 & CM2 & ER2 & NE2 & FO2 & _ & ED2). cbn [c_backtester b_errors b_methods b_start b_test b_steps b_const b_data b_multi b_results] in *.
  assert (rs2 = rs) as -> by congruence. apply prepare_spec in P as (N & FA & G). unfold error_value in *. cbn [c_errors] in *.
  destruct (in_dec string_dec name names) as [I|I].
  - assert (CN : exists F, core name = Some F). { rewrite <- N in I. apply in_map_iff in I as ([k F] & E & I). rewrite Forall_forall in FA. exists F. cbn in E. subst k. exact (FA _ I). } destruct CN as (F & C).
    destruct (scores_get core ms (total_length rs) rs name F FA C d0 0%Q) as (v1 & G1 & E1); [rewrite G; destruct (in_dec string_dec name names); [reflexivity|contradiction]|]. rewrite <- ED in G1. assert (v1 = v) as -> by congruence.
    destruct (scores_get core ms (total_length rs) rs name F FA C d v G1) as (w & G2 & E2). exists w. split; [rewrite ED2; exact G2|]. rewrite E2. rewrite E1 at 1. rewrite E1. ring.
  - exfalso. rewrite ED, score_unknown in V by (rewrite N; exact I). rewrite G in V. destruct (in_dec string_dec name names); [contradiction|discriminate].
Qed.
(** enough data: every fold can be run if the model forecasts as many steps as asked *)
Theorem C292_runs : forall core names data train test folds const multi forecast c,
  make_cv core names data train test folds const multi = Some c -> 1 <= folds ->
  (100 <= inject_Z (Z.of_nat (length data)) * train)%Q -> (100 <= inject_Z (Z.of_nat (length data)) * test)%Q ->
  (forall x n, 0 <= n -> exists fc, forecast x n = Some fc /\ Z.of_nat (length fc) = n) ->
  exists c', run_cv forecast c = Some c'.
Proof.
  intros core names data train test folds const multi forecast c M F1 T1 T2 AN. apply make_spec in M as (ms & d0 & -> & P & RC & D). unfold run_cv, run_backtest. cbn [c_backtester b_errors b_methods b_start b_test b_steps b_const b_data b_multi b_results].
  destruct (rolling_succeeds (Z.of_nat (length data)) train test folds const ltac:(lia) RC F1 T1 T2) as ([trs tes] & SP). rewrite SP.
  destruct (rolling_folds _ _ _ _ _ _ _ SP) as (a & b & _ & _ & L1 & L2 & CF).
  assert (CM : forall trs tes, length trs = length tes -> (forall i, (i < length trs)%nat -> causal_fold (Z.of_nat (length data)) 0 b (nth i trs (0, 0)) (nth i tes (0, 0))) ->
    exists rs, create_models forecast data 0 trs tes = Some rs /\ length rs = length trs /\ forallb fold_ok rs = true).
  { clear - AN. induction trs as [|tr trs IH]; intros [|te tes] L C; try discriminate L; [exists []; repeat split|]. 
    destruct (IH tes) as (rs & E & LR & OK); [cbn in L; lia|intros i Hi; exact (C (Datatypes.S i) ltac:(cbn; lia))|]. specialize (C 0%nat ltac:(cbn; lia)). cbn [nth] in C. destruct C as (C1 & C2 & C3 & C4 & C5 & C6).
    cbn [create_models]. unfold create_model. 
    replace ((fst tr <? 0) || (Z.of_nat (length data) <? fst tr)) with false by (symmetry; apply orb_false_iff; split; apply Z.ltb_ge; lia).
    replace ((snd tr <? 0) || (Z.of_nat (length data) <? snd tr)) with false by (symmetry; apply orb_false_iff; split; apply Z.ltb_ge; lia).
    replace ((fst te <? 0) || (Z.of_nat (length data) <? fst te)) with false by (symmetry; apply orb_false_iff; split; apply Z.ltb_ge; lia).
    replace ((snd te <? 0) || (Z.of_nat (length data) <? snd te)) with false by (symmetry; apply orb_false_iff; split; apply Z.ltb_ge; lia). cbn [orb].
    pose proof (py_slice_length data (fst tr) (snd tr) ltac:(lia) ltac:(lia) ltac:(lia)) as LA. pose proof (py_slice_length data (fst te) (snd te) ltac:(lia) ltac:(lia) ltac:(lia)) as LB.
    destruct (py_slice data (Some (fst tr)) (Some (snd tr))) as [|x xs]; [cbn in LA; lia|]. destruct (py_slice data (Some (fst te)) (Some (snd te))) as [|y ys]; [cbn in LB; lia|].
    destruct (AN (x :: xs) (Z.of_nat (length (y :: ys)) + 0) ltac:(lia)) as (fc & -> & LF). change (0 =? 0) with true. cbn iota. rewrite E. eexists. split; [reflexivity|]. split; [cbn [length]; lia|]. cbn [forallb]. rewrite OK, andb_true_r. unfold fold_ok. cbn [fr_train fr_pred fr_truth].
    destruct fc as [|z fc]; [cbn in LF; lia|]. apply Nat.eqb_eq. lia. }
  destruct (CM trs tes ltac:(congruence)) as (rs & E & LR & OK); [intros i Hi; apply CF; lia|]. rewrite E. cbn [app]. replace (if multi then rs else rs) with rs by (destruct multi; reflexivity). destruct rs as [|r rs]; [cbn in LR; lia|]. rewrite OK. eexists. reflexivity.
Qed.
(** the end of the expanding window is ignored: whatever end is given, the last training part ends [test] per cent before the end *)
Theorem C292_end_percentage_refuted : forall core names data start stop test steps multi b trs tes,
  expanding_window core names data start stop test steps multi = Some b -> 2 <= steps ->
  rolling_splits (Z.of_nat (length data)) (b_start b) (b_test b) (b_steps b) (b_const b) = Some (trs, tes) ->
  exists n_test, is_percent_of (Z.of_nat (length data)) test n_test /\ snd (nth (Z.to_nat steps - 1) trs (0, 0)) = Z.of_nat (length data) - n_test.
Proof.
  intros core names data start stop test steps multi b trs tes E S2 SP. unfold expanding_window, rolling_origin in E. destruct (rolling_ctor _ _ _); [|discriminate]. destruct data as [|x data]; [discriminate|]. destruct (prepare _ _ _) as [[ms d]|]; [|discriminate]. injection E as <-. cbn [b_start b_test b_steps b_const] in SP.
  destruct (rolling_folds _ _ _ _ _ _ _ SP) as (a & b & _ & B & L1 & L2 & C). exists b. split; [exact B|]. destruct (C (Z.to_nat steps - 1)%nat ltac:(lia)) as ((_ & C2 & _ & C4 & _ & _) & _ & _ & LA). specialize (LA S2 ltac:(lia)). lia.
Qed.

(** ten points, half for training, a fifth for testing, two folds *)
Definition off_by (truth pred : list Q) : Q := hd 0%Q truth - hd 0%Q pred.
Definition one_metric (name : string) : option (list Q -> list Q -> Q) := if String.eqb name "bias" then Some off_by else None.
Definition ten : list Q := [1; 2; 3; 4; 5; 6; 7; 8; 9; 10]%Q.
Definition zeros (x : list Q) (n : Z) : option (list Q) := Some (repeat 0%Q (Z.to_nat n)).
Example C292_case :
  exists c c', make_cv one_metric ["bias"%string] ten 50 20 2 false true = Some c /\ run_cv zeros c = Some c' /\
    error_value c "bias" = None /\ (exists v, error_value c' "bias" = Some v /\ (v == 15 # 2)%Q) /\ error_value c' "mape" = None.
Proof. eexists. eexists. split; [vm_compute; reflexivity|]. split; [vm_compute; reflexivity|]. split; [reflexivity|]. split; [eexists; split; [vm_compute; reflexivity|reflexivity]|reflexivity]. Qed.

Print Assumptions C292_accepted.
Print Assumptions C292_before.
Print Assumptions C292_mean.
Print Assumptions C292_unknown.
Print Assumptions C292_listed_twice_refuted.
Print Assumptions C292_folds.
Print Assumptions C292_zero_folds_refuted.
Print Assumptions C292_again_refuted.
Print Assumptions C292_runs.
Print Assumptions C292_end_percentage_refuted.
