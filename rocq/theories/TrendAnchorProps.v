(** C121, C122, C123, C124: which observations count, the anchor mode, top metrics, missing values. *)
From Verif Require Import Common TrendModel TrendSpec TrendProofs TrendProps TrendScanProps TrendUnitsProps.
From Coq Require Import String Sorted Permutation.
Open Scope Z_scope.

(** ** C121 *)
Lemma ses_prefix v l l' p : firstn p l = firstn p l' -> List.length l = List.length l' -> firstn (S p) (ses v l) = firstn (S p) (ses v l').
Proof.
  revert v l l'. induction p as [|p IH]; intros v [|x l] [|x' l'] E L; try discriminate; try reflexivity.
  cbn [firstn] in E. assert (E' : firstn p l = firstn p l') by congruence. assert (x = x') by congruence. subst x'. cbn [ses]. cbn [List.length] in L.
  specialize (IH ((1 # 5) * x + (4 # 5) * v)%Q l l' E' ltac:(lia)). change (firstn (S (S p)) (v :: ses ((1 # 5) * x + (4 # 5) * v)%Q l)) with (v :: firstn (S p) (ses ((1 # 5) * x + (4 # 5) * v)%Q l)). rewrite IH. reflexivity.
Qed.
Lemma firstn_sub {A} (l l' : list A) m i w : firstn m l = firstn m l' -> (i + w <= m)%nat -> firstn w (skipn i l) = firstn w (skipn i l').
Proof.
  intros E L. rewrite !firstn_skipn_comm. f_equal. replace (i + w)%nat with (Nat.min (i + w) m) by lia. rewrite <- !firstn_firstn, E. reflexivity.
Qed.
Lemma rolling_prefix w l l' m : firstn m l = firstn m l' -> List.length l = List.length l' -> firstn (m + 1 - w) (rolling w l) = firstn (m + 1 - w) (rolling w l').
Proof.
  intros E L. unfold rolling. rewrite <- L. set (n := (List.length l + 1 - w)%nat). rewrite !firstn_map. apply map_ext_in. intros i I.
  assert (B : (i < m + 1 - w)%nat).
  { apply (In_nth _ _ 0%nat) in I as (k & Hk & <-). rewrite firstn_length, seq_length in Hk. rewrite nth_firstn', seq_nth by lia. lia. }
  f_equal. apply (firstn_sub l l' m i w E). lia.
Qed.
Section Causal.
Variables (init : list Q -> Q) (tail crit : Q -> Q).
(** the initial level is taken from the first [b] values of the series *)
Variable b : nat.
Hypothesis init_start : forall l l', firstn b l = firstn b l' -> init l = init l'.
Lemma cleaned_prefix s y y' m : firstn m y = firstn m y' -> List.length y = List.length y' -> (lost s + b <= m)%nat ->
  firstn (S m - lost s) (cleaned_col init s y) = firstn (S m - lost s) (cleaned_col init s y').
Proof.
  intros E L B. unfold cleaned_col. cbv zeta. destruct s as [s|].
  - pose proof (rolling_prefix (season_days s) y y' m E L) as RP. rewrite <- lost_days in *. replace (m + 1 - S (lost (Some s)))%nat with (m - lost (Some s))%nat in RP by lia.
    rewrite (init_start (rolling (S (lost (Some s))) y) (rolling (S (lost (Some s))) y')).
    + replace (S m - lost (Some s))%nat with (S (m - lost (Some s))) by lia. apply ses_prefix; [exact RP|rewrite !rolling_length; lia].
    + replace b with (Nat.min b (m - lost (Some s))) by lia. rewrite <- !firstn_firstn, RP. reflexivity.
  - cbn [lost]. rewrite Nat.sub_0_r. rewrite (init_start y y'); [apply ses_prefix; assumption|].
    replace b with (Nat.min b m) by (cbn [lost] in B; lia). rewrite <- !firstn_firstn, E. reflexivity.
Qed.
Lemma uni_rows threshold alpha w s data st c y : regular data -> (1 <= w)%nat -> f_cols data = [(c, map Some y)] ->
  statistics init tail crit false threshold alpha w None s data = Some st ->
  List.length st = (List.length y - lost s - w)%nat /\
  forall i row, nth_error st i = Some row ->
    run_detector tail crit false threshold w (Frame (firstn (S (w + i)) (skipn (lost s) (f_times data))) [(c, firstn (S (w + i)) (cleaned_col init s y))]) = Some row.
Proof.
  intros R Hw HC H. pose proof (one_complete _ _ _ HC) as CC. pose proof (one_length _ _ _ R HC) as LY. unfold statistics in H. cbv zeta in H.
  destruct (List.length (f_times (dropna data)) <? w)%nat; [discriminate|]. destruct (smoothing init (deseason s (dropna data))) as [sm|] eqn:ES; [|discriminate].
  destruct (smoothing_ok _ _ _ _ (dropna_regular _ R) ES) as (RS & SC & ST & _). rewrite CC in SC, ST. cbn [map fst snd] in SC. destruct (ST ltac:(discriminate)) as [ST1 _]. change (f_times (dropna data)) with (f_times data) in ST1.
  destruct (scan_rows _ _ _ _ _ _ _ RS Hw H) as [L A]. split; [rewrite L, ST1, skipn_length; lia|]. intros i row E. destruct (A i row E) as (_ & _ & B). rewrite ST1, SC in B. exact B.
Qed.
Lemma smoothing_one times c y s : smoothing init (deseason s (Frame times [(c, y)])) =
  match skipn (lost s) times with [] => None | _ => Some (Frame (skipn (lost s) times) [(c, cleaned_col init s y)]) end.
Proof.
  unfold smoothing. destruct s as [s|]; [|reflexivity]. cbn [deseason f_cols f_times map]. rewrite <- lost_days. replace (S (lost (Some s)) - 1)%nat with (lost (Some s)) by lia.
  destruct (skipn (lost (Some s)) times); [reflexivity|]. cbn [map fst snd]. unfold cleaned_col. rewrite <- lost_days. reflexivity.
Qed.
(** The test at a time uses only earlier observations: two series that agree before position [m] have
    the same row for the times up to position [m]. *)
Theorem C121_causal : forall threshold alpha w s data data' st st' c y y' m i row,
  regular data -> regular data' -> f_times data = f_times data' -> (1 <= w)%nat ->
  f_cols data = [(c, map Some y)] -> f_cols data' = [(c, map Some y')] ->
  statistics init tail crit false threshold alpha w None s data = Some st ->
  statistics init tail crit false threshold alpha w None s data' = Some st' ->
  firstn m y = firstn m y' -> (lost s + b <= m)%nat -> (lost s + w + i <= m)%nat ->
  nth_error st i = Some row -> nth_error st' i = Some row.
Proof.
  intros threshold alpha w s data data' st st' c y y' m i row R R' ET Hw HC HC' H H' E B Bi Hr.
  pose proof (one_length _ _ _ R HC) as LY. pose proof (one_length _ _ _ R' HC') as LY'.
  destruct (uni_rows _ _ _ _ _ _ _ _ R Hw HC H) as [L A]. destruct (uni_rows _ _ _ _ _ _ _ _ R' Hw HC' H') as [L' A'].
  destruct (nth_error_nth'' _ _ _ row Hr) as [Li _]. destruct (nth_error st' i) as [row'|] eqn:Er; [|exfalso; apply nth_error_None in Er; rewrite L, LY, ET, <- LY' in Li; lia].
  f_equal. specialize (A i row Hr). specialize (A' i row' Er). pose proof (cleaned_prefix s y y' m E ltac:(congruence) B) as CP.
  assert (C2 : firstn (S (w + i)) (cleaned_col init s y) = firstn (S (w + i)) (cleaned_col init s y')).
  { replace (S (w + i)) with (Nat.min (S (w + i)) (S m - lost s)) by lia. rewrite <- !firstn_firstn, CP. reflexivity. }
  rewrite C2, ET in A. congruence.
Qed.
(** The latest observation has no influence on anything reported. *)
Lemma one_frame (data : frame (option Q)) c y : f_cols data = [(c, map Some y)] -> dropna data = Frame (f_times data) [(c, y)].
Proof. intros HC. pose proof (one_complete _ _ _ HC) as CC. unfold dropna in *. cbn [f_cols] in CC. rewrite CC. reflexivity. Qed.
Lemma cleaned_last s y v v' : (lost s + b <= List.length y)%nat -> cleaned_col init s (y ++ [v]) = cleaned_col init s (y ++ [v']).
Proof.
  intros B. pose proof (cleaned_prefix s (y ++ [v]) (y ++ [v']) (List.length y)) as CP. rewrite !firstn_app, Nat.sub_diag, !app_length in CP. specialize (CP eq_refl eq_refl B).
  rewrite !firstn_all2 in CP; [exact CP| |]; rewrite cleaned_length, app_length; cbn [List.length]; lia.
Qed.
Theorem C121_latest_refuted : forall threshold alpha w d s data data' c y v v',
  f_times data = f_times data' -> f_cols data = [(c, map Some (y ++ [v]))] -> f_cols data' = [(c, map Some (y ++ [v']))] ->
  (lost s + b <= List.length y)%nat ->
  detector init tail crit false threshold alpha w None d s data = detector init tail crit false threshold alpha w None d s data'.
Proof.
  intros threshold alpha w d s data data' c y v v' ET HC HC' B. unfold detector, statistics. cbv zeta. rewrite (one_frame _ _ _ HC), (one_frame _ _ _ HC'), ET.
  rewrite !smoothing_one. rewrite (cleaned_last s y v v' B). reflexivity.
Qed.

(** ** C122: the anchor mode *)
Lemma keep_suffix {A} times (l : list A) a z : StronglySorted Z.lt times -> List.length l = List.length times -> (forall t, In t times -> t <= z) ->
  map snd (filter (fun p => (a <=? fst p) && (fst p <=? z)) (combine times l)) = skipn (List.length (filter (fun t => t <? a) times)) l.
Proof.
  intros H. revert l. induction H as [|x times H IH F]; intros [|y l] L M; try discriminate; [reflexivity|]. cbn [combine filter fst].
  assert (X : (x <=? z) = true) by (apply Z.leb_le, M; left; reflexivity). rewrite X, andb_true_r.
  rewrite Z.leb_antisym. destruct (x <? a) eqn:E; cbn [negb].
  - cbn [List.length skipn]. apply IH; [cbn in L; lia|intros; apply M; right; assumption].
  - apply Z.ltb_ge in E. cbn [map snd]. assert (N : filter (fun t => t <? a) times = []).
    { rewrite Forall_forall in F. clear - F E. induction times as [|t times IHt]; [reflexivity|]. cbn. pose proof (F t (or_introl eq_refl)). replace (t <? a) with false by (symmetry; apply Z.ltb_ge; lia). apply IHt. intros; apply F; right; assumption. }
    rewrite N. cbn [List.length skipn]. f_equal. rewrite IH; [rewrite N; reflexivity|cbn in L; lia|intros; apply M; right; assumption].
Qed.
Lemma last_max (times : list Z) last r : StronglySorted Z.lt times -> rev times = last :: r -> forall t, In t times -> t <= last.
Proof.
  intros S E t I. assert (T : times = rev r ++ [last]) by (rewrite <- (rev_involutive times), E; reflexivity). rewrite T in S, I. clear - S I. revert S I.
  generalize (rev r). induction l as [|x l IH]; cbn; intros S I; [destruct I as [<-|[]]; lia|]. inversion S as [|? ? S' F]; subst. rewrite Forall_forall in F. destruct I as [<-|I]; [|apply IH; assumption].
  apply Z.lt_le_incl, F, in_or_app. right. left. reflexivity.
Qed.
Lemma between_one times c (y : list Q) last r a : StronglySorted Z.lt times -> List.length y = List.length times -> rev times = last :: r ->
  between a last (Frame times [(c, y)]) = Frame (skipn (List.length (filter (fun t => t <? a) times)) times) [(c, skipn (List.length (filter (fun t => t <? a) times)) y)].
Proof.
  intros S L E. pose proof (last_max _ _ _ S E) as M. unfold between. cbn [f_times f_cols map fst snd]. rewrite !keep_suffix by auto. reflexivity.
Qed.
Lemma count_below (times : list Z) (a : Z) (i : nat) : StronglySorted Z.lt times -> (i < List.length times)%nat ->
  (List.length (filter (fun t => (t <? a)%Z) times) <= i)%nat <-> a <= nth i times 0.
Proof.
  intros H. revert i. induction H as [|x times H IH F]; intros i L; [cbn in L; lia|]. cbn [filter]. rewrite Forall_forall in F. destruct (x <? a) eqn:E.
  - apply Z.ltb_lt in E. cbn [List.length]. destruct i as [|i]; cbn [nth]; [lia|]. rewrite <- IH by (cbn in L; lia). lia.
  - apply Z.ltb_ge in E. assert (N : filter (fun t => t <? a) times = []).
    { clear - F E. induction times as [|t times IHt]; [reflexivity|]. cbn. pose proof (F t (or_introl eq_refl)). replace (t <? a) with false by (symmetry; apply Z.ltb_ge; lia). apply IHt. intros; apply F; right; assumption. }
    rewrite N. cbn [List.length]. destruct i as [|i]; cbn [nth]; [lia|]. assert (Li : (i < List.length times)%nat) by (cbn in L; lia). pose proof (F (nth i times 0) (nth_In _ _ Li)). lia.
Qed.
Lemma skipn_add {A} (n m : nat) (l : list A) : skipn n (skipn m l) = skipn (m + n) l.
Proof. revert l. induction m as [|m IH]; intros l; [reflexivity|]. destruct l; [rewrite !skipn_nil; reflexivity|]. apply IH. Qed.
Lemma last_skipn {A} (n : nat) (l : list A) (x z : A) r q : rev l = x :: r -> rev (skipn n l) = z :: q -> x = z.
Proof.
  intros E F. rewrite <- (firstn_skipn n l), rev_app_distr, F in E. cbn in E. congruence.
Qed.
Lemma last_rows_window w x : (1 <= w)%nat -> last_rows w x = window (List.length x - Nat.min w (List.length x)) (Nat.min w (List.length x)) x.
Proof.
  intros Hw. unfold last_rows. replace (w =? 0)%nat with false by (symmetry; apply Nat.eqb_neq; lia).
  apply (nth_ext' _ _ 0%Q); [rewrite skipn_length, window_length; lia|]. intros j Hj. rewrite skipn_length in Hj. rewrite nth_skipn', window_nth by lia. f_equal. lia.
Qed.
(** In the anchor mode a single test is made, at the last time, on the last [w] cleaned points of the
    observations of the last [d] days (fewer if there are fewer). *)
Theorem C122_anchor : forall threshold alpha w d s data st c y last,
  regular data -> (1 <= w)%nat -> f_cols data = [(c, map Some y)] -> nth_error (f_times data) (List.length y - 1) = Some last ->
  statistics init tail crit false threshold alpha w (Some d) s data = Some st ->
  (w <= d <= List.length y)%nat /\
  exists k row sm, st = [row] /\ s_ds row = last /\ s_metrics row = [] /\
    (forall i, (i < List.length y)%nat -> (k <= i)%nat <-> last - Z.of_nat d * 86400000000000 <= nth i (f_times data) 0) /\
    cleaned init s (skipn k y) sm /\
    let v := Nat.min w (List.length sm) in tested tail crit (5 # 100) threshold [window (List.length sm - v) v sm] (s_all row).
Proof.
  intros threshold alpha w d s data st c y last R Hw HC HL H. pose proof (one_length _ _ _ R HC) as LY. unfold statistics in H. cbv zeta in H. rewrite (one_frame _ _ _ HC) in H. cbn [f_times] in H.
  destruct (d <? w)%nat eqn:E1; [discriminate|]. destruct (List.length (f_times data) <? d)%nat eqn:E2; [discriminate|]. apply Nat.ltb_ge in E1, E2. split; [lia|].
  destruct (rev (f_times data)) as [|last' r] eqn:ER; [discriminate|].
  assert (last' = last). { assert (T : f_times data = rev r ++ [last']) by (rewrite <- (rev_involutive (f_times data)), ER; reflexivity). rewrite LY, T, app_length, nth_error_app2 in HL by (cbn; lia). cbn in HL.
    replace (List.length (rev r) + 1 - 1 - List.length (rev r))%nat with 0%nat in HL by lia. cbn in HL. congruence. }
  subst last'. rewrite (between_one _ _ _ _ _ _ (proj1 R) LY ER), smoothing_one in H. set (k := List.length (filter (fun t => t <? last - Z.of_nat d * day) (f_times data))) in *.
  destruct (skipn (lost s) (skipn k (f_times data))) as [|t ts] eqn:ET; [discriminate|]. rewrite <- ET in H.
  destruct (run_detector tail crit false threshold w (Frame (skipn (lost s) (skipn k (f_times data))) [(c, cleaned_col init s (skipn k y))])) as [row|] eqn:RD; [|discriminate]. cbn in H. injection H as <-.
  destruct (run_uni _ _ _ _ _ _ RD) as (c' & EC & (r' & ER') & M & T). cbn [f_cols f_times] in EC, ER'. injection EC as <-. cbn [snd] in T.
  exists k, row, (cleaned_col init s (skipn k y)). split; [reflexivity|]. split; [|split; [exact M|split; [|split; [apply cleaned_ok|]]]].
  - rewrite skipn_add in ER'. symmetry. exact (last_skipn _ _ _ _ _ _ ER ER').
  - intros i Hi. unfold k. rewrite count_below by (try exact (proj1 R); lia). reflexivity.
  - cbv zeta. rewrite <- last_rows_window by exact Hw. exact T.
Qed.
(** The observation at the anchor date itself has no influence on the test made there. *)
Theorem C121_anchor_refuted : forall threshold alpha w d dir s data data' c y v v' last r,
  StronglySorted Z.lt (f_times data) -> List.length (f_times data) = S (List.length y) -> rev (f_times data) = last :: r ->
  f_times data = f_times data' -> f_cols data = [(c, map Some (y ++ [v]))] -> f_cols data' = [(c, map Some (y ++ [v']))] ->
  (lost s + b < List.length (filter (fun t => last - Z.of_nat d * 86400000000000 <=? t)%Z (f_times data)))%nat ->
  detector init tail crit false threshold alpha w (Some d) dir s data = detector init tail crit false threshold alpha w (Some d) dir s data'.
Proof.
  intros threshold alpha w d dir s data data' c y v v' last r SS L ER ET HC HC' B. unfold detector, statistics. cbv zeta. rewrite (one_frame _ _ _ HC), (one_frame _ _ _ HC'), <- ET. cbn [f_times]. rewrite ER.
  assert (LL : forall x : Q, List.length (y ++ [x]) = List.length (f_times data)) by (intros; rewrite app_length; cbn; lia).
  rewrite !(between_one _ _ _ _ _ _ SS (LL _) ER), !smoothing_one.
  set (k := List.length (filter (fun t => (t <? last - Z.of_nat d * day)%Z) (f_times data))).
  assert (K : (k + List.length (filter (fun t => (last - Z.of_nat d * 86400000000000 <=? t)%Z) (f_times data)) = List.length (f_times data))%nat).
  { unfold k. change day with 86400000000000. generalize (last - Z.of_nat d * 86400000000000)%Z. clear. intros a. induction (f_times data) as [|t l IH]; [reflexivity|]. cbn [filter]. rewrite Z.leb_antisym. destruct (t <? a)%Z; cbn [negb List.length]; lia. }
  assert (SK : forall x : Q, skipn k (y ++ [x]) = skipn k y ++ [x]).
  { intros x. rewrite skipn_app. replace (k - List.length y)%nat with 0%nat by lia. reflexivity. }
  rewrite !SK. rewrite (cleaned_last s (skipn k y) v v') by (rewrite skipn_length; lia). reflexivity.
Qed.
(** Observations older than the [d] days are ignored even when the window is not full. *)
Theorem C122_ignored : forall threshold alpha w d dir s data data' c y y' last r,
  regular data -> regular data' -> rev (f_times data) = last :: r -> f_times data = f_times data' ->
  f_cols data = [(c, map Some y)] -> f_cols data' = [(c, map Some y')] ->
  (forall i, last - Z.of_nat d * 86400000000000 <= nth i (f_times data) 0 -> nth i y 0%Q = nth i y' 0%Q) ->
  detector init tail crit false threshold alpha w (Some d) dir s data = detector init tail crit false threshold alpha w (Some d) dir s data'.
Proof.
  intros threshold alpha w d dir s data data' c y y' last r R R' ER ET HC HC' E. pose proof (one_length _ _ _ R HC) as LY. pose proof (one_length _ _ _ R' HC') as LY'. rewrite <- ET in LY'.
  unfold detector, statistics. cbv zeta. rewrite (one_frame _ _ _ HC), (one_frame _ _ _ HC'), <- ET. cbn [f_times]. rewrite ER.
  rewrite (between_one _ _ _ _ _ _ (proj1 R) LY ER), (between_one _ _ _ _ _ _ (proj1 R) LY' ER).
  set (k := List.length (filter (fun t => (t <? last - Z.of_nat d * day)%Z) (f_times data))).
  replace (skipn k y') with (skipn k y); [reflexivity|]. apply (nth_ext' _ _ 0%Q); [rewrite !skipn_length; congruence|]. intros i Hi. rewrite skipn_length in Hi. rewrite !nth_skipn'. apply E.
  apply count_below; [exact (proj1 R)|lia|]. unfold k. change day with 86400000000000. lia.
Qed.
(** With one observation a week, at most one more than a seventh of the window is tested. *)
Theorem C122_weekly_refuted : forall threshold alpha w d s data st c y t0,
  (1 <= w)%nat -> f_times data = map (fun i => t0 + 7 * 86400000000000 * Z.of_nat i) (seq 0 (List.length y)) -> f_cols data = [(c, map Some y)] ->
  statistics init tail crit false threshold alpha w (Some d) s data = Some st ->
  exists row xs, st = [row] /\ tested tail crit (5 # 100) threshold [xs] (s_all row) /\ (List.length xs <= d / 7 + 1)%nat.
Proof.
  intros threshold alpha w d s data st c y t0 Hw HT HC H.
  assert (NT : forall i, (i < List.length y)%nat -> nth i (f_times data) 0 = t0 + 7 * 86400000000000 * Z.of_nat i).
  { intros i Hi. rewrite HT. rewrite (nth_indep _ 0 (t0 + 7 * 86400000000000 * Z.of_nat 0)) by (rewrite map_length, seq_length; exact Hi). rewrite (map_nth (fun i => t0 + 7 * 86400000000000 * Z.of_nat i)), seq_nth by exact Hi. reflexivity. }
  assert (R : regular data).
  { split; [|rewrite HC; intros x [<-|[]]; cbn [snd]; rewrite HT, !map_length, seq_length; reflexivity]. rewrite HT. clear. generalize 0%nat. induction (List.length y) as [|n IH]; intros a; cbn [seq map]; constructor; [apply IH|].
    rewrite Forall_map, Forall_forall. intros j Hj. apply in_seq in Hj. lia. }
  assert (Ly : (0 < List.length y)%nat).
  { destruct y; [|cbn; lia]. exfalso. unfold statistics in H. cbv zeta in H. rewrite (one_frame _ _ _ HC) in H. cbn [f_times] in H. cbn [List.length seq map] in HT. rewrite HT in H. destruct (d <? w)%nat; [discriminate|]. destruct (List.length (@nil Z) <? d)%nat; discriminate. }
  assert (HL : nth_error (f_times data) (List.length y - 1) = Some (t0 + 7 * 86400000000000 * Z.of_nat (List.length y - 1))).
  { rewrite <- NT by lia. apply nth_error_nth'. rewrite HT, map_length, seq_length. lia. }
  destruct (C122_anchor _ _ _ _ _ _ _ _ _ _ R Hw HC HL H) as (B & k & row & sm & E & _ & _ & K & (a & A1 & A2) & T). cbv zeta in T.
  exists row, (window (List.length sm - Nat.min w (List.length sm)) (Nat.min w (List.length sm)) sm). split; [exact E|]. split; [exact T|]. rewrite window_length.
  assert (LS : (List.length sm <= List.length y - k)%nat).
  { destruct A2 as [A2 _]. rewrite A2. destruct s as [s|]; [destruct A1 as [A1 _]; rewrite A1, skipn_length; lia|subst a; rewrite skipn_length; lia]. }
  assert (KB : (List.length y - k <= d / 7 + 1)%nat).
  { destruct (le_lt_dec (List.length y) k); [lia|]. assert (KK := proj1 (K k l) (le_n k)). rewrite NT in KK by lia.
    assert (D : (7 * (List.length y - 1 - k) <= d)%nat) by lia. pose proof (Nat.div_le_mono _ _ 7 ltac:(lia) D) as DM. rewrite Nat.mul_comm, Nat.div_mul in DM by lia. lia. }
  lia.
Qed.
End Causal.

Print Assumptions C121_causal.
Print Assumptions C121_latest_refuted.
Print Assumptions C122_anchor.
Print Assumptions C121_anchor_refuted.
Print Assumptions C122_ignored.
Print Assumptions C122_weekly_refuted.
