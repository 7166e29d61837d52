(** Theorems about the autoregressive forecaster of ml_ar.py: windows (C188), normalisation (C189), training pairs (C191),
    forecasts (C192). *)
From Coq Require Import List Reals Lra Lia Bool Arith.
From Verif Require Import MlarModel.
Import ListNotations.
Open Scope nat_scope.

Lemma pad_nth {A} n (l : list (option A)) i : nth i (pad n l) None = nth i l None.
Proof.
  unfold pad. destruct (Nat.lt_ge_cases i (length l)) as [L|L]; [apply app_nth1; exact L|]. rewrite app_nth2, (nth_overflow l) by exact L. apply nth_repeat.
Qed.
Lemma firstn_nth {A} (d : A) : forall n l i, i < n -> nth i (firstn n l) d = nth i l d.
Proof. induction n as [|n IH]; intros l i H; [lia|]. destruct l as [|x l]; [reflexivity|]. destruct i as [|i]; [reflexivity|]. cbn. apply IH. lia. Qed.
Lemma skipn_nth {A} (d : A) : forall n l i, nth i (skipn n l) d = nth (n + i) l d.
Proof. induction n as [|n IH]; intros l i; [reflexivity|]. destruct l as [|x l]; [destruct i; reflexivity|]. cbn. apply IH. Qed.
Lemma pad_length {A} n (l : list (option A)) : length l <= n -> length (pad n l) = n.
Proof. intros H. unfold pad. rewrite app_length, repeat_length. lia. Qed.
Lemma nth_map_in {A B} (f : A -> B) l i d e : i < length l -> nth i (map f l) d = f (nth i l e).
Proof. intros H. rewrite (nth_indep _ d (f e)) by (rewrite map_length; exact H). apply map_nth. Qed.

(** C188.  Embedding fails only for a series shorter than max_lags - 1; otherwise it has one row per origin, the row of the
    series from max_lags - 1 on.  The row of origin o holds the values of rows o - lags + 1 .. o, then those of
    o + 1 .. o + horizon: column lags - 1 - k is the value k steps before the origin, column lags + h - 1 the one h steps
    after it, NaN beyond the end of the series. *)
Theorem C188_embed : forall (A : Type) (series : list (option A)) lags horizon max_lags, lags <= max_lags -> 1 <= max_lags ->
  (embed series lags horizon max_lags = None <-> length series < max_lags - 1) /\
  (forall rows, embed series lags horizon max_lags = Some rows ->
    length rows = length series + 1 - max_lags /\
    forall o, max_lags <= o + 1 -> o < length series ->
      let r := nth (o + 1 - max_lags) rows [] in
      length r = lags + horizon /\
      (forall k, k < lags -> nth (lags - 1 - k) r None = nth (o - k) series None) /\
      (forall h, 1 <= h <= horizon -> nth (lags + h - 1) r None = nth (o + h) series None)).
Proof.
  intros A series lags horizon m L M. unfold embed. destruct (Nat.ltb_spec (S (length series)) m) as [K|K].
  - split; [split; [intros _; lia|reflexivity]|discriminate].
  - split; [split; [discriminate|lia]|]. intros rows E. injection E as <-. split; [rewrite map_length, seq_length; reflexivity|].
    intros o O1 O2. cbv zeta. rewrite (nth_map_in _ _ _ _ 0) by (rewrite seq_length; lia). rewrite seq_nth by lia. cbn [Nat.add].
    split; [apply pad_length; rewrite firstn_length; lia|]. split; intros k H; rewrite pad_nth, firstn_nth, skipn_nth by lia; f_equal; lia.
Qed.
Example C188_case : embed (map Some [1; 2; 3; 4; 5]) 2 2 3 = Some [[Some 2; Some 3; Some 4; Some 5]; [Some 3; Some 4; Some 5; None]; [Some 4; Some 5; None; None]].
Proof. reflexivity. Qed.

(** C189.  A value survives normalising and denormalising, for every method, as long as default_min is not used and the
    divisor is not zero. *)
Theorem C189_round_trip_partial : forall d m x n n2,
  (m = Div -> n <> 0%R) -> (m = SubDiv -> n2 <> 0%R) ->
  denormalize false d m (normalize false d m (Some x) (Some n) (Some n2)) (Some n) (Some n2) = Some x.
Proof.
  intros d m x n n2 H1 H2. destruct m; cbn.
  - f_equal. lra.
  - destruct (Req_EM_T n 0) as [E|E]; [destruct (H1 eq_refl E)|]. cbn. f_equal. field. exact E.
  - destruct (Req_EM_T n2 0) as [E|E]; [destruct (H2 eq_refl E)|]. cbn. f_equal. field. exact E.
Qed.
(** With default_min it does not: subtraction loses twice default_min; division around a window of mean zero, the case
    default_min is for, turns the sign of the value round. *)
Theorem C189_default_min_refuted : forall d, (0 < d < 1)%R ->
  (forall x n n2, denormalize true d Sub (normalize true d Sub (Some x) (Some n) (Some n2)) (Some n) (Some n2) = Some (x - 2 * d)%R) /\
  (forall x n2, (0 < x)%R -> exists y, denormalize true d Div (normalize true d Div (Some x) (Some 0%R) n2) (Some 0%R) n2 = Some y /\ (y < - x)%R) /\
  (forall x n n2, (n + d <> 0)%R -> denormalize true d Div (normalize true d Div (Some x) (Some n) n2) (Some n) n2 = Some (((x + d) / (n + d) - d) * (n - d))%R).
Proof.
  intros d D. split; [|split].
  - intros x n n2. cbn. f_equal. lra.
  - intros x n2 X. cbn. destruct (Req_EM_T (0 + d) 0) as [E|E]; [lra|]. cbn. eexists. split; [reflexivity|].
    replace (((x + d) / (0 + d) - d) * (0 - d))%R with (- x - d * (1 - d))%R by (field; lra). assert (0 < d * (1 - d))%R by (apply Rmult_lt_0_compat; lra). lra.
  - intros x n n2 H. cbn. destruct (Req_EM_T (n + d) 0) as [E|E]; [contradiction|]. reflexivity.
Qed.
Example C189_case : denormalize true 1 Div (normalize true 1 Div (Some 5%R) (Some 1%R) None) (Some 1%R) None = Some 0%R.
Proof. cbn. destruct (Req_EM_T (1 + 1) 0) as [E|E]; [lra|]. cbn. f_equal. lra. Qed.

(** ** Training pairs *)
(** the cells of rows o - w + 1 .. o of a series *)
Definition lag_cells (w : nat) (series : list cell) (o : nat) : list cell := map (fun k => nth (o + 1 + k - w) series None) (seq 0 w).
Lemma embed_row (series : list cell) w hz m rows o : embed series w hz m = Some rows -> w <= m -> 1 <= m -> m <= o + 1 -> o < length series ->
  firstn w (nth (o + 1 - m) rows []) = lag_cells w series o /\
  forall h, 1 <= h <= hz -> nth (h - 1) (skipn w (nth (o + 1 - m) rows [])) None = nth (o + h) series None.
Proof.
  intros E L M O1 O2. destruct (C188_embed _ series w hz m L M) as [_ H]. destruct (H rows E) as [LR H']. destruct (H' o O1 O2) as (LE & HL & HO). split.
  - apply (nth_ext _ _ None None); [unfold lag_cells; rewrite firstn_length, map_length, seq_length, LE; lia|].
    intros i I. rewrite firstn_length, LE in I. rewrite firstn_nth by lia. unfold lag_cells. rewrite (nth_map_in _ _ _ _ 0) by (rewrite seq_length; lia). rewrite seq_nth by lia. cbn [Nat.add].
    specialize (HL (w - 1 - i) ltac:(lia)). replace (w - 1 - (w - 1 - i)) with i in HL by lia. rewrite HL. f_equal. lia.
  - intros h B. rewrite skipn_nth. specialize (HO h B). replace (w + (h - 1)) with (w + h - 1) by lia. exact HO.
Qed.
Lemma in_combine_seq {A} (d : A) (l : list A) j x : In (j, x) (combine (seq 0 (length l)) l) <-> j < length l /\ x = nth j l d.
Proof.
  split.
  - intros I. apply (In_nth _ _ (0, d)) in I as (i & L & E). rewrite combine_length, seq_length, Nat.min_id in L. rewrite combine_nth in E by apply seq_length.
    rewrite seq_nth in E by exact L. injection E as <- <-. cbn. split; [exact L|reflexivity].
  - intros [L ->]. replace (j, nth j l d) with (nth j (combine (seq 0 (length l)) l) (0, d)); [apply nth_In; rewrite combine_length, seq_length; lia|].
    rewrite combine_nth by apply seq_length. rewrite seq_nth by exact L. reflexivity.
Qed.
Lemma max_lags_ge p : input_window p <= max_lags p.
Proof. unfold max_lags. induction (hist_windows p) as [|w l IH]; cbn; lia. Qed.
Lemma max_horizon_ge p h : In h (horizons p) -> h <= max_horizon p.
Proof. unfold max_horizon. induction (horizons p) as [|x l IH]; cbn; [tauto|]. intros [->|I]; [lia|]. specialize (IH I). lia. Qed.
Definition norm_cell (p : params) (lags : list cell) (c : cell) : cell :=
  normalize (use_default_min p) (default_min p) (method_of p) c (fst (normalizers (stat p) (norm_window p) lags)) (snd (normalizers (stat p) (norm_window p) lags)).

(** C191.  What a regressor is trained on: one pair for every origin with max_lags rows behind it and every horizon whose
    outcome was observed (and has a normalised value); the features are the normalised last input_window values up to the
    origin, their statistics, and what does not depend on the target. *)
Theorem C191_pairs : forall other p s series t, 1 <= input_window p -> (forall h, In h (horizons p) -> 1 <= h) ->
  pairs other p s series = Some t ->
  let x := transform p (trim series) in
  forall f y, In (f, y) t <->
    exists o h, In h (horizons p) /\ max_lags p <= o + 1 /\ o < length x /\
      let lags := lag_cells (input_window p) x o in
      norm_cell p lags (nth (o + h) x None) = Some y /\
      f = map (norm_cell p lags) lags ++ window_stats p (map (norm_cell p lags) lags) ++ other s o h ++ [Some (INR h)].
Proof.
  intros other p s series t W HP E x f y. unfold pairs in E. fold x in E.
  destruct (embed x (input_window p) (max_horizon p) (max_lags p)) as [rows|] eqn:B; [|discriminate]. injection E as <-.
  pose proof (max_lags_ge p) as ML. assert (LR : length rows = length x + 1 - max_lags p).
  { destruct (C188_embed _ x (input_window p) (max_horizon p) (max_lags p) ML ltac:(lia)) as [_ H]. apply (H rows B). }
  rewrite in_flat_map. split.
  - intros (h & IH & I). rewrite in_flat_map in I. destruct I as ([j r] & IJ & I). apply (in_combine_seq []) in IJ as [LJ ->]. cbn [fst snd] in I.
    set (o := j + (max_lags p - 1)) in *. exists o, h. split; [exact IH|]. split; [unfold o; lia|]. split; [unfold o; lia|]. cbv zeta.
    destruct (embed_row x _ _ _ rows o B ML ltac:(lia) ltac:(unfold o; lia) ltac:(unfold o; lia)) as [EL EO].
    replace (o + 1 - max_lags p) with j in EL, EO by (unfold o; lia). unfold normal_row in I. rewrite EL in I.
    specialize (HP h IH). pose proof (max_horizon_ge p h IH) as HM.
    rewrite (nth_map_in _ _ _ _ None) in I.
    2:{ rewrite skipn_length. destruct (C188_embed _ x (input_window p) (max_horizon p) (max_lags p) ML ltac:(lia)) as [_ H]. destruct (H rows B) as [_ H'].
        destruct (H' o ltac:(unfold o; lia) ltac:(unfold o; lia)) as [LN _]. replace (o + 1 - max_lags p) with j in LN by (unfold o; lia). rewrite LN. lia. }
    rewrite EO in I by lia. fold (norm_cell p (lag_cells (input_window p) x o) (nth (o + h) x None)) in I.
    destruct (norm_cell p (lag_cells (input_window p) x o) (nth (o + h) x None)) as [v|]; [|destruct I]. destruct I as [I|[]]. injection I as <- <-. split; reflexivity.
  - intros (o & h & IH & O1 & O2 & EY & ->). exists h. split; [exact IH|]. rewrite in_flat_map. exists (o + 1 - max_lags p, nth (o + 1 - max_lags p) rows []).
    split; [apply (proj2 (in_combine_seq [] rows _ _)); split; [lia|reflexivity]|]. cbn [fst snd].
    destruct (embed_row x _ _ _ rows o B ML ltac:(lia) O1 O2) as [EL EO]. unfold normal_row. rewrite EL. specialize (HP h IH). pose proof (max_horizon_ge p h IH) as HM.
    rewrite (nth_map_in _ _ _ _ None).
    2:{ rewrite skipn_length. destruct (C188_embed _ x (input_window p) (max_horizon p) (max_lags p) ML ltac:(lia)) as [_ H]. destruct (H rows B) as [_ H'].
        destruct (H' o O1 O2) as [LN _]. rewrite LN. lia. }
    rewrite EO by lia. fold (norm_cell p (lag_cells (input_window p) x o) (nth (o + h) x None)). rewrite EY. left. f_equal. unfold features.
    replace (o + 1 - max_lags p + (max_lags p - 1)) with o by lia. reflexivity.
Qed.

(** ** Forecasts *)
Lemma window_length k l : length (window k l) = k.
Proof. unfold window. rewrite app_length, repeat_length, skipn_length. lia. Qed.
Lemma transform_length p l : length (transform p l) = length l.
Proof. unfold transform. destruct (log_data p); [apply map_length|reflexivity]. Qed.
Lemma transform_nth p l i : nth i (transform p l) None = if log_data p then log_cell (nth i l None) else nth i l None.
Proof. unfold transform. destruct (log_data p); [|reflexivity]. exact (map_nth log_cell l None i). Qed.
Lemma window_nth k l i : length l <= i + k -> i < length l -> nth (i + k - length l) (window k l) None = nth i l None.
Proof.
  intros H I. unfold window. destruct (Nat.le_gt_cases (length l) k) as [L|L].
  - rewrite app_nth2 by (rewrite repeat_length; lia). rewrite repeat_length, skipn_nth. f_equal. lia.
  - replace (k - length l) with 0 by lia. cbn [repeat app]. rewrite skipn_nth. f_equal. lia.
Qed.
(** C192.  A forecast is what the regressor says about the features of the last valid row, made as those it was trained on
    (C191), denormalised with the normalizers of that row, and exponentiated if the data were logged. *)
Theorem C192_forecast : forall other p predictor s series h,
  let x := transform p (trim series) in let o := length x - 1 in
  1 <= input_window p <= length x ->
  let lags := lag_cells (input_window p) x o in
  let n := normalizers (stat p) (norm_window p) lags in
  let f := map (norm_cell p lags) lags ++ window_stats p (map (norm_cell p lags) lags) ++ other s o h ++ [Some (INR h)] in
  let y := denormalize (use_default_min p) (default_min p) (method_of p) (Some (predictor f)) (fst n) (snd n) in
  forecast_at other p predictor s series h = if log_data p then option_map exp y else y.
Proof.
  intros other p predictor s series h x o W. cbv zeta. unfold forecast_at. set (t := trim series) in *.
  pose proof (max_lags_ge p) as ML. assert (LX : length x = length t) by apply transform_length.
  set (v := transform p (window (max_lags p) t)) in *. assert (LV : length v = max_lags p) by (unfold v; rewrite transform_length; apply window_length).
  destruct (C188_embed _ v (input_window p) (max_horizon p) (max_lags p) ML ltac:(lia)) as [N H].
  destruct (embed v (input_window p) (max_horizon p) (max_lags p)) as [rows|] eqn:B.
  2:{ exfalso. destruct N as [N _]. specialize (N eq_refl). lia. }
  destruct (H rows eq_refl) as [LR _]. rewrite LV in LR. replace (max_lags p + 1 - max_lags p) with 1 in LR by lia.
  destruct rows as [|r [|r' rows]]; try discriminate.
  destruct (embed_row v _ _ _ [r] (max_lags p - 1) B ML ltac:(lia) ltac:(lia) ltac:(lia)) as [EL _].
  replace (max_lags p - 1 + 1 - max_lags p) with 0 in EL by lia. cbn [nth] in EL. unfold normal_row. rewrite EL.
  replace (lag_cells (input_window p) v (max_lags p - 1)) with (lag_cells (input_window p) x o).
  - unfold features. replace (length t - 1) with o by (unfold o; lia). reflexivity.
  - unfold lag_cells. apply map_ext_in. intros k K. apply in_seq in K. unfold v, o, x. rewrite !transform_nth, transform_length.
    rewrite <- (window_nth (max_lags p) t (length t - 1 + 1 + k - input_window p)) by lia.
    replace (length t - 1 + 1 + k - input_window p + max_lags p - length t) with (max_lags p - 1 + 1 + k - input_window p) by lia. reflexivity.
Qed.
(** So a regressor that is right about the normalised outcome gives the right forecast, if default_min is not used. *)
Theorem C192_exact_partial : forall other p predictor s series h v,
  let x := transform p (trim series) in
  1 <= input_window p <= length x -> use_default_min p = false -> (log_data p = true -> 0 < v)%R ->
  (forall f, norm_cell p (lag_cells (input_window p) x (length x - 1)) (Some (if log_data p then ln v else v)) = Some (predictor f)) ->
  forecast_at other p predictor s series h = Some v.
Proof.
  intros other p predictor s series h v x W U P H. pose proof (C192_forecast other p predictor s series h W) as F. cbv zeta in F. rewrite F. clear F. fold x.
  match goal with |- context [Some (predictor ?f)] => specialize (H f); rewrite <- H end.
  unfold norm_cell in *. set (w := if log_data p then ln v else v) in *. set (n := normalizers (stat p) (norm_window p) (lag_cells (input_window p) x (length x - 1))) in *.
  rewrite U in *. assert (D : denormalize false (default_min p) (method_of p) (normalize false (default_min p) (method_of p) (Some w) (fst n) (snd n)) (fst n) (snd n) = Some w).
  { destruct n as [[a|] b]; cbn [fst snd] in *; [|destruct (method_of p); cbn in H; discriminate].
    destruct (method_of p) eqn:M.
    - cbn. f_equal. lra.
    - apply (C189_round_trip_partial (default_min p) Div w a 0%R); [intros _ ->|discriminate]. cbn in H. destruct (Req_EM_T 0 0); [discriminate|congruence].
    - destruct b as [b|]; [|discriminate H]. apply C189_round_trip_partial; [discriminate|intros _ ->]. cbn in H. destruct (Req_EM_T 0 0); [discriminate|congruence]. }
  rewrite D. unfold w. destruct (log_data p); [cbn; rewrite exp_ln by (apply P; reflexivity)|]; reflexivity.
Qed.
Definition case_params : params :=
  {| horizons := [1; 3]; input_window := 2; norm_window := 2; stat := Mean; how := Sub; use_default_min := false; default_min := 0;
     sum_stats := false; hist_windows := [3]; log_data := false |}.
Example C191_case : exists t, pairs (fun _ _ _ => []) case_params 0 (map Some [9; 2; 4; 8; 1; 5]%R ++ [None]) = Some t /\
  length t = 4 /\ In ([Some (-1); Some 1; Some (INR 3)]%R, 2%R) t.
Proof.
  eexists. split; [reflexivity|]. split; [reflexivity|]. cbn. right. right. right. left. f_equal; [|lra]. f_equal; [f_equal; lra|]. f_equal. f_equal. lra.
Qed.
(** Refuted: that this holds with default_min: with the difference as normalisation, a regressor that is right about the
    normalised outcome gives a forecast too low by twice default_min. *)
Theorem C192_default_min_refuted : forall other p predictor s series h v,
  let x := transform p (trim series) in
  1 <= input_window p <= length x -> use_default_min p = true -> log_data p = false -> method_of p = Sub -> (0 < default_min p)%R ->
  (forall f, norm_cell p (lag_cells (input_window p) x (length x - 1)) (Some v) = Some (predictor f)) ->
  forecast_at other p predictor s series h = Some (v - 2 * default_min p)%R /\ (v - 2 * default_min p)%R <> v.
Proof.
  intros other p predictor s series h v x W U LG M D H. split; [|lra]. pose proof (C192_forecast other p predictor s series h W) as F. cbv zeta in F. rewrite F. clear F. fold x.
  match goal with |- context [Some (predictor ?f)] => specialize (H f); rewrite <- H end. rewrite LG.
  unfold norm_cell in *. set (n := normalizers (stat p) (norm_window p) (lag_cells (input_window p) x (length x - 1))) in *.
  rewrite U, M in *. destruct n as [[a|] b]; cbn [fst snd] in *; [|cbn in H; discriminate]. cbn. f_equal. lra.
Qed.
Example C192_case : forecast_at (fun _ _ _ => []) case_params (fun f => 7%R) 0 (map Some [9; 2; 4; 8; 1; 5]%R ++ [None]) 3 = Some 10%R.
Proof. cbn. f_equal. lra. Qed.

Print Assumptions C188_embed.
Print Assumptions C189_round_trip_partial.
Print Assumptions C189_default_min_refuted.
Print Assumptions C191_pairs.
Print Assumptions C192_forecast.
Print Assumptions C192_exact_partial.

Print Assumptions C192_default_min_refuted.
