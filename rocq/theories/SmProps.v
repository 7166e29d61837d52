(** SARIMA, ARIMA and VAR. *)
From Coq Require Import List ZArith Reals Bool Arith Lia Lra.
From Verif Require Import OutlierModel HeuristicModel HeuristicSpec HeuristicProps RegProps StlfModel StlfProps SmModel.
Import ListNotations.
Open Scope nat_scope.

Definition no_row : row := {| r_time := 0; r_fcst := None; r_lower := None; r_upper := None |}.
Lemma make_spec times fcst lower upper : length fcst = length times -> length lower = length times -> length upper = length times ->
  exists rows, make_rows times fcst lower upper = Some rows /\ length rows = length times /\
    forall i, i < length times -> nth i rows no_row = {| r_time := nth i times 0%Z; r_fcst := nth i fcst None; r_lower := nth i lower None; r_upper := nth i upper None |}.
Proof.
  unfold cell in *. intros L1 L2 L3. unfold make_rows, cell. rewrite L1, L2, L3, !Nat.eqb_refl. cbn [andb]. eexists. split; [reflexivity|]. split; [rewrite map_length, !combine_length; lia|]. intros i Hi. set (g := fun q : Z * option R * option R * option R => _).
  rewrite (nth_indep _ no_row (g (0%Z, None, None, None))) by (rewrite map_length, !combine_length; lia). rewrite (map_nth g). rewrite combine_nth by (rewrite !combine_length; lia). rewrite combine_nth by (rewrite !combine_length; lia). rewrite combine_nth by lia. reflexivity.
Qed.
Lemma make_none times fcst lower upper : length fcst <> length times -> make_rows times fcst lower upper = None.
Proof. intros L. unfold make_rows. destruct (Nat.eqb_spec (length times) (length fcst)); [lia|reflexivity]. Qed.
Lemma blank_spec k rows i : i < length rows -> length (blank k rows) = length rows /\
  nth i (blank k rows) no_row = if i <=? k then {| r_time := r_time (nth i rows no_row); r_fcst := None; r_lower := None; r_upper := None |} else nth i rows no_row.
Proof.
  intros Hi. unfold blank. split; [rewrite map_length, combine_length, seq_length; lia|]. set (g := fun q : nat * row => _). rewrite (nth_indep _ no_row (g (0, no_row))) by (rewrite map_length, combine_length, seq_length; lia). rewrite (map_nth g), combine_nth by apply seq_length. rewrite seq_nth by exact Hi. reflexivity.
Qed.
Lemma filter_le {A} (f : A -> bool) l : length (filter f l) <= length l.
Proof. induction l as [|a l IH]; [cbn; lia|]. cbn [filter length]. destruct (f a); cbn; lia. Qed.
Lemma some_value (l : list cell) : (exists c, In c l /\ c <> None) -> length (filter is_nan l) < length l.
Proof.
  intros (c & Ic & NC). induction l as [|a l IH]; [destruct Ic|]. pose proof (filter_le is_nan l). cbn [filter length]. destruct Ic as [->|I]; [destruct c; [cbn; lia|contradiction]|]. specialize (IH I). destruct (is_nan a); cbn; lia.
Qed.
Lemma nth_map_pair {A B} (f : A -> B) l i d e : f e = d -> nth i (map f l) d = f (nth i l e).
Proof. intros <-. apply map_nth. Qed.

Section Grid.
Variable roll next : Z -> Z.
Hypothesis next_later : forall t, (t < next t)%Z.

(** ** C184: SARIMA *)
Section Sarima.
Variable ahead_mean : nat -> list cell.
Variable ahead_ci : R -> nat -> list (cell * cell).
Variable hist_mean : list cell.
Variable hist_ci : R -> list (cell * cell).
Hypothesis ahead_len : forall n, length (ahead_mean n) = n.
Hypothesis ci_len : forall a n, length (ahead_ci a n) = n.
Notation predict := (sarima_predict roll next ahead_mean ahead_ci hist_mean hist_ci).
Definition none2 : cell * cell := (None, None).
(** Without history there is one row per step at the grid times after the data, with the forecast and the bounds of the
    fitted model at the level asked for. *)
Theorem C184_rows : forall o alpha steps times last,
  In last times -> (forall t, In t times -> (t <= last)%Z) -> roll last = last -> steps <> 0 ->
  (exists c, In c (ahead_mean steps) /\ c <> None) -> cell_ltb (fst (nth 0 (ahead_ci alpha steps) none2)) (snd (nth 0 (ahead_ci alpha steps) none2)) = true ->
  exists rows, predict o alpha false steps times = Some rows /\ length rows = steps /\ forall i, i < steps ->
    nth i rows no_row = {| r_time := after next (S i) last; r_fcst := nth i (ahead_mean steps) None; r_lower := fst (nth i (ahead_ci alpha steps) none2); r_upper := snd (nth i (ahead_ci alpha steps) none2) |}.
Proof.
  intros o alpha steps times last IL ML RL NS HC FO. unfold sarima_predict. cbv zeta. assert (NB : length (filter is_nan (ahead_mean steps)) <> steps).
  { pose proof (ahead_len steps). pose proof (some_value _ HC). lia. }
  apply Nat.eqb_neq in NB. rewrite NB. destruct (ahead_ci alpha steps) as [|f ci] eqn:EC; [pose proof (ci_len alpha steps) as L; rewrite EC in L; cbn in L; lia|]. cbn [nth] in FO. rewrite FO. rewrite <- EC. rewrite (last_ok times last IL ML), future_on by assumption.
  destruct (make_spec (map (fun i => after next (S i) last) (seq 0 steps)) (ahead_mean steps) (map fst (ahead_ci alpha steps)) (map snd (ahead_ci alpha steps))) as (rows & E & L & F); [rewrite ?map_length, ?seq_length, ?ahead_len, ?ci_len; reflexivity..|].
  exists rows. split; [exact E|]. rewrite map_length, seq_length in L. split; [exact L|]. intros i Hi. rewrite F by (rewrite map_length, seq_length; exact Hi). rewrite nth_map_seq by exact Hi. rewrite (nth_map_pair fst _ i None none2 eq_refl), (nth_map_pair snd _ i None none2 eq_refl). reflexivity.
Qed.
(** C184 (partial): with history there is one row per observation before them. Rows [0..k] are blanked, for the [k] of the
    orders; all later rows have their values, those of the future with the bounds asked for. *)
Theorem C184_history_partial : forall o alpha steps times last,
  In last times -> (forall t, In t times -> (t <= last)%Z) -> roll last = last -> steps <> 0 ->
  (exists c, In c (ahead_mean steps) /\ c <> None) -> cell_ltb (fst (nth 0 (ahead_ci alpha steps) none2)) (snd (nth 0 (ahead_ci alpha steps) none2)) = true ->
  length hist_mean = length times -> (forall a, length (hist_ci a) = length times) ->
  let k := Nat.max (o_p o) (Nat.max (o_d o) (o_q o)) + Nat.max (s_p o) (Nat.max (s_d o) (s_q o)) * s_m o + 1 in
  exists rows, predict o alpha true steps times = Some rows /\ length rows = length times + steps /\
    (forall x, x < length times -> r_time (nth x rows no_row) = nth x times 0%Z /\ (k < x -> r_fcst (nth x rows no_row) = nth x hist_mean None)) /\
    (forall i, i < steps -> r_time (nth (length times + i) rows no_row) = after next (S i) last /\
       (k < length times + i -> nth (length times + i) rows no_row = {| r_time := after next (S i) last; r_fcst := nth i (ahead_mean steps) None; r_lower := fst (nth i (ahead_ci alpha steps) none2); r_upper := snd (nth i (ahead_ci alpha steps) none2) |})) /\
    (forall x, x <= k -> x < length times + steps -> r_fcst (nth x rows no_row) = None /\ r_lower (nth x rows no_row) = None /\ r_upper (nth x rows no_row) = None).
Proof.
  intros o alpha steps times last IL ML RL NS HC FO LH LC k. unfold sarima_predict. cbv zeta. assert (NB : length (filter is_nan (ahead_mean steps)) <> steps).
  { pose proof (ahead_len steps). pose proof (some_value _ HC). lia. }
  apply Nat.eqb_neq in NB. rewrite NB. destruct (ahead_ci alpha steps) as [|f ci] eqn:EC; [pose proof (ci_len alpha steps) as L; rewrite EC in L; cbn in L; lia|]. cbn [nth] in FO. rewrite FO. rewrite <- EC. rewrite (last_ok times last IL ML), future_on by assumption. set (dates := map _ (seq 0 steps)). assert (LD : length dates = steps) by (unfold dates; rewrite map_length, seq_length; reflexivity).
  destruct (make_spec (times ++ dates) (hist_mean ++ ahead_mean steps) (map fst (hist_ci (5 / 100)%R) ++ map fst (ahead_ci alpha steps)) (map snd (hist_ci (5 / 100)%R) ++ map snd (ahead_ci alpha steps))) as (rows & E & L & F); [rewrite ?app_length, ?map_length, ?ahead_len, ?ci_len, ?LC, ?LH, ?LD; reflexivity..|].
  rewrite E. cbn [option_map]. rewrite app_length, LD in L. assert (B : forall i, i < length times + steps -> nth i (blank (blank_k o) rows) no_row = if i <=? k then {| r_time := r_time (nth i rows no_row); r_fcst := None; r_lower := None; r_upper := None |} else nth i rows no_row) by (intros i Hi; apply blank_spec; lia).
  eexists. split; [reflexivity|]. split; [destruct steps; [lia|]; rewrite (proj1 (blank_spec (blank_k o) rows 0 ltac:(lia))); exact L|].
  assert (FF : forall i, i < length times + steps -> nth i rows no_row = {| r_time := nth i (times ++ dates) 0%Z; r_fcst := nth i (hist_mean ++ ahead_mean steps) None; r_lower := nth i (map fst (hist_ci (5 / 100)%R) ++ map fst (ahead_ci alpha steps)) None; r_upper := nth i (map snd (hist_ci (5 / 100)%R) ++ map snd (ahead_ci alpha steps)) None |}) by (intros i Hi; apply F; rewrite app_length, LD; exact Hi).
  split; [|split].
  - intros x Hx. rewrite B, FF by lia. rewrite (app_nth1 times) by exact Hx. split; [destruct (x <=? k); reflexivity|]. intros K. destruct (Nat.leb_spec x k); [lia|]. cbn [r_fcst]. rewrite app_nth1 by lia. reflexivity.
  - intros i Hi. rewrite B, FF by lia. rewrite (app_nth2 times) by lia. replace (length times + i - length times) with i by lia. unfold dates. rewrite nth_map_seq by exact Hi. split; [destruct (length times + i <=? k); reflexivity|]. intros K. destruct (Nat.leb_spec (length times + i) k); [lia|].
    rewrite !app_nth2 by (rewrite ?map_length, ?LC, ?LH; lia). rewrite !map_length, LC, LH. replace (length times + i - length times) with i by lia. rewrite (nth_map_pair fst _ i None none2 eq_refl), (nth_map_pair snd _ i None none2 eq_refl). reflexivity.
  - intros x Hx Hx'. rewrite B by exact Hx'. apply Nat.leb_le in Hx. rewrite Hx. repeat split.
Qed.
(** So when the data are no longer than [k], forecasts of the future are blanked too: asking for the history changes
    them to NaN. *)
Theorem C184_blank_refuted : forall o alpha steps times last,
  In last times -> (forall t, In t times -> (t <= last)%Z) -> roll last = last -> steps <> 0 ->
  (exists c, In c (ahead_mean steps) /\ c <> None) -> cell_ltb (fst (nth 0 (ahead_ci alpha steps) none2)) (snd (nth 0 (ahead_ci alpha steps) none2)) = true ->
  length hist_mean = length times -> (forall a, length (hist_ci a) = length times) ->
  length times <= Nat.max (o_p o) (Nat.max (o_d o) (o_q o)) + Nat.max (s_p o) (Nat.max (s_d o) (s_q o)) * s_m o + 1 ->
  exists rows rows', predict o alpha false steps times = Some rows /\ predict o alpha true steps times = Some rows' /\
    r_time (nth 0 rows no_row) = r_time (nth (length times) rows' no_row) /\ r_fcst (nth 0 rows no_row) = nth 0 (ahead_mean steps) None /\ r_fcst (nth (length times) rows' no_row) = None.
Proof.
  intros o alpha steps times last IL ML RL NS HC FO LH LC K. destruct (C184_rows o alpha steps times last IL ML RL NS HC FO) as (rows & E & L & F). destruct (C184_history_partial o alpha steps times last IL ML RL NS HC FO LH LC) as (rows' & E' & L' & _ & F' & B). exists rows, rows'. split; [exact E|]. split; [exact E'|]. rewrite F by lia. destruct (F' 0 ltac:(lia)) as [T' _]. rewrite Nat.add_0_r in T'. rewrite T'. split; [reflexivity|]. split; [reflexivity|]. apply B; lia.
Qed.
(** The bounds of the history do not depend on alpha. *)
Theorem C184_alpha_refuted : forall o alpha alpha' steps times last rows rows',
  In last times -> (forall t, In t times -> (t <= last)%Z) -> roll last = last -> length hist_mean = length times -> (forall a, length (hist_ci a) = length times) ->
  predict o alpha true steps times = Some rows -> predict o alpha' true steps times = Some rows' -> firstn (length times) rows = firstn (length times) rows'.
Proof.
  intros o alpha alpha' steps times last rows rows' IL ML RL LH LC E E'. unfold sarima_predict in E, E'. cbv zeta in E, E'. destruct (_ =? steps); [discriminate|].
  destruct (ahead_ci alpha steps) as [|f ci] eqn:EC; [discriminate|]. destruct (ahead_ci alpha' steps) as [|f' ci'] eqn:EC'; [discriminate|]. rewrite <- EC in E. rewrite <- EC' in E'.
  set (lu := if cell_ltb (fst f) (snd f) then _ else _) in E. set (lu' := if cell_ltb (fst f') (snd f') then _ else _) in E'.
  assert (LL : length (fst lu) = steps /\ length (snd lu) = steps) by (unfold lu; destruct (cell_ltb (fst f) (snd f)); cbn; rewrite !map_length, ci_len; auto).
  assert (LL' : length (fst lu') = steps /\ length (snd lu') = steps) by (unfold lu'; destruct (cell_ltb (fst f') (snd f')); cbn; rewrite !map_length, ci_len; auto).
  destruct lu as [lo up]. destruct lu' as [lo' up']. cbn [fst snd] in LL, LL'. destruct LL as [L1 L2]. destruct LL' as [L1' L2'].
  rewrite (last_ok times last IL ML), future_on in E, E' by assumption. set (dates := map _ (seq 0 steps)) in *. assert (LD : length dates = steps) by (unfold dates; rewrite map_length, seq_length; reflexivity).
  destruct (make_spec (times ++ dates) (hist_mean ++ ahead_mean steps) (map fst (hist_ci (5 / 100)%R) ++ lo) (map snd (hist_ci (5 / 100)%R) ++ up)) as (r & R1 & R2 & R3); [rewrite ?app_length, ?map_length, ?ahead_len, ?LC, ?LH, ?LD, ?L1, ?L2; reflexivity..|].
  destruct (make_spec (times ++ dates) (hist_mean ++ ahead_mean steps) (map fst (hist_ci (5 / 100)%R) ++ lo') (map snd (hist_ci (5 / 100)%R) ++ up')) as (r' & R1' & R2' & R3'); [rewrite ?app_length, ?map_length, ?ahead_len, ?LC, ?LH, ?LD, ?L1', ?L2'; reflexivity..|].
  rewrite R1 in E. rewrite R1' in E'. cbn [option_map] in E, E'. injection E as <-. injection E' as <-. rewrite app_length, LD in R2, R2', R3, R3'.
  assert (LT : length times <> 0) by (destruct times; [destruct IL|discriminate]).
  pose proof (proj1 (blank_spec (blank_k o) r 0 ltac:(lia))) as LB. pose proof (proj1 (blank_spec (blank_k o) r' 0 ltac:(lia))) as LB'.
  apply nth_ext with (d := no_row) (d' := no_row); rewrite ?firstn_length, ?LB, ?LB'; [lia|]. intros i Hi. rewrite !nth_firstn' by lia. rewrite (proj2 (blank_spec (blank_k o) r i ltac:(lia))), (proj2 (blank_spec (blank_k o) r' i ltac:(lia))). rewrite R3, R3' by lia. rewrite !(app_nth1 (map _ _)) by (rewrite map_length, LC; lia). reflexivity.
Qed.
End Sarima.

(** ** C185: ARIMA *)
Section Arima.
Variable fitted : Type.
Variable sm_fit : option trend -> fitted.
Variable sm_frame : fitted -> R -> nat -> list (cell * cell * cell).
Hypothesis frame_len : forall f a n, length (sm_frame f a n) = n.
Definition none3 : cell * cell * cell := (None, None, None).
Notation predict := (arima_predict roll next fitted sm_frame).
(** C185 (partial): one row per step, with the forecast and the bounds at the level 0.05 of the model without a trend
    argument. *)
Theorem C185_rows_partial : forall t alpha steps times last,
  In last times -> (forall t, In t times -> (t <= last)%Z) -> roll last = last ->
  exists rows, predict (arima_fit fitted sm_fit (Some t)) alpha steps times = Some rows /\ length rows = steps /\ forall i, i < steps ->
    let c := nth i (sm_frame (sm_fit None) (5 / 100)%R steps) none3 in
    nth i rows no_row = {| r_time := after next (S i) last; r_fcst := fst (fst c); r_lower := snd (fst c); r_upper := snd c |}.
Proof.
  intros t alpha steps times last IL ML RL. cbn [arima_fit arima_predict]. rewrite (last_ok times last IL ML), future_on by assumption. set (frame := sm_frame _ _ _). assert (LF : length frame = steps) by apply frame_len.
  destruct (make_spec (map (fun i => after next (S i) last) (seq 0 steps)) (map (fun q => fst (fst q)) frame) (map (fun q => snd (fst q)) frame) (map snd frame)) as (rows & E & L & F); [rewrite ?map_length, ?seq_length; auto..|].
  exists rows. split; [exact E|]. rewrite map_length, seq_length in L, F. split; [exact L|]. intros i Hi. cbv zeta. rewrite F by exact Hi. rewrite nth_map_seq by exact Hi. rewrite (nth_map_pair (fun q => fst (fst q)) frame i None none3 eq_refl), (nth_map_pair (fun q => snd (fst q)) frame i None none3 eq_refl), (nth_map_pair snd frame i None none3 eq_refl). reflexivity.
Qed.
(** Neither the trend given to fit nor the alpha given to predict has any effect. *)
Theorem C185_ignored_refuted : forall t t' alpha alpha' steps times,
  predict (arima_fit fitted sm_fit (Some t)) alpha steps times = predict (arima_fit fitted sm_fit (Some t')) alpha' steps times.
Proof. reflexivity. Qed.
End Arima.

(** ** C186: VAR *)
Section Var.
Variable ahead : R -> nat -> list (cell * cell * cell).
Variable fittedvalues : list cell.
Hypothesis ahead_len : forall a n, length (ahead a n) = n.
Notation predict := (var_predict roll next ahead fittedvalues).
Lemma tail_grid t n i : i < n -> length (tl (grid_from next t (n + 1))) = n /\ nth i (tl (grid_from next t (n + 1))) 0%Z = after next (S i) t.
Proof.
  intros Hi. rewrite grid_nth, Nat.add_1_r. cbn [seq map tl]. split; [rewrite map_length, seq_length; reflexivity|]. rewrite <- seq_shift, map_map. rewrite nth_map_seq by exact Hi. reflexivity.
Qed.
(** C186 (partial): on the grid, one row per step at the times after the data, with the forecast and bounds at alpha; the
    history is one row for every fitted value, at the last times of the data. *)
Theorem C186_rows_partial : forall alpha history steps times last,
  In last times -> (forall t, In t times -> (t <= last)%Z) -> roll last = last -> 0 < length fittedvalues <= length times ->
  exists rows, predict alpha history steps times = Some rows /\ let h := if history then length fittedvalues else 0 in length rows = h + steps /\
    (forall i, i < steps -> let c := nth i (ahead alpha steps) none3 in
       nth (h + i) rows no_row = {| r_time := after next (S i) last; r_fcst := fst (fst c); r_lower := snd (fst c); r_upper := snd c |}) /\
    (forall x, x < h -> nth x rows no_row = {| r_time := nth (length times - h + x) times 0%Z; r_fcst := nth x fittedvalues None; r_lower := None; r_upper := None |}).
Proof.
  intros alpha history steps times last IL ML RL HF. unfold var_predict. cbv zeta. rewrite (last_ok times last IL ML). unfold date_range. rewrite RL. set (frame := ahead alpha steps). assert (LF : length frame = steps) by apply ahead_len. set (dates := tl _).
  assert (LD : length dates = steps). { unfold dates. rewrite grid_nth, Nat.add_1_r. cbn [seq map tl]. rewrite map_length, seq_length. reflexivity. }
  destruct (make_spec dates (map (fun q => fst (fst q)) frame) (map (fun q => snd (fst q)) frame) (map snd frame)) as (rows & E & L & F); [rewrite ?map_length; congruence..|]. rewrite E. rewrite LD in L, F.
  assert (FF : forall i, i < steps -> nth i rows no_row = {| r_time := after next (S i) last; r_fcst := fst (fst (nth i frame none3)); r_lower := snd (fst (nth i frame none3)); r_upper := snd (nth i frame none3) |}).
  { intros i Hi. rewrite F by exact Hi. unfold dates. rewrite (proj2 (tail_grid last steps i Hi)). rewrite (nth_map_pair (fun q => fst (fst q)) frame i None none3 eq_refl), (nth_map_pair (fun q => snd (fst q)) frame i None none3 eq_refl), (nth_map_pair snd frame i None none3 eq_refl). reflexivity. }
  destruct history.
  - destruct (Nat.eqb_spec (length fittedvalues) 0) as [|_]; [lia|]. set (hd := skipn _ times). assert (LH : length hd = length fittedvalues) by (unfold hd; rewrite skipn_length; lia).
    destruct (make_spec hd fittedvalues (map (fun _ => None) fittedvalues) (map (fun _ => None) fittedvalues)) as (hr & EH & LR & FH); [rewrite ?map_length; congruence..|]. rewrite EH. cbn [option_map]. eexists. split; [reflexivity|]. split; [rewrite app_length; lia|]. split.
    + intros i Hi. rewrite app_nth2 by lia. replace (length fittedvalues + i - length hr) with i by lia. apply FF, Hi.
    + intros x Hx. rewrite app_nth1 by lia. rewrite FH by lia. unfold hd. rewrite nth_skip. f_equal; apply (nth_map_pair (fun _ : cell => @None R) fittedvalues x None None eq_refl).
  - exists rows. split; [reflexivity|]. split; [exact L|]. split; [intros i Hi; apply FF, Hi|intros; lia].
Qed.
(** When the last time is not on the grid (a freq argument other than that of the data), every forecast is put one grid
    time too late. *)
Theorem C186_off_grid_refuted : forall alpha steps times last,
  In last times -> (forall t, In t times -> (t <= last)%Z) -> (last < roll last)%Z ->
  exists rows, predict alpha false steps times = Some rows /\ length rows = steps /\ forall i, i < steps -> r_time (nth i rows no_row) = after next (S i) (roll last).
Proof.
  intros alpha steps times last IL ML RL. unfold var_predict. cbv zeta. rewrite (last_ok times last IL ML). unfold date_range. set (frame := ahead alpha steps). assert (LF : length frame = steps) by apply ahead_len. set (dates := tl _).
  assert (LD : length dates = steps). { unfold dates. rewrite grid_nth, Nat.add_1_r. cbn [seq map tl]. rewrite map_length, seq_length. reflexivity. }
  destruct (make_spec dates (map (fun q => fst (fst q)) frame) (map (fun q => snd (fst q)) frame) (map snd frame)) as (rows & E & L & F); [rewrite ?map_length; congruence..|]. rewrite E. rewrite LD in L, F. exists rows. split; [reflexivity|]. split; [exact L|]. intros i Hi. rewrite F by exact Hi. cbn [r_time]. apply tail_grid, Hi.
Qed.
End Var.
End Grid.

(** ** C187: the lags of VAR *)
(** the largest whole number at most 12 (n / 100)^(1/4) *)
Definition is_lags (n l : nat) : Prop := (INR l ^ 4 <= 12 ^ 4 * (INR n / 100) < INR (S l) ^ 4)%R.
Lemma root_floor x : Nat.sqrt (Nat.sqrt x) ^ 4 <= x < (S (Nat.sqrt (Nat.sqrt x))) ^ 4.
Proof.
  pose proof (Nat.sqrt_spec x ltac:(lia)) as [A B]. pose proof (Nat.sqrt_spec (Nat.sqrt x) ltac:(lia)) as [C D]. set (s := Nat.sqrt x) in *. set (r := Nat.sqrt s) in *. assert (E : forall k, k ^ 4 = (k * k) * (k * k)) by (intros k; cbn [Nat.pow]; nia). rewrite !E. split; [nia|]. assert (S s <= S r * S r) by lia. nia.
Qed.
Lemma default_ok n : is_lags n (default_lags n).
Proof.
  unfold is_lags, default_lags. pose proof (root_floor (144 * 144 * n / 100)) as [A B]. set (l := Nat.sqrt _) in *. pose proof (Nat.div_mod (144 * 144 * n) 100 ltac:(lia)) as DM. pose proof (Nat.mod_upper_bound (144 * 144 * n) 100 ltac:(lia)) as MB.
  set (w := 144) in *. set (d := w * w * n / 100) in *. assert (A' : 100 * l ^ 4 <= w * w * n) by lia. assert (B' : w * w * n < 100 * (S l) ^ 4) by lia. clearbody l d. apply le_INR in A'. apply lt_INR in B'. rewrite !mult_INR, !pow_INR in A', B'. assert (W : INR w = 144%R) by (unfold w; rewrite INR_IZR_INZ; reflexivity). assert (H : INR 100 = 100%R) by (rewrite INR_IZR_INZ; reflexivity).
  rewrite W, H in A', B'. replace (12 ^ 4)%R with (144 * 144)%R by (cbn; lra). split; lra.
Qed.
(** C187 (partial): a model made from fresh parameters without maxlags uses those of the length of its data; with
    maxlags, those. *)
Theorem C187_lags_partial : forall maxlags n, length (var_fits maxlags [n]) = 1 /\ forall l, nth 0 (var_fits maxlags [n]) 0 = l ->
  match maxlags with None => is_lags n l | Some k => l = k end.
Proof. intros [k|] n; cbn [var_fits var_fit length nth]; (split; [reflexivity|]); intros l <-; [reflexivity|apply default_ok]. Qed.
(** But fitting writes them into the caller's parameters: all later models made from these use the lags of the first
    one's data, whatever the length of their own. *)
Theorem C187_shared_refuted : forall n ns, exists l, is_lags n l /\ var_fits None (n :: ns) = repeat l (S (length ns)).
Proof.
  intros n ns. exists (default_lags n). split; [apply default_ok|]. cbn [var_fits var_fit repeat]. f_equal. induction ns as [|k ns IH]; [reflexivity|]. cbn [var_fits var_fit length repeat]. f_equal. exact IH.
Qed.

(** ** Cases *)
Definition airline : orders := {| o_p := 0; o_d := 1; o_q := 1; s_p := 0; s_d := 1; s_q := 1; s_m := 12 |}.
Example C184_case : cell_ltb (Some 1%R) (Some 2%R) = true /\
  Nat.max (o_p airline) (Nat.max (o_d airline) (o_q airline)) + Nat.max (s_p airline) (Nat.max (s_d airline) (s_q airline)) * s_m airline + 1 = 14 /\
  (exists c, In c [Some 1%R; None] /\ c <> None) /\ 14 <= 14.
Proof. split; [unfold cell_ltb; destruct (Rlt_dec 1 2); [reflexivity|lra]|]. split; [reflexivity|]. split; [exists (Some 1%R); split; [left; reflexivity|discriminate]|lia]. Qed.
Example C185_case : exists sm_frame : nat -> R -> nat -> list (cell * cell * cell), (forall f a n, length (sm_frame f a n) = n) /\ sm_frame 0 (1 / 100)%R 1 <> sm_frame 0 (5 / 100)%R 1.
Proof. exists (fun _ a n => repeat (Some 0%R, Some (a - 1)%R, Some (1 - a)%R) n). split; [intros; apply repeat_length|]. cbn. intros E. injection E as E _. lra. Qed.
Example C186_case : let roll := fun t => (- (- t / 7) * 7)%Z in roll 14%Z = 14%Z /\ (15 < roll 15)%Z /\ In 15%Z [13; 15]%Z /\ (forall t, In t [13; 15]%Z -> (t <= 15)%Z).
Proof. cbv zeta. split; [reflexivity|]. split; [reflexivity|]. split; [right; left; reflexivity|]. intros t [<-|[<-|[]]]; lia. Qed.
Example C187_case : var_fits None [10; 5] = [6; 6] /\ var_fits None [5] = [5] /\ exists l, is_lags 5 l.
Proof. split; [vm_compute; reflexivity|]. split; [vm_compute; reflexivity|]. exists (default_lags 5). apply default_ok. Qed.

Print Assumptions C184_rows.
Print Assumptions C184_history_partial.
Print Assumptions C184_blank_refuted.
Print Assumptions C184_alpha_refuted.
Print Assumptions C185_rows_partial.
Print Assumptions C185_ignored_refuted.
Print Assumptions C186_rows_partial.
Print Assumptions C186_off_grid_refuted.
Print Assumptions C187_lags_partial.
Print Assumptions C187_shared_refuted.
