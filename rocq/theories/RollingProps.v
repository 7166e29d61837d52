(** C35, C36, C98: what the rolling statistics detector scores, and whether it does so again. *)
From Verif Require Import Common PySlice TSDataModel TSDataSpec TSDataProofs BacktestModel MetricsModel MedianSpec MedianProofs RollingModel RollingSpec RollingProofs.
From Coq Require Import Permutation Sorted.
Open Scope Z_scope.

Definition past_of (hist : option (series cell)) : list (Z * cell) := match hist with Some h => rows h | None => [] end.

Lemma py_slice_none {A} (l : list A) : py_slice l None None = l.
Proof. unfold py_slice. cbn [Z.to_nat skipn]. rewrite Z.sub_0_r, Nat2Z.id. apply firstn_all. Qed.
Lemma total_rows hist (data : series cell) : in_time_order (rows data) ->
  rows (match hist with None => getitem data None None | Some h => append_rows h data end) = past_of hist ++ rows data.
Proof.
  intros H. destruct hist as [h|]; [reflexivity|]. cbn. rewrite py_slice_none. apply sort_rows_id, H.
Qed.
Lemma width_points c : width c = window_points (stat c) (rolling_window c).
Proof. unfold width, window_points. destruct (stat c); cbn [extended]; f_equal; lia. Qed.
Lemma needed_points c : 1 <= rolling_window c -> needed c = Z.of_nat (window_points (stat c) (rolling_window c)) - 1.
Proof. intros H. unfold needed, window_points. destruct (stat c); cbn [extended]; lia. Qed.
Lemma sorted_suffix {A} (l1 l2 : list (Z * A)) : in_time_order l2 -> StronglySorted Z.le (skipn (length l1) (map fst (l1 ++ l2))).
Proof.
  intros H. rewrite map_app, skipn_app, map_length, Nat.sub_diag.
  rewrite skipn_all2 by (rewrite map_length; lia). exact H.
Qed.
Lemma suffix_times {A} (l1 l2 : list (Z * A)) : skipn (length l1) (map fst (l1 ++ l2)) = map fst l2.
Proof.
  rewrite map_app, skipn_app, map_length, Nat.sub_diag.
  rewrite skipn_all2 by (rewrite map_length; lia). reflexivity.
Qed.

(** ** C35: one score per point, from exactly the trailing window *)

(** the scores of a series whose first [length past] points are history *)
Definition scored (st : statistic) (ib b : Q) (w : Z) (past : list (Z * cell)) (data : list (Z * cell)) (s : series cell) : Prop :=
  times s = map fst data /\
  forall j, (j < length data)%nat ->
    score_of st ib b (trailing (window_points st w) (map snd (past ++ data)) (length past + j))
             (nth j (map snd (rows s)) None).

Lemma point_scored c (total : series cell) (past data : list (Z * cell)) :
  1 <= rolling_window c -> rows total = past ++ data -> in_time_order data ->
  match point_scores c total (Z.of_nat (length past)) with
  | None => allow_expanding c = false /\ (S (length past) < window_points (stat c) (rolling_window c))%nat
  | Some s => (allow_expanding c = true \/ (window_points (stat c) (rolling_window c) <= S (length past))%nat) /\
              scored (stat c) (iqr_base c) (score_base c) (rolling_window c) past data s
  end.
Proof.
  intros Hw Hr Hs. pose proof (needed_points c Hw) as Hn.
  assert (He : (allow_expanding c = true \/ needed c <= Z.of_nat (length past)) \/
               (allow_expanding c = false /\ Z.of_nat (length past) < needed c)).
  { destruct (allow_expanding c); [left; left; reflexivity|]. destruct (Z.le_gt_cases (needed c) (Z.of_nat (length past))); [left; right; assumption|right; auto]. }
  destruct He as [He|[He Hlt]].
  - rewrite (point_scores_some c total (length past)); [|exact Hw|rewrite Hr, app_length; lia| |exact He].
    + split; [destruct He; [left; assumption|right; lia]|].
      unfold times. rewrite Hr, suffix_times. rewrite app_length. replace (length past + length data - length past)%nat with (length data) by lia.
      set (f := fun j => point_value c _). split.
      * unfold times. cbn [rows]. apply map_fst_combine. rewrite map_length, map_length, seq_length. reflexivity.
      * intros j Hj. cbn [rows].
        assert (E : map snd (combine (map fst data) (map f (seq 0 (length data)))) = map f (seq 0 (length data)))
          by (apply map_snd_combine; rewrite !map_length, seq_length; reflexivity).
        rewrite E. rewrite (nth_indep _ None (f 0%nat)) by (rewrite map_length, seq_length; exact Hj).
        rewrite (map_nth f), seq_nth by exact Hj. unfold f. cbn [Nat.add]. rewrite width_points. apply score_ok.
    + unfold times. rewrite Hr. apply sorted_suffix, Hs.
  - rewrite point_scores_none by assumption. split; [exact He|lia].
Qed.

Theorem C35_scores : forall infer_freq deseason c data hist,
  point_based c = true -> remove_seasonality c = false -> 1 <= rolling_window c -> in_time_order (rows data) ->
  let past := past_of hist in
  match fst (fit_predict infer_freq deseason c data hist) with
  | None => (* raises: too little history, and no expanding window *)
      allow_expanding c = false /\ (S (length past) < window_points (stat c) (rolling_window c))%nat
  | Some s =>
      (allow_expanding c = true \/ (window_points (stat c) (rolling_window c) <= S (length past))%nat) /\
      scored (stat c) (iqr_base c) (score_base c) (rolling_window c) past (rows data) s
  end.
Proof.
  intros inf des c data hist Hp Hr Hw Hs past. unfold fit_predict. rewrite Hr, Hp. cbn [fst].
  pose proof (total_rows hist data Hs) as Ht. set (total := match hist with None => getitem data None None | Some h => append_rows h data end) in *.
  replace (match hist with Some h => Z.of_nat (length (rows h)) | None => 0 end) with (Z.of_nat (length past))
    by (unfold past, past_of; destruct hist; reflexivity).
  apply (point_scored c total past (rows data) Hw Ht Hs).
Qed.

(** With seasonality removal the same holds of the deseasonalised values. *)
Theorem C35_deseasonalised : forall infer_freq deseason c data hist total,
  point_based c = true -> remove_seasonality c = true -> 1 <= rolling_window c -> in_time_order (rows data) ->
  deseason (match hist with None => getitem data None None | Some h => append_rows h data end) = Some total ->
  forall past' data', rows total = past' ++ data' ->
  map fst past' = map fst (past_of hist) -> map fst data' = map fst (rows data) ->
  match fst (fit_predict infer_freq deseason c data hist) with
  | None => allow_expanding c = false /\ (S (length past') < window_points (stat c) (rolling_window c))%nat
  | Some s =>
      (allow_expanding c = true \/ (window_points (stat c) (rolling_window c) <= S (length past'))%nat) /\
      scored (stat c) (iqr_base c) (score_base c) (rolling_window c) past' data' s
  end.
Proof.
  intros inf des c data hist total Hp Hr Hw Hs Hd past' data' Ht Ep Ed. unfold fit_predict. rewrite Hr, Hd, Hp. cbn [fst].
  assert (Lp : length past' = length (past_of hist)) by (rewrite <- (map_length fst past'), Ep; apply map_length).
  replace (match hist with Some h => Z.of_nat (length (rows h)) | None => 0 end) with (Z.of_nat (length past'))
    by (rewrite Lp; unfold past_of; destruct hist; reflexivity).
  apply (point_scored c total past' data' Hw Ht). unfold in_time_order. rewrite Ed. exact Hs.
Qed.

(** A score depends on its window only: two calls in which the windows of two points coincide give
    these points the same score, whatever else differs. *)
Theorem C35_only_window : forall infer_freq deseason c data hist data' hist' s s' j j',
  point_based c = true -> remove_seasonality c = false -> 1 <= rolling_window c ->
  in_time_order (rows data) -> in_time_order (rows data') ->
  fst (fit_predict infer_freq deseason c data hist) = Some s -> fst (fit_predict infer_freq deseason c data' hist') = Some s' ->
  (j < length (rows data))%nat -> (j' < length (rows data'))%nat ->
  let k := window_points (stat c) (rolling_window c) in
  trailing k (map snd (past_of hist ++ rows data)) (length (past_of hist) + j) =
  trailing k (map snd (past_of hist' ++ rows data')) (length (past_of hist') + j') ->
  nth j (map snd (rows s)) None = nth j' (map snd (rows s')) None.
Proof.
  intros inf des c data hist data' hist' s s' j j' Hp Hr Hw Hs Hs' E E' Hj Hj' k Hk.
  assert (G : forall (data : series cell) hist s j, in_time_order (rows data) -> fst (fit_predict inf des c data hist) = Some s -> (j < length (rows data))%nat ->
     nth j (map snd (rows s)) None = point_value c (trailing k (map snd (past_of hist ++ rows data)) (length (past_of hist) + j))).
  { clear - Hp Hr Hw. intros data hist s j Hs E Hj. unfold fit_predict in E. rewrite Hr, Hp in E. cbn [fst] in E.
    pose proof (total_rows hist data Hs) as Ht. set (total := match hist with None => getitem data None None | Some h => append_rows h data end) in *.
    replace (match hist with Some h => Z.of_nat (length (rows h)) | None => 0 end) with (Z.of_nat (length (past_of hist))) in E
      by (unfold past_of; destruct hist; reflexivity).
    pose proof (point_scored c total (past_of hist) (rows data) Hw Ht Hs) as P. rewrite E in P. destruct P as [He _].
    rewrite (point_scores_some c total (length (past_of hist))) in E; [|exact Hw|rewrite Ht, app_length; lia| |].
    - inversion E; subst s. cbn [rows]. unfold times. rewrite Ht, suffix_times, app_length.
      replace (length (past_of hist) + length (rows data) - length (past_of hist))%nat with (length (rows data)) by lia.
      set (f := fun j => point_value c _).
      assert (M : map snd (combine (map fst (rows data)) (map f (seq 0 (length (rows data))))) = map f (seq 0 (length (rows data))))
        by (apply map_snd_combine; rewrite !map_length, seq_length; reflexivity).
      rewrite M, (nth_indep _ None (f 0%nat)) by (rewrite map_length, seq_length; exact Hj).
      rewrite (map_nth f), seq_nth by exact Hj. unfold f, k. rewrite width_points. reflexivity.
    - unfold times. rewrite Ht. apply sorted_suffix, Hs.
    - rewrite needed_points by exact Hw. destruct He; [left; assumption|right; lia]. }
  rewrite (G data hist s j Hs E Hj), (G data' hist' s' j' Hs' E' Hj'). f_equal. exact Hk.
Qed.

(** *** windows measured in seconds *)
Lemma sorted_b_true l : StronglySorted Z.le l -> sorted_b l = true.
Proof.
  induction 1 as [|x t Ht IH Hx]; [reflexivity|]. cbn. destruct t as [|y t]; [reflexivity|]. rewrite IH.
  inversion Hx; subst. destruct (Z.leb_spec x y); [reflexivity|lia].
Qed.
Lemma sorted_app_r' {A} (l1 l2 : list (Z * A)) : in_time_order (l1 ++ l2) -> in_time_order l2.
Proof.
  unfold in_time_order. rewrite map_app. induction (map fst l1) as [|x t IH]; cbn; [auto|]. intros H. inversion H; auto.
Qed.

(** the score of a point from the points of the last [span] seconds *)
Definition scored_by_time (st : statistic) (b : Q) (span : Z) (all data : list (Z * cell)) (s : series cell) : Prop :=
  times s = map fst data /\
  forall j, (j < length data)%nat ->
    let t := nth j (map fst data) 0 in
    let win := between (t - span * 1000000000) t all in
    let v := nth j (map snd (rows s)) None in
    ((length win < 2)%nat /\ v = Some 0%Q) \/
    ((2 <= length win)%nat /\ score_of st (3 # 2) b win v).

Theorem C35_time_based : forall infer_freq deseason c data hist s c' h',
  point_based c = false -> remove_seasonality c = false ->
  (forall h, hist = Some h -> sort_flag h = true) -> in_time_order (past_of hist ++ rows data) -> 1 <= rolling_window c ->
  fit_predict infer_freq deseason c data hist = (Some s, (c', h')) ->
  exists g f, (* the commonest gap between neighbouring time stamps, and its whole seconds *)
    neighbour_gap g (map fst (past_of hist ++ rows data)) /\
    (forall h, (gap_count h (map fst (past_of hist ++ rows data)) < gap_count g (map fst (past_of hist ++ rows data)))%nat \/
               (gap_count h (map fst (past_of hist ++ rows data)) = gap_count g (map fst (past_of hist ++ rows data)) /\ g <= h)) /\
    f = g / 1000000000 /\ 0 < f /\ 3 * f <= rolling_window c /\
    if (rolling_window c mod f =? 0) && ((length (past_of hist ++ rows data) <? 3)%nat || infer_freq (map fst (past_of hist ++ rows data)))
    then scored (stat c) (iqr_base c) (score_base c) (rolling_window c / f) (past_of hist) (rows data) s
    else scored_by_time (stat c) (score_base c)
           (match stat c with Iqr | Mad => rolling_window c - f | _ => rolling_window c end)
           (past_of hist ++ rows data) (rows data) s.
Proof.
  intros inf des c data hist s c' h' Hp Hr Hfl Ho Hw E. unfold fit_predict in E. rewrite Hr, Hp in E.
  pose proof (sorted_app_r' _ _ Ho) as Hs. pose proof (total_rows hist data Hs) as Ht.
  assert (Hflag : sort_flag (match hist with None => getitem data None None | Some h => append_rows h data end) = true)
    by (destruct hist as [h|]; [apply (Hfl h eq_refl)|reflexivity]).
  set (total := match hist with None => getitem data None None | Some h => append_rows h data end) in *.
  replace (match hist with Some h => Z.of_nat (length (rows h)) | None => 0 end) with (Z.of_nat (length (past_of hist))) in E
    by (unfold past_of; destruct hist; reflexivity).
  destruct (infer_freq_robust total) as [g|] eqn:Eg; [|discriminate].
  unfold infer_freq_robust in Eg. destruct (Nat.leb (length (rows total)) 1); [discriminate|]. rewrite Hflag in Eg.
  pose proof (mode0_spec _ _ Eg) as [G1 G2]. unfold times in G1, G2. rewrite Ht in G1, G2.
  assert (G0 : 0 <= g).
  { destruct G1 as (bef & x & y & aft & El & ->). unfold in_time_order in Ho. rewrite El in Ho. clear - Ho.
    induction bef as [|z bef IH]; [|inversion Ho; auto]. cbn in Ho. inversion Ho as [|? ? ? F]. inversion F. lia. }
  set (f := Z.quot g ns) in *. assert (Ef : f = g / 1000000000) by (unfold f, ns; apply Z.quot_div_nonneg; lia).
  destruct (Z.eqb_spec f 0) as [F0|F0]; [discriminate|]. cbn [orb] in E.
  assert (Fp : 0 < f) by (assert (0 <= f) by (rewrite Ef; apply Z.div_pos; lia); lia).
  unfold window_too_small in E. destruct (Z.ltb_spec 0 f); [|lia]. destruct (Z.ltb_spec (rolling_window c) (3 * f)) as [|Hbig]; [discriminate|].
  exists g, f. split; [exact G1|]. split; [exact G2|]. split; [exact Ef|]. split; [exact Fp|]. split; [exact Hbig|].
  assert (Em : negb (data_missing inf total) = ((length (past_of hist ++ rows data) <? 3)%nat || inf (map fst (past_of hist ++ rows data)))).
  { unfold data_missing, times. rewrite Ht. destruct (length (past_of hist ++ rows data) <? 3)%nat; [reflexivity|]. cbn. apply negb_involutive. }
  rewrite Em in E. destruct ((rolling_window c mod f =? 0) && ((length (past_of hist ++ rows data) <? 3)%nat || inf (map fst (past_of hist ++ rows data)))).
  - inversion E as [[E1 E2 E3]]. clear E2 E3.
    set (c1 := MkRoll (rolling_window c / f) (stat c) false false (score_base c) (iqr_base c) (allow_expanding c)) in *.
    assert (W : 1 <= rolling_window c1) by (cbn; apply Z.div_le_lower_bound; lia).
    pose proof (point_scored c1 total (past_of hist) (rows data) W Ht Hs) as P. rewrite E1 in P. destruct P as [_ P]. exact P.
  - injection E as E1 E2 E3. subst c'. unfold time_scores in E1. rewrite sorted_b_true in E1 by (unfold times; rewrite Ht; exact Ho).
    inversion E1; subst s. unfold of_rows.
    assert (S1 : sort_rows (map (fun t => (t, time_score c total f t)) (times data)) = map (fun t => (t, time_score c total f t)) (times data)).
    { apply sort_rows_id. unfold in_time_order. rewrite map_map. cbn [fst]. rewrite map_id. exact Hs. }
    rewrite S1. split; [unfold times at 1; cbn [rows]; rewrite map_map; cbn [fst]; apply map_id|].
    intros j Hj t win v. cbn [rows] in v. unfold v. rewrite map_map. cbn [snd].
    assert (En : nth j (map (fun x => time_score c total f x) (times data)) None = time_score c total f t).
    { rewrite (nth_indep _ None (time_score c total f 0)) by (rewrite map_length; unfold times; rewrite map_length; exact Hj).
      rewrite (map_nth (fun x => time_score c total f x)). reflexivity. }
    rewrite En. unfold time_score.
    assert (Ew : time_window total (t - (if extended (stat c) then rolling_window c else rolling_window c - f) * ns) t = win).
    { unfold win, time_window, between. rewrite Ht. f_equal. destruct (stat c); reflexivity. }
    rewrite Ew. destruct (Nat.leb_spec 2 (length win)) as [L|L]; [right|left; auto].
    split; [exact L|].
    assert (D : forall st l, score_func st None l = score_func st (Some (3 # 2)%Q) l) by (intros [] l; reflexivity).
    rewrite D. apply score_ok.
Qed.

(** On a regular grid the closed window of m steps holds exactly the current point and the m before it. *)
Theorem C35_regular_grid : forall (l : list (Z * cell)) t0 g m i, 0 < g -> (i < length l)%nat ->
  (forall p, (p < length l)%nat -> nth p (map fst l) 0 = t0 + Z.of_nat p * g) ->
  between (nth i (map fst l) 0 - Z.of_nat m * g) (nth i (map fst l) 0) l = trailing (S m) (map snd l) i.
Proof.
  intros l t0 g m i Hg Hi Ht. rewrite (Ht i Hi). unfold between, trailing.
  assert (G : forall l t0 lo hi, (forall p, (p < length l)%nat -> nth p (map fst l) 0 = t0 + Z.of_nat p * g) ->
     map snd (filter (fun r : Z * cell => (t0 + lo * g <=? fst r) && (fst r <=? t0 + hi * g)) l)
     = skipn (Z.to_nat lo) (firstn (Z.to_nat (hi + 1)) (map snd l))).
  { clear - Hg. induction l as [|[t v] l IH]; intros t0 lo hi H; [cbn; rewrite firstn_nil, skipn_nil; reflexivity|].
    pose proof (H 0%nat ltac:(cbn; lia)) as H0. cbn in H0. rewrite Z.add_0_r in H0. subst t.
    assert (H1 : forall p, (p < length l)%nat -> nth p (map fst l) 0 = (t0 + g) + Z.of_nat p * g).
    { intros p Hp. pose proof (H (S p) ltac:(cbn; lia)) as H2. cbn [map nth fst] in H2. rewrite H2. lia. }
    specialize (IH (t0 + g) (lo - 1) (hi - 1) H1).
    replace (t0 + g + (lo - 1) * g) with (t0 + lo * g) in IH by ring. replace (t0 + g + (hi - 1) * g) with (t0 + hi * g) in IH by ring.
    cbn [filter fst].
    destruct (Z.leb_spec (t0 + lo * g) t0) as [A|A], (Z.leb_spec t0 (t0 + hi * g)) as [B|B]; cbn [andb map snd].
    - assert (lo <= 0) by nia. assert (0 <= hi) by nia. rewrite IH. replace (Z.to_nat lo) with 0%nat by lia. replace (Z.to_nat (lo - 1)) with 0%nat by lia.
      replace (Z.to_nat (hi + 1)) with (S (Z.to_nat (hi - 1 + 1))) by lia. reflexivity.
    - assert (hi < 0) by nia. rewrite IH. replace (Z.to_nat (hi + 1)) with 0%nat by lia. replace (Z.to_nat (hi - 1 + 1)) with 0%nat by lia.
      cbn. rewrite !skipn_nil. reflexivity.
    - assert (0 < lo) by nia. assert (0 <= hi) by nia. rewrite IH. replace (Z.to_nat lo) with (S (Z.to_nat (lo - 1))) by lia.
      replace (Z.to_nat (hi + 1)) with (S (Z.to_nat (hi - 1 + 1))) by lia. reflexivity.
    - assert (hi < 0) by nia. rewrite IH. replace (Z.to_nat (hi + 1)) with 0%nat by lia. replace (Z.to_nat (hi - 1 + 1)) with 0%nat by lia.
      cbn. rewrite !skipn_nil. reflexivity. }
  specialize (G l t0 (Z.of_nat i - Z.of_nat m) (Z.of_nat i) Ht).
  replace (t0 + (Z.of_nat i - Z.of_nat m) * g) with (t0 + Z.of_nat i * g - Z.of_nat m * g) in G by ring.
  rewrite G. replace (Z.to_nat (Z.of_nat i + 1)) with (S i) by lia. f_equal. lia.
Qed.

(** ** C36: calls are repeatable *)

(** Point-based and without separate history: the model and its arguments are left alone, so a second call
    gives the same result.  With history the model is left alone. *)
Theorem C36_repeat_partial : forall infer_freq deseason c data hist c1 h1 r,
  point_based c = true -> fit_predict infer_freq deseason c data hist = (r, (c1, h1)) ->
  c1 = c /\ (hist = None -> h1 = None /\ fit_predict infer_freq deseason c1 data h1 = (r, (c1, h1))).
Proof.
  intros inf des c data hist c1 h1 r Hp E.
  assert (A : c1 = c /\ (hist = None -> h1 = None)).
  { unfold fit_predict in E. rewrite Hp in E. destruct (remove_seasonality c).
    - destruct (des _); inversion E; subst; split; auto; intros ->; reflexivity.
    - inversion E; subst; split; auto; intros ->; reflexivity. }
  destruct A as [-> A]. split; [reflexivity|]. intros ->. specialize (A eq_refl). subst h1. auto.
Qed.
(** Time-based, when the window is no multiple of the frequency or data are missing: likewise. *)
Theorem C36_repeat_time_partial : forall infer_freq deseason c data c1 h1 r,
  point_based c = false -> fit_predict infer_freq deseason c data None = (r, (c1, h1)) ->
  rolling_window c1 = rolling_window c ->
  fit_predict infer_freq deseason c1 data h1 = (r, (c1, h1)).
Proof.
  intros inf des c data c1 h1 r Hp E Hw.
  assert (A : c1 = c /\ h1 = None).
  { assert (K : forall rr w, (rr, (MkRoll w (stat c) (remove_seasonality c) (point_based c) (score_base c) (iqr_base c) (allow_expanding c), None)) = (r, (c1, h1)) -> c1 = c /\ h1 = None).
    { intros rr w H. inversion H; subst. cbn in Hw. subst w. destruct c; auto. }
    unfold fit_predict in E. destruct (if remove_seasonality c then _ else _) as [total|]; [|inversion E; auto].
    rewrite Hp in E. destruct (infer_freq_robust total) as [g|]; [|inversion E; auto]. cbv zeta in E.
    destruct (_ || _); [inversion E; auto|]. destruct (_ && _); [|inversion E; auto].
    rewrite Hp in K. exact (K _ _ E). }
  destruct A as [-> ->]. exact E.
Qed.

Definition minutes (l : list Q) (from : nat) : series cell :=
  MkSeries (map (fun p => (Z.of_nat (fst p) * 60 * ns, Some (snd p))) (combine (seq from (length l)) l)) true.
Fixpoint regular (l : list Z) : bool :=
  match l with x :: (y :: (z :: _)) as t => (y - x =? z - y) && match l with _ :: t => regular t | [] => true end | _ => true end.
Definition no_season (s : series cell) : option (series cell) := Some s.
Definition ex_hist := minutes [1; 2; 4; 3; 7]%Q 0.
Definition ex_data := minutes [5; 9; 2]%Q 5.
Definition ex_point (st : statistic) := MkRoll 3 st false true 1 (3 # 2) false.
Definition values (r : option (series cell)) : option (list (option Q)) := option_map (fun s => map (option_map Qred) (map snd (rows s))) r.

(** The history passed in is extended by the call: the same call again scores the data against itself. *)
Theorem C36_history_refuted : exists c data hist s s' c1 h1,
  point_based c = true /\ in_time_order (rows hist ++ rows data) /\
  fit_predict regular no_season c data (Some hist) = (Some s, (c1, Some h1)) /\
  rows h1 = rows hist ++ rows data /\
  fst (fit_predict regular no_season c1 data (Some h1)) = Some s' /\
  same (nth 0 (map snd (rows s)) None) (Some 2%Q) /\ same (nth 0 (map snd (rows s')) None) (Some (7 # 2)).
Proof.
  exists (ex_point Iqr), ex_data, ex_hist. do 4 eexists. split; [reflexivity|]. split.
  { unfold in_time_order. vm_compute. repeat constructor; discriminate. }
  split; [vm_compute; reflexivity|]. split; [vm_compute; reflexivity|]. split; [vm_compute; reflexivity|].
  split; vm_compute; reflexivity.
Qed.
(** A time-based window is replaced by its number of points on the first call; the second call reads that
    number as seconds and raises. *)
Theorem C36_window_refuted : exists c data s c1 h1,
  point_based c = false /\ in_time_order (rows data) /\
  fit_predict regular no_season c data None = (Some s, (c1, h1)) /\ length (rows s) = 5%nat /\
  fst (fit_predict regular no_season c1 data h1) = None.
Proof.
  exists (MkRoll 180 Iqr false false 1 (3 # 2) true), (minutes [1; 2; 4; 3; 7]%Q 0). do 3 eexists. split; [reflexivity|]. split.
  { unfold in_time_order. vm_compute. repeat constructor; discriminate. }
  split; [vm_compute; reflexivity|]. split; [reflexivity|]. vm_compute. reflexivity.
Qed.

(** ** C98: the IQR multiple of the configuration is the one applied *)
Theorem C98_iqr_base_partial : forall infer_freq deseason c data hist s,
  stat c = IqrMedianDeviation -> point_based c = true -> remove_seasonality c = false -> 1 <= rolling_window c -> in_time_order (rows data) ->
  fst (fit_predict infer_freq deseason c data hist) = Some s ->
  forall j, (j < length (rows data))%nat ->
    score_of IqrMedianDeviation (iqr_base c) (score_base c)
      (trailing (Z.to_nat (rolling_window c + 1)) (map snd (past_of hist ++ rows data)) (length (past_of hist) + j))
      (nth j (map snd (rows s)) None).
Proof.
  intros inf des c data hist s Hst Hp Hr Hw Hs E j Hj.
  pose proof (C35_scores inf des c data hist Hp Hr Hw Hs) as P. cbv zeta in P. rewrite E in P. destruct P as [_ [_ P]].
  specialize (P j Hj). rewrite Hst in P. exact P.
Qed.

(** Time-based with a missing point: a point three times as far out as the configured multiple of the IQR
    is scored 0, because the default multiple 1.5 is used. *)
Definition gap_data : series cell :=
  MkSeries (map (fun p => (fst p * 60 * ns, Some (snd p))) (combine [0; 1; 2; 3; 4; 6; 7] [4; 6; 5; 7; 4; 6; 8]%Q)) true.
Definition gap_model (b : Q) := MkRoll 300 IqrMedianDeviation false false 1 b false.
Theorem C98_iqr_base_refuted : exists s,
  fst (fit_predict regular no_season (gap_model (1 # 2)) gap_data None) = Some s /\
  (forall b, fst (fit_predict regular no_season (gap_model b) gap_data None) = Some s) /\
  (* the window of the last point: 5 7 4 6 and then 8 *)
  between (7 * 60 * ns - 300 * ns) (7 * 60 * ns) (rows gap_data) = [Some 5; Some 7; Some 4; Some 6; Some 8]%Q /\
  same (nth 6 (map snd (rows s)) None) (Some 0%Q) /\
  (forall v, score_of IqrMedianDeviation (1 # 2) 1 [Some 5; Some 7; Some 4; Some 6; Some 8]%Q v -> exists x, v = Some x /\ (0 < x)%Q).
Proof.
  eexists. split; [vm_compute; reflexivity|]. split; [intros b; vm_compute; reflexivity|].
  split; [vm_compute; reflexivity|]. split; [vm_compute; reflexivity|].
  intros v (u & S & Hv). cbn in S. destruct S as [[C _]|[_ (m & q1 & q3 & w & Hm & H1 & H3 & Hr & s & Hs & Hu)]]; [discriminate|].
  assert (Em : (m == 11 # 2)%Q) by (rewrite (median_qmedian _ _ Hm); vm_compute; reflexivity).
  assert (Q : forall k v, quartile_of k [5; 7; 4; 6]%Q v -> (v == quart k [5; 7; 4; 6]%Q)%Q).
  { clear. intros k v (s & i & r & P & Hs & Ek & Hr & E). rewrite E.
    destruct (quart_ok k [5; 7; 4; 6]%Q) as (s' & i' & r' & P' & Hs' & Ek' & Hr' & E'). rewrite E'.
    assert (i = i' /\ r = r') as [<- <-] by (rewrite Ek in Ek'; lia).
    assert (PP : Permutation s s') by (eapply perm_trans; [apply Permutation_sym, P|exact P']).
    rewrite (sorted_perm_nth_eq s s' i PP Hs Hs'), (sorted_perm_nth_eq s s' (S i) PP Hs Hs'). reflexivity. }
  assert (E1 : (q1 == 19 # 4)%Q) by (rewrite (Q _ _ H1); vm_compute; reflexivity).
  assert (E3 : (q3 == 25 # 4)%Q) by (rewrite (Q _ _ H3); vm_compute; reflexivity).
  destruct Hr as [[C _]|[_ Hr]]; [rewrite Em in C; vm_compute in C; discriminate|].
  destruct w as [w|]; cbn [option_map difference] in Hr; [|contradiction].
  assert (Hw : (w == 5 # 11)%Q).
  { assert (Hr' : (w * m == Qabs (8 - m))%Q) by exact Hr. rewrite Em in Hr'.
    assert (X : (Qabs (8 - (11 # 2)) == 5 # 2)%Q) by reflexivity. rewrite X in Hr'. lra. }
  destruct Hs as [[C _]|[(_ & _ & ->)|(_ & C & _)]]; [exfalso; rewrite E1, E3 in C; vm_compute in C; discriminate| |exfalso; rewrite E1, E3 in C; vm_compute in C; discriminate].
  destruct u as [u|]; [|contradiction Hu]. cbn in Hu. destruct v as [v|]; [|contradiction Hv]. cbn in Hv. exists v. split; [reflexivity|].
  rewrite Hv, Hu, Hw. reflexivity.
Qed.

(** cases *)
Example C35_case : values (fst (fit_predict regular no_season (ex_point ModZIqr) ex_data (Some ex_hist))) = Some [Some (1 # 2); Some 2; Some (-5 # 2)]%Q.
Proof. vm_compute. reflexivity. Qed.
Example C35_trailing_case : trailing 4 (map snd (rows ex_hist ++ rows ex_data)) (5 + 1) = [Some 3; Some 7; Some 5; Some 9]%Q.
Proof. reflexivity. Qed.
Example C35_expanding_case :
  values (fst (fit_predict regular no_season (MkRoll 3 ZScore false true 1 (3 # 2) true) ex_hist None)) = Some [None; Some 0; Some 25; Some (2 # 7); Some 24]%Q.
Proof. vm_compute. reflexivity. Qed.
Example C35_insufficient_case : fst (fit_predict regular no_season (ex_point ZScore) ex_hist None) = None.
Proof. vm_compute. reflexivity. Qed.
Example C35_time_case : values (fst (fit_predict regular no_season (MkRoll 300 Iqr false false 1 (3 # 2) false) gap_data None)) =
  Some [Some 0; Some 1; Some 1; Some (3 # 2); Some 2; Some (3 # 2); Some (7 # 4)]%Q.
Proof. vm_compute. reflexivity. Qed.
Example C35_deseasonalised_case : exists total, 
  (fun s : series cell => Some (MkSeries (map (fun r => (fst r, option_map (Qplus 1) (snd r))) (rows s)) (sort_flag s))) (append_rows ex_hist ex_data) = Some total /\
  map fst (rows total) = map fst (rows ex_hist ++ rows ex_data).
Proof. eexists. split; [reflexivity|]. reflexivity. Qed.

Print Assumptions C35_scores.
Print Assumptions C35_deseasonalised.
Print Assumptions C35_only_window.
Print Assumptions C35_time_based.
Print Assumptions C35_regular_grid.
Print Assumptions C36_repeat_partial.
Print Assumptions C36_repeat_time_partial.
Print Assumptions C36_history_refuted.
Print Assumptions C36_window_refuted.
Print Assumptions C98_iqr_base_partial.
Print Assumptions C98_iqr_base_refuted.
