(** The Theta forecaster. *)
From Coq Require Import List ZArith Reals Bool Lia Lra Arith.
From Verif Require Import PySlice OutlierModel OutlierProps HeuristicModel HeuristicSpec HeuristicProps LsqModel LsqProofs RegProps StlfModel StlfProps ThetaModel.
Import ListNotations.
Open Scope nat_scope.

(** ** Specification *)
(** simple exponential smoothing from a first level *)
Definition ses (alpha first : R) (y : list R) : R := fold_left (fun l x => alpha * x + (1 - alpha) * l)%R y first.
(** the least squares line of a series *)
Definition squares (y : list R) (a b : R) : R := total (length y) (fun t => (nth t y 0 - (a + b * INR t)) ^ 2)%R.
Definition best_line (y : list R) (a b : R) := forall a' b', (squares y a b <= squares y a' b')%R.
(** the "theta = 2" line: it has twice the curvature of the series *)
Definition theta_two (y : list R) (a b : R) : list R := map (fun t => 2 * nth t y 0 - (a + b * INR t))%R (seq 0 (length y)).
(** the Theta forecast: the mean of the line and of the smoothed theta = 2 line *)
Definition theta_mean (alpha first : R) (y : list R) (a b : R) (i : nat) : R :=
  (((a + b * INR (length y + i)) + ses alpha (2 * first - a) (theta_two y a b)) / 2)%R.

(** ** Proofs *)
Lemma levels_ses a l y : snd (levels a l y) = ses a l y.
Proof. revert l. induction y as [|x y IH]; intros l; [reflexivity|]. cbn. specialize (IH (a * x + (1 - a) * l)%R). destruct (levels a (a * x + (1 - a) * l) y). exact IH. Qed.
Lemma levels_len a l y : length (fst (levels a l y)) = length y.
Proof. revert l. induction y as [|x y IH]; intros l; [reflexivity|]. cbn. specialize (IH (a * x + (1 - a) * l)%R). destruct (levels a (a * x + (1 - a) * l) y). cbn in *. lia. Qed.
Lemma ses_linear a l l' (y y' : list R) u w : length y = length y' ->
  ses a (u * l + w * l') (zip_with (fun x x' => u * x + w * x')%R y y') = (u * ses a l y + w * ses a l' y')%R.
Proof.
  revert l l' y'. induction y as [|x y IH]; intros l l' [|x' y'] L; try discriminate; [reflexivity|]. cbn in L |- *. unfold ses, zip_with in IH. rewrite <- IH by lia. f_equal. ring.
Qed.
Lemma ses_line alpha a b n : alpha <> 0%R -> ses alpha a (map (fun t => a + b * INR t)%R (seq 0 n)) = (a + b * (INR n - (1 - (1 - alpha) ^ n) / alpha))%R.
Proof.
  intros NZ. induction n as [|n IH]; [cbn; field; exact NZ|]. rewrite seq_S, map_app. unfold ses in *. rewrite fold_left_app, IH. cbn [fold_left map plus]. rewrite S_INR. cbn [pow]. field. exact NZ.
Qed.
Lemma zip_nth {A B C} (f : A -> B -> C) l r (d : A) (e : B) : length l = length r -> zip_with f l r = map (fun i => f (nth i l d) (nth i r e)) (seq 0 (length l)).
Proof.
  revert r. induction l as [|x l IH]; intros [|y r] L; try discriminate; [reflexivity|]. cbn [length seq map]. unfold zip_with in *. cbn [combine map fst snd nth]. f_equal. rewrite IH by (cbn in L; lia). rewrite <- seq_shift, map_map. reflexivity.
Qed.
Lemma average alpha l0 y a b i : alpha <> 0%R ->
  theta_mean alpha l0 y a b i = (ses alpha l0 y + b / 2 * (INR i + (1 - (1 - alpha) ^ length y) / alpha))%R.
Proof.
  intros NZ. unfold theta_mean, theta_two. replace (map (fun t => 2 * nth t y 0 - (a + b * INR t))%R (seq 0 (length y))) with (zip_with (fun x x' => 2 * x + -1 * x')%R y (map (fun t => a + b * INR t)%R (seq 0 (length y)))).
  - replace (2 * l0 - a)%R with (2 * l0 + -1 * a)%R by ring. rewrite ses_linear by (rewrite map_length, seq_length; reflexivity). rewrite ses_line by exact NZ. rewrite plus_INR. field. exact NZ.
  - rewrite (zip_nth _ _ _ 0%R 0%R) by (rewrite map_length, seq_length; reflexivity). apply map_ext_in. intros t Ht. apply in_seq in Ht. rewrite nth_map_seq by lia. ring.
Qed.
Lemma line_data_sum y (f : LsqModel.row * R -> R) : sumof f (line_data y) = total (length y) (fun t => f (fun i => match i with O => INR t | _ => 1%R end, nth t y 0%R)).
Proof.
  unfold line_data. revert f. induction y as [|v y IH] using rev_ind; intros f; [reflexivity|]. rewrite app_length, Nat.add_1_r. rewrite seq_S, map_app. cbn [plus map total].
  assert (C : forall (A B : Type) (l : list A) (r : list B) x z, length l = length r -> combine (l ++ [x]) (r ++ [z]) = combine l r ++ [(x, z)]) by (induction l as [|a l IHl]; intros [|b r] x z L; try discriminate; [reflexivity|]; cbn; f_equal; apply IHl; injection L; auto).
  rewrite C by (rewrite map_length, seq_length; reflexivity). rewrite sumof_app, IH. f_equal.
  - apply total_ext. intros i Hi. rewrite app_nth1 by exact Hi. reflexivity.
  - cbn. rewrite app_nth2, Nat.sub_diag by lia. cbn. ring.
Qed.
Lemma dot_line a t : dot 2 a (fun i => match i with O => INR t | _ => 1%R end) = (a 1%nat + a 0%nat * INR t)%R.
Proof. unfold dot. cbn. ring. Qed.
Lemma slope_best y : best_line y (beta 2 (line_data y) 1) (slope y).
Proof.
  intros a' b'. pose proof (beta_least 2 (line_data y) (fun i => match i with O => b' | _ => a' end)) as B. unfold ssr in B. rewrite !line_data_sum in B. cbn [fst snd] in B.
  unfold squares, slope. eapply Rle_trans; [eapply Rle_trans; [|exact B]|]; apply Req_le, total_ext; intros t _; rewrite dot_line; ring.
Qed.
Lemma slope_exact y a b : 2 <= length y -> (forall t, t < length y -> nth t y 0%R = (a + b * INR t)%R) -> slope y = b.
Proof.
  intros L H. unfold slope. assert (D : forall d, In d (line_data y) <-> exists t, t < length y /\ d = (fun i => match i with O => INR t | _ => 1%R end, nth t y 0%R)).
  { intros d. unfold line_data. set (l := map _ (seq 0 (length y))). assert (LL : length l = length y) by (unfold l; rewrite map_length, seq_length; reflexivity).
    assert (N : forall t, t < length y -> nth t (combine l y) (fun i => match i with O => INR 0 | _ => 1%R end, 0%R) = (fun i => match i with O => INR t | _ => 1%R end, nth t y 0%R)).
    { intros t Ht. rewrite combine_nth by exact LL. f_equal. unfold l. rewrite (map_nth (fun x i => match i with O => INR x | _ => 1%R end)), seq_nth by exact Ht. reflexivity. }
    split.
    - intros I. apply In_nth with (d := (fun i => match i with O => INR 0 | _ => 1%R end, 0%R)) in I as (t & Ht & <-). rewrite combine_length, LL, Nat.min_id in Ht. exists t. split; [exact Ht|apply N, Ht].
    - intros (t & Ht & ->). rewrite <- N by exact Ht. apply nth_In. rewrite combine_length, LL, Nat.min_id. exact Ht. }
  rewrite (beta_exact 2 (line_data y) (fun i => match i with O => b | _ => a end)); [reflexivity| | |lia].
  - intros p Z. assert (L0 : 0 < length y) by lia. assert (L1 : 1 < length y) by lia.
    pose proof (Z _ (proj2 (D (fun i => match i with O => INR 0 | _ => 1%R end, nth 0 y 0%R)) (ex_intro _ 0 (conj L0 eq_refl)))) as Z0. pose proof (Z _ (proj2 (D (fun i => match i with O => INR 1 | _ => 1%R end, nth 1 y 0%R)) (ex_intro _ 1 (conj L1 eq_refl)))) as Z1.
    cbn [fst] in Z0, Z1. rewrite dot_line in Z0, Z1. cbn in Z0, Z1. intros [|[|i]] Hi; [lra|lra|lia].
  - intros d Hd. apply D in Hd as (t & Ht & ->). cbn [fst snd]. rewrite dot_line. apply H, Ht.
Qed.

(** A series counts as seasonal when it is longer than two seasons, not constant, and its autocorrelation at the season is outside
    the band given by the autocorrelations at the shorter lags (Bartlett, ten percent). *)
Definition autocorrelation (y : list R) (lag : nat) : R :=
  let mu := (fold_right Rplus 0 y / INR (length y))%R in
  (total (length y - lag) (fun t => (nth t y 0 - mu) * (nth (t + lag) y 0 - mu)) / total (length y) (fun t => (nth t y 0 - mu) ^ 2))%R.
Lemma lsum_total f n : lsum (map f (seq 0 n)) = total n f.
Proof.
  induction n as [|n IH]; [reflexivity|]. rewrite seq_S, map_app. cbn [total plus map]. rewrite <- IH. generalize (map f (seq 0 n)). intros l. induction l as [|x l IHl]; cbn; [ring|]. unfold lsum in IHl. rewrite IHl. ring.
Qed.
Theorem C178_seasonal : forall m y, check_seasonality m y = true <->
  1 < m /\ 2 * m < length y /\ (exists a b, In a y /\ In b y /\ a <> b) /\
  ((1644 / 1000) ^ 2 * (1 + 2 * total (m - 1) (fun i => autocorrelation y (S i) ^ 2)) < INR (length y) * autocorrelation y m ^ 2)%R.
Proof.
  intros m y. unfold check_seasonality.
  assert (A : forall k, acf y k = autocorrelation y k).
  { intros k. unfold acf, acov, autocorrelation, mean. cbv zeta. rewrite !lsum_total, Nat.sub_0_r. unfold lsum. refine (f_equal (Rdiv _) _). apply total_ext. intros t _. rewrite Nat.add_0_r. unfold lsum. ring. }
  assert (V : varies y = true <-> exists a b, In a y /\ In b y /\ a <> b).
  { unfold varies. rewrite existsb_exists. unfold Reqb. split.
    - intros (a & I & H). exists a, (nth 0 y 0%R). split; [exact I|]. split; [destruct y; [destruct I|left; reflexivity]|]. destruct (Req_EM_T a (nth 0 y 0%R)); [discriminate|assumption].
    - intros (a & b & I & J & N). destruct (Req_EM_T a (nth 0 y 0%R)) as [E|E]; [|exists a; split; [exact I|]; destruct (Req_EM_T a (nth 0 y 0%R)); [contradiction|reflexivity]].
      exists b. split; [exact J|]. destruct (Req_EM_T b (nth 0 y 0%R)) as [F|]; [|reflexivity]. exfalso. apply N. congruence. }
  destruct (Nat.ltb_spec 1 m) as [M|M]; [|cbn; split; [discriminate|intros (X & _); lia]]. destruct (Nat.ltb_spec (2 * m) (length y)) as [L|L]; [|rewrite andb_false_r; split; [discriminate|intros (_ & X & _); lia]].
  destruct (varies y); cbn [andb].
  - replace (lsum (map (fun i => acf y i ^ 2)%R (seq 1 (m - 1)))) with (total (m - 1) (fun i => autocorrelation y (S i) ^ 2)%R) by (rewrite <- seq_shift, map_map, <- lsum_total; f_equal; apply map_ext; intros; rewrite A; reflexivity).
    rewrite A. set (P := (1 + 2 * total (m - 1) (fun i => autocorrelation y (S i) ^ 2))%R).
    assert (HP : (1 <= P)%R). { unfold P. assert (0 <= total (m - 1) (fun i => autocorrelation y (S i) ^ 2))%R; [|lra]. generalize (m - 1). intros n. induction n as [|n IH]; cbn [total]; [lra|]. pose proof (pow2_ge_0 (autocorrelation y (S n))). lra. }
    set (r := autocorrelation y m). assert (HN : (0 < INR (length y))%R) by (apply lt_0_INR; lia). set (n := INR (length y)) in *. clearbody P r n.
    assert (HQ : (0 < P / n)%R) by (apply Rdiv_lt_0_compat; lra). pose proof (sqrt_lt_R0 _ HQ) as HS. pose proof (sqrt_sqrt (P / n) ltac:(lra)) as SS. set (s := sqrt (P / n)) in *. clearbody s.
    assert (X : (1644 / 1000 < Rabs (r / s) <-> (1644 / 1000) ^ 2 * P < n * r ^ 2)%R).
    { assert (PN : (P = n * (s * s))%R) by (rewrite SS; field; lra). rewrite PN. unfold Rdiv at 2. rewrite Rabs_mult, (Rabs_right (/ s)) by (apply Rle_ge, Rlt_le, Rinv_0_lt_compat, HS).
      replace (r ^ 2)%R with (Rabs r * Rabs r)%R by (rewrite <- Rabs_mult, Rabs_right; [ring|]; apply Rle_ge, Rle_0_sqr). pose proof (Rabs_pos r) as HR. set (a := Rabs r) in *. clearbody a. split.
      - intros H. assert (H' : (1644 / 1000 * s < a)%R) by (apply (Rmult_lt_compat_r s) in H; [|exact HS]; replace (a * / s * s)%R with a in H by (field; lra); exact H).
        replace ((1644 / 1000) ^ 2 * (n * (s * s)))%R with (n * ((1644 / 1000 * s) * (1644 / 1000 * s)))%R by ring. apply Rmult_lt_compat_l; [exact HN|]. apply Rmult_le_0_lt_compat; try exact H'; nra.
      - intros H. apply (Rmult_lt_reg_r s); [exact HS|]. replace (a * / s * s)%R with a by (field; lra). destruct (Rlt_le_dec (1644 / 1000 * s) a) as [|G]; [assumption|]. exfalso.
        assert ((a * a <= (1644 / 1000 * s) * (1644 / 1000 * s))%R) by (apply Rmult_le_compat; assumption). assert ((n * (a * a) <= n * ((1644 / 1000 * s) * (1644 / 1000 * s)))%R) by (apply Rmult_le_compat_l; lra). lra. }
    unfold Rltb. destruct (Rlt_dec (1644 / 1000) (Rabs (r / s))) as [G|G]; split; try discriminate.
    + intros _. split; [exact M|]. split; [exact L|]. split; [apply V; reflexivity|apply X, G].
    + intros _. reflexivity.
    + intros (_ & _ & _ & H). exfalso. apply G, X, H.
  - split; [discriminate|]. intros (_ & _ & H & _). apply V in H. discriminate.
Qed.

Section Grid.
Variable roll next : Z -> Z.
Hypothesis next_later : forall t, (t < next t)%Z.
Variable decompose : list R -> list R.
Variable smooth : list R -> R * R.
Variable zq : R -> R.
Notation predict := (ThetaModel.predict roll next zq).
Notation fit := (ThetaModel.fit decompose smooth).
Definition no_out : out := {| o_time := 0; o_fcst := 0; o_lower := None; o_upper := None |}.

(** the season of step [i] *)
Definition season (m : nat) (f : fitted) (i : nat) : R := match t_season f with None => 1%R | Some s => nth (length s - m + i mod m) s 0%R end.
Lemma predict_rows m f alpha steps times last :
  (forall s, t_season f = Some s -> 0 < m <= length s) -> In last times -> (forall t, In t times -> (t <= last)%Z) -> roll last = last ->
  exists rows, predict m (Some f) alpha false steps times = Some rows /\ length rows = steps /\
    forall i, i < steps -> nth i rows no_out = band zq (after next (S i) last) (point f i * season m f i)%R alpha (option_map (fun s => s * sqrt (INR i * level f ^ 2 + 1))%R (sigma f)).
Proof.
  intros HS IL ML RL. unfold ThetaModel.predict. cbv zeta. rewrite (last_ok times last IL ML), future_on by assumption.
  set (fut := map _ (seq 0 steps)). assert (LF : length fut = steps) by (unfold fut; rewrite map_length, seq_length; reflexivity).
  set (y := match t_season f with None => _ | Some s => _ end).
  assert (Y : length y = steps /\ forall i, i < steps -> nth i y 0%R = (point f i * season m f i)%R).
  { unfold y, season. destruct (t_season f) as [s|].
    - specialize (HS s eq_refl). rewrite last_slice by exact HS. set (sl := skipn (length s - m) s). assert (LL : length sl = m) by (unfold sl; rewrite skipn_length; lia).
      assert (BIG : steps <= (1 + steps / m) * m). { pose proof (Nat.div_mod steps m ltac:(lia)). pose proof (Nat.mod_upper_bound steps m ltac:(lia)). nia. }
      assert (LT : length (firstn steps (tile sl (1 + steps / m))) = steps) by (rewrite firstn_length, tile_len, LL; lia).
      split; [rewrite zip_with_len, map_length, seq_length, LT; lia|]. intros i Hi. rewrite (zip_with_nth _ _ _ i 0%R 0%R) by (rewrite ?map_length, ?seq_length, ?LT; exact Hi). rewrite nth_map_seq by exact Hi. f_equal. rewrite StlfProps.nth_firstn' by exact Hi. rewrite tile_nth by (rewrite LL; lia). rewrite LL. unfold sl. rewrite nth_skip. reflexivity.
    - split; [rewrite map_length, seq_length; reflexivity|]. intros i Hi. rewrite nth_map_seq by exact Hi. ring. }
  destruct Y as [LY NY]. rewrite LF, LY, Nat.eqb_refl. cbn [negb]. eexists. split; [reflexivity|]. set (se := map _ (seq 0 steps)). assert (LE : length se = steps) by (unfold se; rewrite map_length, seq_length; reflexivity).
  split; [rewrite map_length, !combine_length, LF, LY, LE; lia|]. intros i Hi.
  pose (e := (0%Z, 0%R, @None R)). pose (g := fun p : Z * R * option R => band zq (fst (fst p)) (snd (fst p)) alpha (snd p)). change (nth i (map g (combine (combine fut y) se)) no_out = band zq (after next (S i) last) (point f i * season m f i)%R alpha (option_map (fun s => s * sqrt (INR i * level f ^ 2 + 1))%R (sigma f))).
  rewrite (nth_indep _ no_out (g e)) by (rewrite map_length, !combine_length, LF, LY, LE; lia). rewrite (map_nth g). unfold e, g. rewrite combine_nth by (rewrite combine_length, LF, LY, LE; lia). rewrite combine_nth by congruence. cbn [fst snd]. rewrite NY by exact Hi. unfold fut, se. rewrite !nth_map_seq by exact Hi. reflexivity.
Qed.
Definition deseasoned (m : nat) (y : list R) : list R := if check_seasonality m y then deseasonalize y (decompose y) else y.
Lemma fit_facts m y : let v := deseasoned m y in let f := fit m y in
  t_n f = length y /\ t_season f = (if check_seasonality m y then Some (decompose y) else None) /\ t_level f = fst (smooth v) /\ t_end f = ses (fst (smooth v)) (snd (smooth v)) v /\ t_drift f = (slope v / 2)%R.
Proof.
  unfold deseasoned, ThetaModel.fit. cbv zeta. destruct (check_seasonality m y).
  - set (v := deseasonalize y (decompose y)). destruct (smooth v) as [a l0]. pose proof (levels_ses a l0 v) as E. destruct (levels a l0 v) as [fits e]. cbn in *. repeat split; auto.
  - destruct (smooth y) as [a l0]. pose proof (levels_ses a l0 y) as E. destruct (levels a l0 y) as [fits e]. cbn in *. repeat split; auto.
Qed.
(** ** C176: the forecast *)
(** When the series is not seasonal, each forecast is the mean of the least squares line at that step and of the
    exponentially smoothed theta = 2 line, with the smoothing level chosen for the series. *)
Theorem C176_mean : forall m y alpha steps times last,
  check_seasonality m y = false -> (1 / 10 ^ 10 <= fst (smooth y))%R ->
  In last times -> (forall t, In t times -> (t <= last)%Z) -> roll last = last ->
  exists rows a b, predict m (Some (fit m y)) alpha false steps times = Some rows /\ length rows = steps /\ best_line y a b /\
    forall i, i < steps -> o_time (nth i rows no_out) = after next (S i) last /\
      o_fcst (nth i rows no_out) = theta_mean (fst (smooth y)) (snd (smooth y)) y a b i.
Proof.
  intros m y alpha steps times last CS HA IL ML RL. destruct (fit_facts m y) as (_ & F2 & _). rewrite CS in F2.
  destruct (predict_rows m (fit m y) alpha steps times last) as (rows & P & L & F); [rewrite F2; discriminate|exact IL|exact ML|exact RL|]. assert (EV : y = deseasoned m y) by (unfold deseasoned; rewrite CS; reflexivity).
  exists rows, (beta 2 (line_data y) 1), (slope y). split; [exact P|]. split; [exact L|]. split; [apply slope_best|]. intros i Hi. rewrite (F i Hi). cbn [band o_time o_fcst]. split; [reflexivity|]. unfold season. rewrite F2, Rmult_1_r.
  destruct (fit_facts m y) as (F1 & _ & F3 & F4 & F5). rewrite <- EV in *.
  assert (P10 : (0 < 1 / 10 ^ 10)%R) by (apply Rmult_lt_0_compat; [lra|apply Rinv_0_lt_compat, pow_lt; lra]).
  rewrite average by lra. unfold point, const. rewrite F1, F4, F5. assert (LE : level (fit m y) = fst (smooth y)) by (unfold level; rewrite F3; apply Rmax_right; exact HA). rewrite LE. reflexivity.
Qed.
(** A straight line is continued with half its slope. *)
Theorem C176_half_slope : forall m y alpha steps times last rows a b,
  check_seasonality m y = false -> 2 <= length y -> (forall t, t < length y -> nth t y 0%R = (a + b * INR t)%R) ->
  In last times -> (forall t, In t times -> (t <= last)%Z) -> roll last = last ->
  predict m (Some (fit m y)) alpha false steps times = Some rows ->
  forall i, S i < steps -> (o_fcst (nth (S i) rows no_out) - o_fcst (nth i rows no_out) = b / 2)%R.
Proof.
  intros m y alpha steps times last rows a b CS L2 HY IL ML RL P i Hi. destruct (fit_facts m y) as (_ & F2 & _ & _ & F5). rewrite CS in F2.
  destruct (predict_rows m (fit m y) alpha steps times last) as (rows' & P' & L & F); [rewrite F2; discriminate|exact IL|exact ML|exact RL|]. rewrite P in P'. injection P' as <-. rewrite (F i) by lia. rewrite (F (S i)) by lia. cbn [band o_fcst]. unfold season. rewrite F2, !Rmult_1_r. unfold point. rewrite F5, S_INR.
  unfold deseasoned. rewrite CS. rewrite (slope_exact y a b L2 HY). field.
Qed.

(** ** C177: the intervals *)
Hypothesis zq_half : zq (1 / 2) = 0%R.
Hypothesis zq_antitone : forall p q, (0 < p <= q)%R -> (q <= 1 / 2)%R -> (zq q <= zq p)%R.
Theorem C177_middle : forall m y alpha steps times last rows,
  (check_seasonality m y = true -> m <= length (decompose y)) -> (0 < alpha <= 1)%R ->
  In last times -> (forall t, In t times -> (t <= last)%Z) -> roll last = last ->
  predict m (Some (fit m y)) alpha false steps times = Some rows ->
  forall i, i < steps ->
    if 2 <? length y
    then exists lo hi, o_lower (nth i rows no_out) = Some lo /\ o_upper (nth i rows no_out) = Some hi /\ (lo <= o_fcst (nth i rows no_out) <= hi)%R /\
         (hi - o_fcst (nth i rows no_out) = o_fcst (nth i rows no_out) - lo)%R
    else o_lower (nth i rows no_out) = None /\ o_upper (nth i rows no_out) = None.
Proof.
  intros m y alpha steps times last rows HS HA IL ML RL P i Hi. destruct (fit_facts m y) as (F1 & F2 & _).
  assert (SE : forall s, t_season (fit m y) = Some s -> 0 < m <= length s). { intros s E. rewrite F2 in E. destruct (check_seasonality m y) eqn:CS; [|discriminate]. injection E as <-. split; [|apply HS; reflexivity]. unfold check_seasonality in CS. destruct (Nat.ltb_spec 1 m); [lia|discriminate]. }
  destruct (predict_rows m (fit m y) alpha steps times last SE IL ML RL) as (rows' & P' & L & F). rewrite P in P'. injection P' as <-. rewrite (F i Hi). cbn [band o_fcst o_lower o_upper]. unfold sigma. rewrite F1.
  destruct (Nat.leb_spec (length y) 2) as [H|H], (Nat.ltb_spec 2 (length y)) as [H'|H']; try lia; [split; reflexivity|]. cbn [option_map]. do 2 eexists. split; [reflexivity|]. split; [reflexivity|].
  pose proof (zq_antitone (alpha / 2) (1 / 2) ltac:(lra) ltac:(lra)) as Q. rewrite zq_half in Q. set (w := (sqrt (t_sse (fit m y) / INR (length y - 2)) * sqrt (INR i * level (fit m y) ^ 2 + 1))%R). assert (W : (0 <= w)%R) by (apply Rmult_le_pos; apply sqrt_pos). assert (0 <= zq (alpha / 2) * w)%R by (apply Rmult_le_pos; assumption). split; lra.
Qed.
(** A later step never has a narrower interval. *)
Theorem C177_wider : forall m y alpha steps times last rows,
  (check_seasonality m y = true -> m <= length (decompose y)) -> (0 < alpha <= 1)%R ->
  In last times -> (forall t, In t times -> (t <= last)%Z) -> roll last = last ->
  predict m (Some (fit m y)) alpha false steps times = Some rows ->
  forall i j lo hi lo' hi', i < j -> j < steps ->
    o_lower (nth i rows no_out) = Some lo -> o_upper (nth i rows no_out) = Some hi -> o_lower (nth j rows no_out) = Some lo' -> o_upper (nth j rows no_out) = Some hi' ->
    (hi - lo <= hi' - lo')%R.
Proof.
  intros m y alpha steps times last rows HS HA IL ML RL P i j lo hi lo' hi' Hij Hj E1 E2 E3 E4. destruct (fit_facts m y) as (F1 & F2 & _).
  assert (SE : forall s, t_season (fit m y) = Some s -> 0 < m <= length s). { intros s E. rewrite F2 in E. destruct (check_seasonality m y) eqn:CS; [|discriminate]. injection E as <-. split; [|apply HS; reflexivity]. unfold check_seasonality in CS. destruct (Nat.ltb_spec 1 m); [lia|discriminate]. }
  destruct (predict_rows m (fit m y) alpha steps times last SE IL ML RL) as (rows' & P' & L & F). rewrite P in P'. injection P' as <-. rewrite (F i) in E1, E2 by lia. rewrite (F j) in E3, E4 by lia. cbn [band o_lower o_upper] in *. destruct (sigma (fit m y)) as [s|] eqn:ES; [|discriminate]. cbn [option_map] in *.
  apply RegBandProps.some_inj in E1, E2, E3, E4. rewrite <- E1, <- E2, <- E3, <- E4. assert (S0 : (0 <= s)%R). { unfold sigma in ES. destruct (t_n (fit m y) <=? 2); [discriminate|]. injection ES as <-. apply sqrt_pos. }
  pose proof (zq_antitone (alpha / 2) (1 / 2) ltac:(lra) ltac:(lra)) as Q. rewrite zq_half in Q. set (u := level (fit m y)). assert (IJ : (INR i <= INR j)%R) by (apply le_INR; lia).
  assert (W : (sqrt (INR i * u ^ 2 + 1) <= sqrt (INR j * u ^ 2 + 1))%R). { apply sqrt_le_1_alt. apply Rplus_le_compat_r, Rmult_le_compat_r; [apply pow2_ge_0|exact IJ]. }
  assert (zq (alpha / 2) * (s * sqrt (INR i * u ^ 2 + 1)) <= zq (alpha / 2) * (s * sqrt (INR j * u ^ 2 + 1)))%R by (apply Rmult_le_compat_l; [exact Q|apply Rmult_le_compat_l; assumption]). lra.
Qed.

(** ** C178: the season *)
(** C178 (partial): when the series is seasonal and its seasonal component stays away from zero, each forecast is that
    of the deseasonalised series times the seasonal component observed a whole number of [m] observations before. *)
Theorem C178_season_partial : forall m y alpha steps times last,
  check_seasonality m y = true -> length (decompose y) = length y -> (forall s, In s (decompose y) -> (1 / 10 ^ 10 <= Rabs s)%R) ->
  (1 / 10 ^ 10 <= fst (smooth (zip_with Rdiv y (decompose y))))%R ->
  In last times -> (forall t, In t times -> (t <= last)%Z) -> roll last = last ->
  let v := zip_with Rdiv y (decompose y) in
  exists rows a b, predict m (Some (fit m y)) alpha false steps times = Some rows /\ length rows = steps /\ best_line v a b /\
    forall i, i < steps -> exists x k, x < length y /\ k > 0 /\ x + k * m = length y + i /\
      o_fcst (nth i rows no_out) = (theta_mean (fst (smooth v)) (snd (smooth v)) v a b i * nth x (decompose y) 0)%R.
Proof.
  intros m y alpha steps times last CS LD NZ HA IL ML RL v. destruct (fit_facts m y) as (F1 & F2 & _). rewrite CS in F2.
  assert (HM : 0 < m /\ 2 * m < length y). { unfold check_seasonality in CS. destruct (Nat.ltb_spec 1 m), (varies y), (Nat.ltb_spec (2 * m) (length y)); try discriminate. lia. }
  destruct (predict_rows m (fit m y) alpha steps times last) as (rows & P & L & F); [intros s E; rewrite F2 in E; injection E as <-; lia|exact IL|exact ML|exact RL|].
  assert (EV : v = deseasoned m y). { unfold v, deseasoned. rewrite CS. unfold deseasonalize. destruct (existsb _ (decompose y)) eqn:EX; [|reflexivity]. apply existsb_exists in EX as (s & Hs & LT). specialize (NZ s Hs). unfold Rltb in LT. destruct (Rlt_dec (Rabs s) (1 / 10 ^ 10)); [lra|discriminate]. }
  assert (LV : length v = length y) by (unfold v; rewrite zip_with_len; lia).
  exists rows, (beta 2 (line_data v) 1), (slope v). split; [exact P|]. split; [exact L|]. split; [apply slope_best|]. intros i Hi. pose proof (Nat.div_mod i m ltac:(lia)) as DM. pose proof (Nat.mod_upper_bound i m ltac:(lia)) as MB.
  exists (length y - m + i mod m), (1 + i / m). split; [lia|]. split; [lia|]. split; [nia|]. rewrite (F i Hi). cbn [band o_fcst]. unfold season. rewrite F2, LD. f_equal.
  destruct (fit_facts m y) as (_ & _ & F3 & F4 & F5). rewrite <- EV in *.
  assert (P10 : (0 < 1 / 10 ^ 10)%R) by (apply Rmult_lt_0_compat; [lra|apply Rinv_0_lt_compat, pow_lt; lra]).
  rewrite average by (fold v in HA; lra). unfold point, const. rewrite F1, F4, F5. assert (LE : level (fit m y) = fst (smooth v)) by (unfold level; rewrite F3; apply Rmax_right; exact HA). rewrite LE, LV. reflexivity.
Qed.
(** When some value of the seasonal component is below 1e-10, the log announces the non-seasonal method, and the line
    and the smoothing are those of the series as it is; but every forecast is still multiplied by the season, so it is
    not the non-seasonal forecast wherever the season is not 1. *)
Theorem C178_small_refuted : forall m y alpha steps times last,
  check_seasonality m y = true -> length (decompose y) = length y -> (exists s, In s (decompose y) /\ (Rabs s < 1 / 10 ^ 10)%R) ->
  (1 / 10 ^ 10 <= fst (smooth y))%R ->
  In last times -> (forall t, In t times -> (t <= last)%Z) -> roll last = last ->
  exists rows a b, predict m (Some (fit m y)) alpha false steps times = Some rows /\ length rows = steps /\ best_line y a b /\
    forall i, i < steps -> let x := length y - m + i mod m in
      o_fcst (nth i rows no_out) = (theta_mean (fst (smooth y)) (snd (smooth y)) y a b i * nth x (decompose y) 0)%R /\
      (nth x (decompose y) 0 <> 1 -> theta_mean (fst (smooth y)) (snd (smooth y)) y a b i <> 0 ->
       o_fcst (nth i rows no_out) <> theta_mean (fst (smooth y)) (snd (smooth y)) y a b i)%R.
Proof.
  intros m y alpha steps times last CS LD (s0 & IS & SM) HA IL ML RL. destruct (fit_facts m y) as (F1 & F2 & F3 & F4 & F5). rewrite CS in F2.
  assert (HM : 0 < m /\ 2 * m < length y). { unfold check_seasonality in CS. destruct (Nat.ltb_spec 1 m), (varies y), (Nat.ltb_spec (2 * m) (length y)); try discriminate. lia. }
  destruct (predict_rows m (fit m y) alpha steps times last) as (rows & P & L & F); [intros s E; rewrite F2 in E; injection E as <-; lia|exact IL|exact ML|exact RL|].
  assert (EV : deseasoned m y = y). { unfold deseasoned. rewrite CS. unfold deseasonalize. destruct (existsb _ (decompose y)) eqn:EX; [reflexivity|]. exfalso.
    assert (T : existsb (fun v => Rltb (Rabs v) (1 / 10 ^ 10)) (decompose y) = true). { apply existsb_exists. exists s0. split; [exact IS|]. unfold Rltb. destruct (Rlt_dec (Rabs s0) (1 / 10 ^ 10)) as [|N]; [reflexivity|contradiction]. } congruence. }
  rewrite EV in *. exists rows, (beta 2 (line_data y) 1), (slope y). split; [exact P|]. split; [exact L|]. split; [apply slope_best|]. intros i Hi x.
  assert (E : o_fcst (nth i rows no_out) = (theta_mean (fst (smooth y)) (snd (smooth y)) y (beta 2 (line_data y) 1%nat) (slope y) i * nth x (decompose y) 0)%R).
  { rewrite (F i Hi). cbn [band o_fcst]. unfold season, x. rewrite F2, LD. f_equal.
    assert (P10 : (0 < 1 / 10 ^ 10)%R) by (apply Rmult_lt_0_compat; [lra|apply Rinv_0_lt_compat, pow_lt; lra]).
    rewrite average by lra. unfold point, const. rewrite F1, F4, F5. assert (LE : level (fit m y) = fst (smooth y)) by (unfold level; rewrite F3; apply Rmax_right; exact HA). rewrite LE. reflexivity. }
  split; [exact E|]. intros N1 N2. rewrite E. set (u := theta_mean _ _ _ _ _ _) in *. set (w := nth x (decompose y) 0%R) in *. intros C. apply N1. apply (Rmult_eq_reg_l u); [lra|exact N2].
Qed.
(** Asking for the history puts one row for every observation before the same forecasts: what exponential smoothing of the earlier
    (deseasonalised) observations expects there, with the season put back. *)
Lemma levels_nth a l y j : j < length y -> nth j (fst (levels a l y)) 0%R = ses a l (firstn j y).
Proof.
  revert l j. induction y as [|x y IH]; intros l j H; [cbn in H; lia|]. cbn [levels]. specialize (IH (a * x + (1 - a) * l)%R). destruct (levels a (a * x + (1 - a) * l) y) as [f e]. cbn [fst] in *.
  destruct j as [|j]; [reflexivity|]. cbn [nth firstn]. rewrite IH by (cbn in H; lia). reflexivity.
Qed.
Theorem C178_history : forall m y alpha steps times rows v s,
  length times = length y ->
  (check_seasonality m y = false /\ v = y /\ s = repeat 1%R (length y)) \/
  (check_seasonality m y = true /\ s = decompose y /\ length s = length y /\ (forall x, In x s -> (1 / 10 ^ 10 <= Rabs x)%R) /\ v = zip_with Rdiv y s) ->
  predict m (Some (fit m y)) alpha false steps times = Some rows ->
  exists past, predict m (Some (fit m y)) alpha true steps times = Some (past ++ rows) /\ length past = length y /\
    forall j, j < length y -> o_time (nth j past no_out) = nth j times 0%Z /\
      o_fcst (nth j past no_out) = (ses (fst (smooth v)) (snd (smooth v)) (firstn j v) * nth j s 0)%R.
Proof.
  intros m y alpha steps times rows v s LT C E.
  assert (F : length (t_fits (fit m y)) = length y /\ forall j, j < length y -> nth j (t_fits (fit m y)) 0%R = (ses (fst (smooth v)) (snd (smooth v)) (firstn j v) * nth j s 0)%R).
  { unfold ThetaModel.fit. cbv zeta. destruct C as [(-> & -> & ->)|(-> & -> & LS & NS & ->)].
    - pose proof (levels_nth (fst (smooth y)) (snd (smooth y)) y) as N. pose proof (levels_len (fst (smooth y)) (snd (smooth y)) y) as LL. destruct (smooth y) as [a l0]. cbn [fst snd] in *. destruct (levels a l0 y) as [f e]. cbn [fst t_fits] in *.
      split; [exact LL|]. intros j Hj. rewrite N by exact Hj. rewrite (nth_indep _ 0%R 1%R) by (rewrite repeat_length; exact Hj). rewrite nth_repeat. ring.
    - unfold deseasonalize. replace (existsb _ (decompose y)) with false.
      2:{ symmetry. apply not_true_is_false. intros T. apply existsb_exists in T as (x & I & T). specialize (NS x I). unfold Rltb in T. destruct (Rlt_dec (Rabs x) (1 / 10 ^ 10)); [lra|discriminate]. }
      set (v := zip_with Rdiv y (decompose y)). assert (LV : length v = length y) by (unfold v; rewrite zip_with_len; lia).
      pose proof (levels_nth (fst (smooth v)) (snd (smooth v)) v) as N. pose proof (levels_len (fst (smooth v)) (snd (smooth v)) v) as LL. destruct (smooth v) as [a l0]. cbn [fst snd] in *. destruct (levels a l0 v) as [f e]. cbn [fst t_fits] in *.
      split; [rewrite zip_with_len; lia|]. intros j Hj. rewrite (zip_with_nth _ _ _ j 0%R 0%R) by lia. rewrite N by lia. reflexivity. }
  destruct F as [LF NF]. unfold ThetaModel.predict in *. cbv zeta in *. destruct (negb _); [discriminate|]. assert (X : forall (A : Type) (a b : A), Some a = Some b -> b = a) by congruence. apply X in E. subst rows. rewrite LF, LT, Nat.eqb_refl. cbn [negb].
  eexists. split; [reflexivity|]. split; [rewrite zip_with_len; lia|]. intros j Hj.
  pose (g := fun p : Z * R => band zq (fst p) (snd p) alpha (sigma (fit m y))). unfold zip_with. change (map _ (combine times (t_fits (fit m y)))) with (map g (combine times (t_fits (fit m y)))).
  rewrite (nth_indep _ no_out (g (0%Z, 0%R))) by (rewrite map_length, combine_length; lia). rewrite (map_nth g), combine_nth by lia. unfold g. cbn [band o_time o_fcst fst snd]. split; [reflexivity|apply NF, Hj].
Qed.
End Grid.

(** ** Cases *)
Lemma tiny : (1 / 10 ^ 10 <= 1 / 2)%R.
Proof. apply Rmult_le_compat_l; [lra|]. apply Rinv_le_contravar; [lra|]. cbn [pow]. lra. Qed.
Definition wave : list R := concat (repeat [1; 2]%R 10).
Lemma wave_mean : mean wave = (3 / 2)%R.
Proof. unfold mean, wave, lsum. change (length (concat (repeat [1; 2]%R 10))) with 20. rewrite INR_IZR_INZ. cbn [Z.of_nat Pos.of_succ_nat Pos.succ repeat concat app fold_right]. lra. Qed.
Lemma wave_acov : acov wave 0 = 5%R /\ acov wave 1 = (- 19 / 4)%R /\ acov wave 2 = (18 / 4)%R.
Proof. unfold acov. rewrite wave_mean. unfold wave. repeat split; cbn [length repeat concat app Nat.sub seq map nth plus]; unfold lsum; cbn [fold_right]; lra. Qed.
Lemma wave_seasonal : check_seasonality 2 wave = true.
Proof.
  unfold check_seasonality. destruct wave_acov as (A0 & A1 & A2). assert (V : varies wave = true). { unfold varies. apply existsb_exists. exists 2%R. split; [cbn; auto|]. unfold Reqb. cbn. destruct (Req_EM_T 2 1); [lra|reflexivity]. }
  rewrite V. change (length wave) with 20. cbn [Nat.ltb Nat.leb andb Nat.sub seq map Nat.mul plus]. unfold lsum. cbn [fold_right]. unfold acf. rewrite A0, A1, A2. rewrite INR_IZR_INZ. cbn [Z.of_nat Pos.of_succ_nat Pos.succ].
  assert (S0 : (0 < sqrt ((1 + 2 * ((- 19 / 4 / 5) ^ 2 + 0)) / 20))%R) by (apply sqrt_lt_R0; lra).
  assert (S1 : (sqrt ((1 + 2 * ((- 19 / 4 / 5) ^ 2 + 0)) / 20) < 1 / 2)%R). { replace (1 / 2)%R with (sqrt ((1 / 2) ^ 2)) by (apply sqrt_pow2; lra). apply sqrt_lt_1_alt. lra. }
  set (q := sqrt _) in *. clearbody q. unfold Rltb. destruct (Rlt_dec _ _) as [|N]; [reflexivity|]. exfalso. apply N. assert (B : (2 < / q)%R). { apply (Rmult_lt_reg_r q); [exact S0|]. rewrite Rinv_l by lra. lra. }
  rewrite Rabs_right; [unfold Rdiv at 3|apply Rle_ge, Rlt_le, Rmult_lt_0_compat; [lra|apply Rinv_0_lt_compat, S0]]. unfold Rdiv. nra.
Qed.
Definition half_level (y : list R) : R * R := (1 / 2, nth 0 y 0)%R.
Definition two_days : list Z := [0; 86400]%Z.
Example C176_case : check_seasonality 2 [1; 3; 5; 7]%R = false /\ (1 / 10 ^ 10 <= fst (half_level [1; 3; 5; 7]%R))%R /\
  In 86400%Z two_days /\ (forall t, In t two_days -> (t <= 86400)%Z) /\ (forall t, t < 4 -> nth t [1; 3; 5; 7]%R 0%R = (1 + 2 * INR t)%R) /\
  ses (1 / 2) 1 [1; 3; 5; 7]%R = (21 / 4)%R.
Proof.
  split; [unfold check_seasonality; change (2 * 2 <? length [1; 3; 5; 7]%R) with false; rewrite andb_false_r; reflexivity|]. split; [unfold half_level; cbn [fst]; exact tiny|].
  split; [cbn; auto|]. split; [intros t [<-|[<-|[]]]; lia|]. split; [intros [|[|[|[|t]]]] H; try lia; cbn; lra|]. unfold ses. cbn. lra.
Qed.
Example C177_case : exists zq : R -> R, zq (1 / 2)%R = 0%R /\ (forall p q, (0 < p <= q)%R -> (q <= 1 / 2)%R -> (zq q <= zq p)%R) /\ (0 < zq (1 / 40))%R /\
  check_seasonality 2 wave = true /\ 2 <= length wave.
Proof. exists (fun p => 1 - 2 * p)%R. split; [lra|]. split; [intros; lra|]. split; [lra|]. split; [apply wave_seasonal|cbn; lia]. Qed.
Example C178_case : check_seasonality 2 wave = true /\ length (map (fun v => v * (2 / 3))%R wave) = length wave /\
  (forall s, In s (map (fun v => v * (2 / 3))%R wave) -> (1 / 10 ^ 10 <= Rabs s)%R) /\
  nth 18 (map (fun v => v * (2 / 3))%R wave) 0%R = (2 / 3)%R.
Proof.
  split; [apply wave_seasonal|]. split; [apply map_length|]. split; [|cbn; lra]. intros s Hs. assert (B : (2 / 3 <= s)%R). { apply in_map_iff in Hs as (v & <- & Hv). assert (v = 1 \/ v = 2)%R by (cbn in Hv; intuition). lra. }
  rewrite Rabs_right by lra. apply Rle_trans with (2 := B). pose proof tiny. lra.
Qed.

Print Assumptions C176_mean.
Print Assumptions C176_half_slope.
Print Assumptions C177_middle.
Print Assumptions C177_wider.
Print Assumptions C178_season_partial.
Print Assumptions C178_small_refuted.

Print Assumptions C178_history.

Print Assumptions C178_seasonal.
