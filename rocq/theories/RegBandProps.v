(** The linear and the quadratic forecaster: rescaled data, and the prediction intervals. *)
From Coq Require Import List ZArith Reals Bool Lia Lra Arith.
From Verif Require Import OutlierModel OutlierProps HeuristicModel HeuristicSpec HeuristicProps LsqModel LsqProofs RegModel RegProps.
Import ListNotations.
Open Scope nat_scope.

Lemma some_inj {A} (x y : A) : Some x = Some y -> x = y.
Proof. congruence. Qed.
Section Grid.
Variable roll next : Z -> Z.
Hypothesis next_later : forall t, (t < next t)%Z.
Variable tq : R -> nat -> R.
Notation predict := (RegModel.predict roll next tq).

Lemma answer m alpha history steps times values last rows :
  length times = length values -> In last times -> (forall t, In t times -> (t <= last)%Z) -> roll last = last ->
  predict m (fit m values) alpha history steps times = Some rows ->
  length rows = (if history then length times + steps else steps) /\
  forall i, i < length rows -> nth i rows default = forecast_line tq (trained m values) (full m) alpha (stamp next history times last i, index history (length times) i).
Proof.
  intros LT IL ML RL E. assert (HS : history = true \/ 2 <= steps).
  { destruct history; [left; reflexivity|right]. destruct steps as [|[|n]]; [exfalso; unfold RegModel.predict in E; cbn in E; destruct (fit m values); discriminate|exfalso|lia]. rewrite C169_one_step_refuted in E; [discriminate|destruct times; [destruct IL|discriminate]|exact LT]. }
  destruct (predict_rows roll next next_later tq m alpha history steps times values last LT IL ML RL HS) as (rows' & E' & L & A). rewrite E in E'. injection E' as <-. split; assumption.
Qed.
(** C171: multiplying the observations by a number and adding a line (parabola) to them does the same to every row of
    the answer, from two (three) observations on. *)
Theorem C171_affine : forall m alpha history steps times values values' last rows rows' s a b c,
  length times = length values -> length times = length values' -> In last times -> (forall t, In t times -> (t <= last)%Z) -> roll last = last ->
  predict m (fit m values) alpha history steps times = Some rows -> predict m (fit m values') alpha history steps times = Some rows' ->
  need m <= length values -> (forall i, i < length values -> nth i values' 0%R = (s * nth i values 0 + curve m a b c i)%R) ->
  forall i, i < length rows -> l_fcst (nth i rows' default) = (s * l_fcst (nth i rows default) + curve m a b c (if history then i else length values + i))%R.
Proof.
  intros m alpha history steps times values values' last rows rows' s a b c LT LT' IL ML RL E E' NM HV i Hi.
  destruct (answer _ _ _ _ _ _ _ _ LT IL ML RL E) as [L A]. destruct (answer _ _ _ _ _ _ _ _ LT' IL ML RL E') as [L' A']. rewrite A by exact Hi. rewrite A' by (rewrite L', <- L; exact Hi). cbn [l_fcst forecast_line snd]. rewrite !trained_params.
  set (D := f_data (trained m values)). set (D' := f_data (trained m values')). set (p := fun i => match i with 0 => a | 1 => b | _ => c end).
  set (q := fun i => (s * beta (need m) D i + p i)%R).
  assert (Q : forall r, dot (need m) q r = (s * dot (need m) (beta (need m) D) r + dot (need m) p r)%R).
  { intros r. unfold q. rewrite <- dot_scale. unfold dot. rewrite <- total_plus. apply total_ext. intros. ring. }
  rewrite (dot_ext (need m) (beta (need m) D') q).
  - rewrite Q, (dot_full m p). unfold index, p. rewrite LT. reflexivity.
  - apply beta_unique; [apply independent_full; lia|]. apply normal_least. intros r.
    pose proof (normal_all (need m) D r) as N. unfold normal, D in N. rewrite trained_sum in N. unfold D'. rewrite trained_sum. rewrite <- LT', LT.
    transitivity (s * total (length values) (fun i => resid (need m) (beta (need m) D) (row_of (full m) i, nth i values 0) * dot (need m) r (row_of (full m) i)))%R; [|unfold D; cbn [fst snd] in N; rewrite N; ring].
    rewrite <- total_scale. apply total_ext. intros j Hj. cbn [fst snd]. rewrite (HV j Hj), Q, (dot_full m p). unfold resid, p. cbn [fst snd]. ring.
Qed.

(** ** C172: prediction intervals *)
Hypothesis tq_half : forall df, (0 < df) -> tq (1 / 2) df = 0%R.
Hypothesis tq_antitone : forall p q df, 0 < df -> (0 < p <= q)%R -> (q <= 1 / 2)%R -> (tq q df <= tq p df)%R.

Lemma freedom_ok m values : freedom (trained m values) = length values - need m.
Proof. unfold freedom. rewrite trained_params. cbn [f_data trained]. rewrite combine_length, map_length, seq_length, Nat.min_id. reflexivity. Qed.
Lemma std_nonneg f r s : std_error f r = Some s -> (0 <= s)%R.
Proof. unfold std_error. destruct (freedom f); [discriminate|]. intros E. injection E as <-. apply sqrt_pos. Qed.
Lemma std_some f r : 0 < freedom f -> exists s, std_error f r = Some s /\ (0 <= s)%R.
Proof. intros H. unfold std_error. destruct (freedom f); [lia|]. eexists. split; [reflexivity|apply sqrt_pos]. Qed.
Lemma std_none f r : freedom f = 0 -> std_error f r = None.
Proof. intros H. unfold std_error. rewrite H. reflexivity. Qed.

(** With more observations than parameters and 0 < alpha <= 1, the forecast is the middle of its interval; with fewer
    the bounds are NaN. *)
Theorem C172_middle : forall m alpha history steps times values last rows,
  length times = length values -> In last times -> (forall t, In t times -> (t <= last)%Z) -> roll last = last -> (0 < alpha <= 1)%R ->
  predict m (fit m values) alpha history steps times = Some rows ->
  forall i, i < length rows ->
    if need m <? length values
    then exists lo hi, l_lower (nth i rows default) = Some lo /\ l_upper (nth i rows default) = Some hi /\
         (lo <= l_fcst (nth i rows default) <= hi)%R /\ (hi - l_fcst (nth i rows default) = l_fcst (nth i rows default) - lo)%R
    else l_lower (nth i rows default) = None /\ l_upper (nth i rows default) = None.
Proof.
  intros m alpha history steps times values last rows LT IL ML RL HA E i Hi. destruct (answer _ _ _ _ _ _ _ _ LT IL ML RL E) as [L A]. rewrite A by exact Hi. cbn [l_fcst l_lower l_upper forecast_line snd]. rewrite freedom_ok.
  set (r := row_of (full m) _). set (y := dot _ _ r). destruct (Nat.ltb_spec (need m) (length values)) as [H|H].
  - destruct (std_some (trained m values) r) as (s & -> & Hs); [rewrite freedom_ok; lia|]. cbn [option_map]. do 2 eexists. split; [reflexivity|]. split; [reflexivity|].
    assert (T : (0 <= tq (alpha / 2) (length values - need m))%R) by (rewrite <- (tq_half (length values - need m)) by lia; apply tq_antitone; [lia|lra|lra]).
    assert (0 <= tq (alpha / 2) (length values - need m) * s)%R by (apply Rmult_le_pos; assumption). split; lra.
  - rewrite std_none by (rewrite freedom_ok; lia). split; reflexivity.
Qed.
(** A smaller alpha gives an interval that contains the other. *)
Theorem C172_nested : forall m alpha alpha' history steps times values last rows rows',
  length times = length values -> In last times -> (forall t, In t times -> (t <= last)%Z) -> roll last = last -> (0 < alpha <= alpha')%R -> (alpha' <= 1)%R ->
  predict m (fit m values) alpha history steps times = Some rows -> predict m (fit m values) alpha' history steps times = Some rows' ->
  forall i lo hi lo' hi', i < length rows ->
    l_lower (nth i rows default) = Some lo -> l_upper (nth i rows default) = Some hi -> l_lower (nth i rows' default) = Some lo' -> l_upper (nth i rows' default) = Some hi' ->
    (lo <= lo' /\ lo' <= hi' /\ hi' <= hi)%R /\ l_fcst (nth i rows' default) = l_fcst (nth i rows default).
Proof.
  intros m alpha alpha' history steps times values last rows rows' LT IL ML RL HA HA' E E' i lo hi lo' hi' Hi E1 E2 E3 E4.
  destruct (answer _ _ _ _ _ _ _ _ LT IL ML RL E) as [L A]. destruct (answer _ _ _ _ _ _ _ _ LT IL ML RL E') as [L' A']. rewrite A in E1, E2 |- * by exact Hi. rewrite A' in E3, E4 |- * by (rewrite L', <- L; exact Hi). cbn [l_fcst l_lower l_upper forecast_line snd] in *. split; [|reflexivity].
  rewrite freedom_ok in *. destruct (std_error (trained m values) (row_of (full m) (index history (length times) i))) as [s|] eqn:S; [|discriminate]. pose proof (std_nonneg _ _ _ S) as Hs. cbn [option_map] in *.
  assert (F : 0 < length values - need m) by (destruct (Nat.eq_dec (length values - need m) 0) as [Z|]; [|lia]; rewrite std_none in S by (rewrite freedom_ok; exact Z); discriminate).
  injection E1 as <-. injection E2 as <-. injection E3 as <-. injection E4 as <-. set (y := dot _ _ _). set (df := length values - need m) in *.
  pose proof (tq_antitone (alpha / 2) (alpha' / 2) df F ltac:(lra) ltac:(lra)) as T1. pose proof (tq_antitone (alpha' / 2) (1 / 2) df F ltac:(lra) ltac:(lra)) as T2. rewrite tq_half in T2 by exact F.
  assert (0 <= tq (alpha' / 2) df * s)%R by (apply Rmult_le_pos; assumption). assert (tq (alpha' / 2) df * s <= tq (alpha / 2) df * s)%R by (apply Rmult_le_compat_r; assumption). lra.
Qed.
(** Observations exactly on the curve leave no uncertainty: both bounds are the value of the curve. *)
Theorem C172_exact : forall m alpha history steps times values last rows a b c,
  length times = length values -> In last times -> (forall t, In t times -> (t <= last)%Z) -> roll last = last ->
  predict m (fit m values) alpha history steps times = Some rows -> need m < length values -> (forall i, i < length values -> nth i values 0%R = curve m a b c i) ->
  forall i, i < length rows -> l_lower (nth i rows default) = Some (curve m a b c (if history then i else length values + i)) /\ l_upper (nth i rows default) = Some (curve m a b c (if history then i else length values + i)).
Proof.
  intros m alpha history steps times values last rows a b c LT IL ML RL E NM HV i Hi. pose proof (C171_exact roll next next_later tq m alpha history steps times values last rows a b c LT IL ML RL E ltac:(lia) HV i Hi) as F.
  destruct (answer _ _ _ _ _ _ _ _ LT IL ML RL E) as [L A]. rewrite A in F |- * by exact Hi. cbn [l_fcst l_lower l_upper forecast_line snd] in *. rewrite F.
  unfold std_error. rewrite freedom_ok. destruct (length values - need m) as [|df] eqn:ED; [lia|].
  assert (Z : ssr (n_params (trained m values)) (f_data (trained m values)) (beta (n_params (trained m values)) (f_data (trained m values))) = 0%R).
  { rewrite trained_params. apply (ssr_exact _ _ (fun i => match i with 0 => a | 1 => b | _ => c end)). intros d Hd. apply trained_data in Hd as (x & Hx & ->). cbn [fst snd]. rewrite dot_full. apply HV, Hx. }
  rewrite Z. replace (0 / INR (S df) * (1 + leverage (n_params (trained m values)) (f_data (trained m values)) (row_of (full m) (index history (length times) i))))%R with 0%R by (unfold Rdiv; ring). rewrite sqrt_0. cbn [option_map]. split; f_equal; ring.
Qed.
(** For a line, a later step never has a narrower interval. *)
(** The textbook width: with the smallest sum of squared residuals S of n observations and p parameters, the standard error at x is
    sqrt (S / (n - p) * (1 + u x)), where u is the curve with sum_t u t * w t = w x for every curve w (u x = x' (X'X)^-1 x). *)
Theorem C172_width : forall m alpha history steps times values last rows,
  length times = length values -> In last times -> (forall t, In t times -> (t <= last)%Z) -> roll last = last ->
  predict m (fit m values) alpha history steps times = Some rows -> need m < length values ->
  exists least a0 b0 c0, least = total (length values) (fun t => Rsqr (nth t values 0 - curve m a0 b0 c0 t))%R /\
    (forall a b c, least <= total (length values) (fun t => Rsqr (nth t values 0 - curve m a b c t)))%R /\
    forall i, i < length rows -> let x := if history then i else length values + i in
      exists ua ub uc, (forall a b c, total (length values) (fun t => curve m ua ub uc t * curve m a b c t)%R = curve m a b c x) /\
        l_upper (nth i rows default) = Some (l_fcst (nth i rows default) + tq (alpha / 2) (length values - need m) * sqrt (least / INR (length values - need m) * (1 + curve m ua ub uc x)))%R /\
        l_lower (nth i rows default) = Some (l_fcst (nth i rows default) - tq (alpha / 2) (length values - need m) * sqrt (least / INR (length values - need m) * (1 + curve m ua ub uc x)))%R.
Proof.
  intros m alpha history steps times values last rows LT IL ML RL E NM. destruct (answer _ _ _ _ _ _ _ _ LT IL ML RL E) as [L A].
  set (D := f_data (trained m values)) in *. set (B := beta (need m) D). exists (ssr (need m) D B), (B 0), (B 1), (B 2).
  assert (SS : forall p, ssr (need m) D p = total (length values) (fun t => Rsqr (nth t values 0 - curve m (p 0%nat) (p 1%nat) (p 2%nat) t))%R).
  { intros p. unfold ssr, D. rewrite trained_sum. apply total_ext. intros t _. cbn [fst snd]. rewrite dot_full. reflexivity. }
  split; [apply SS|]. split; [intros a b c; pose proof (beta_least (need m) D (fun i => match i with 0 => a | 1 => b | _ => c end)) as P; rewrite <- (SS (fun i => match i with 0 => a | 1 => b | _ => c end)); exact P|].
  intros i Hi x. destruct (leverage_inverse (need m) D (row_of (full m) x) ltac:(apply independent_full; lia)) as (u & U & H). exists (u 0), (u 1), (u 2). split.
  - intros a b c. specialize (U (fun i => match i with 0 => a | 1 => b | _ => c end)). rewrite dot_full in U. rewrite <- U. unfold inner, D. rewrite trained_sum. apply total_ext. intros t _. cbn [fst]. rewrite !dot_full. reflexivity.
  - rewrite A by exact Hi. cbn [l_fcst l_lower l_upper forecast_line snd]. unfold std_error. rewrite freedom_ok. rewrite trained_params. fold D B. unfold index. rewrite LT. fold x. rewrite H, !dot_full.
    destruct (length values - need m) as [|df] eqn:ED; [lia|]. split; reflexivity.
Qed.
Lemma linear_leverage values x y : values <> [] -> length values <= x -> x <= y ->
  (leverage 2 (f_data (trained Linear values)) (row_of (full Linear) x) <= leverage 2 (f_data (trained Linear values)) (row_of (full Linear) y))%R.
Proof.
  intros NV Hx Hy. set (D := f_data (trained Linear values)). unfold leverage. change (basis 2 D 2) with ([fun i => (unit_vec 0 i - 0)%R] ++ [fun i => (unit_vec 1 i - sumof (fun p => over (inner 2 D (unit_vec 1) p) (inner 2 D p p) * p i) [fun i => unit_vec 0 i - 0])%R])%list.
  set (p0 := fun i => (unit_vec 0 i - 0)%R). set (c := over (inner 2 D (unit_vec 1) p0) (inner 2 D p0 p0)).
  set (p1 := fun i => (unit_vec 1 i - sumof (fun p => over (inner 2 D (unit_vec 1) p) (inner 2 D p p) * p i) [p0])%R).
  assert (D0 : forall z, dot 2 p0 (row_of (full Linear) z) = 1%R) by (intros z; unfold dot, p0, unit_vec, row_of; cbn -[INR]; ring).
  assert (U1 : forall z, dot 2 (unit_vec 1) (row_of (full Linear) z) = INR z) by (intros z; unfold dot, unit_vec, row_of; cbn -[INR]; ring).
  assert (D1 : forall z, dot 2 p1 (row_of (full Linear) z) = (INR z - c)%R).
  { intros z. unfold p1. rewrite dot_sub, U1, (dot_sum 2 (fun p i => over (inner 2 D (unit_vec 1) p) (inner 2 D p p) * p i)%R). unfold sumof. cbn [fold_right]. rewrite dot_scale, D0. fold c. ring. }
  assert (C : (c <= INR (length values))%R).
  { assert (I0 : inner 2 D p0 p0 = INR (length values)). { unfold inner, D. rewrite trained_sum. cbn [fst]. transitivity (total (length values) (fun _ => 1%R)); [apply total_ext; intros; rewrite D0; ring|]. clear. induction (length values) as [|n IH]; [reflexivity|]. cbn [total]. rewrite IH, S_INR. reflexivity. }
    assert (I1 : (inner 2 D (unit_vec 1) p0 <= INR (length values) * INR (length values))%R).
    { unfold inner, D. rewrite trained_sum. cbn [fst]. assert (G : forall n, n <= length values -> (total n (fun i => dot 2 (unit_vec 1) (row_of (full Linear) i) * dot 2 p0 (row_of (full Linear) i)) <= INR n * INR (length values))%R).
      { induction n as [|n IH]; intros Hn; [cbn; lra|]. cbn [total]. specialize (IH ltac:(lia)). rewrite U1, D0, S_INR. assert (INR n <= INR (length values))%R by (apply le_INR; lia). lra. }
      apply G. lia. }
    assert (P : (0 < INR (length values))%R) by (apply lt_0_INR; destruct values; [congruence|cbn; lia]). unfold c, over. rewrite I0. destruct (Req_EM_T (INR (length values)) 0) as [Z|_]; [lra|]. apply Rmult_le_reg_r with (INR (length values)); [exact P|]. unfold Rdiv. rewrite Rmult_assoc, Rinv_l by lra. lra. }
  cbn [app]. unfold sumof. cbn [fold_right]. change (fun i => (unit_vec 1 i - fold_right (fun x s => over (inner 2 D (unit_vec 1) x) (inner 2 D x x) * x i + s) 0 [p0])%R) with p1. rewrite !D0, !D1.
  assert (X : (INR (length values) <= INR x <= INR y)%R) by (split; apply le_INR; assumption).
  apply Rplus_le_compat_l, Rplus_le_compat_r. unfold over. destruct (Req_EM_T (inner 2 D p1 p1) 0) as [_|N]; [lra|]. pose proof (inner_nonneg 2 D p1) as P1. unfold Rdiv. apply Rmult_le_compat_r; [left; apply Rinv_0_lt_compat; lra|]. nra.
Qed.
Theorem C172_wider : forall alpha steps times values last rows,
  length times = length values -> In last times -> (forall t, In t times -> (t <= last)%Z) -> roll last = last -> (0 < alpha <= 1)%R ->
  predict Linear (fit Linear values) alpha false steps times = Some rows ->
  forall i j lo hi lo' hi', i < j -> j < length rows ->
    l_lower (nth i rows default) = Some lo -> l_upper (nth i rows default) = Some hi -> l_lower (nth j rows default) = Some lo' -> l_upper (nth j rows default) = Some hi' ->
    (hi - lo <= hi' - lo')%R.
Proof.
  intros alpha steps times values last rows LT IL ML RL HA E i j lo hi lo' hi' Hij Hj E1 E2 E3 E4. assert (NV : values <> []) by (intros ->; destruct times; [destruct IL|discriminate]).
  destruct (answer _ _ _ _ _ _ _ _ LT IL ML RL E) as [L A]. rewrite A in E1, E2, E3, E4 by lia. cbn [l_fcst l_lower l_upper forecast_line snd index] in *. rewrite freedom_ok in *. unfold std_error in *. rewrite freedom_ok in *. rewrite trained_params in *. cbn [need] in *.
  destruct (length values - 2) as [|df] eqn:ED; [discriminate|]. cbn [option_map] in *. apply some_inj in E1, E2, E3, E4. rewrite <- E1, <- E2, <- E3, <- E4.
  set (D := f_data (trained Linear values)) in *. set (ri := row_of (full Linear) (length times + i)). set (rj := row_of (full Linear) (length times + j)). pose proof (linear_leverage values (length times + i) (length times + j) NV ltac:(lia) ltac:(lia)) as LL. fold D ri rj in LL.
  assert (T : (0 <= tq (alpha / 2) (S df))%R) by (rewrite <- (tq_half (S df)) by lia; apply tq_antitone; [lia|lra|lra]).
  assert (S1 : (0 <= ssr 2 D (beta 2 D) / INR (S df))%R) by (apply Rmult_le_pos; [apply sumof_nonneg; intros; apply Rle_0_sqr|left; apply Rinv_0_lt_compat, lt_0_INR; lia]).
  assert (SQ : (sqrt (ssr 2 D (beta 2 D) / INR (S df) * (1 + leverage 2 D ri)) <= sqrt (ssr 2 D (beta 2 D) / INR (S df) * (1 + leverage 2 D rj)))%R) by (apply sqrt_le_1_alt, Rmult_le_compat_l; [exact S1|lra]).
  assert (tq (alpha / 2) (S df) * sqrt (ssr 2 D (beta 2 D) / INR (S df) * (1 + leverage 2 D ri)) <= tq (alpha / 2) (S df) * sqrt (ssr 2 D (beta 2 D) / INR (S df) * (1 + leverage 2 D rj)))%R by (apply Rmult_le_compat_l; assumption).
  lra.
Qed.
End Grid.

(** ** A concrete case: a weekly grid, three observations on a parabola and off any line; "how far from one half" in the
    place of the quantile *)
Example C172_case : let tq := fun (p : R) (_ : nat) => (1 / 2 - p)%R in
  (forall df, 0 < df -> tq (1 / 2)%R df = 0%R) /\ (forall p q df, 0 < df -> (0 < p <= q)%R -> (q <= 1 / 2)%R -> (tq q df <= tq p df)%R).
Proof. split; intros; lra. Qed.
Lemma case_predict m history steps : history = true \/ 2 <= steps -> exists rows, predict (fun t => 7 * ((t + 6) / 7))%Z (fun t => t + 7)%Z (fun p _ => 1 / 2 - p)%R m (fit m [1; 2; 5; 10]%R) (1 / 20) history steps [0; 7; 14; 21]%Z = Some rows /\ length rows = if history then 4 + steps else steps.
Proof.
  intros HS. destruct (predict_rows (fun t => 7 * ((t + 6) / 7))%Z (fun t => t + 7)%Z ltac:(intros; cbv beta; lia) (fun p _ => 1 / 2 - p)%R m (1 / 20) history steps [0; 7; 14; 21]%Z [1; 2; 5; 10]%R 21%Z) as (rows & E & L & _); [reflexivity|cbn; tauto|cbn; intros; lia|reflexivity|exact HS|]. exists rows. split; [exact E|exact L].
Qed.
Example C169_case : exists rows, predict (fun t => 7 * ((t + 6) / 7))%Z (fun t => t + 7)%Z (fun p _ => 1 / 2 - p)%R Linear (fit Linear [1; 2; 5; 10]%R) (1 / 20) false 2 [0; 7; 14; 21]%Z = Some rows /\ length rows = 2.
Proof. apply (case_predict Linear false 2). right. lia. Qed.
Example C170_case : exists rows, predict (fun t => 7 * ((t + 6) / 7))%Z (fun t => t + 7)%Z (fun p _ => 1 / 2 - p)%R Linear (fit Linear [1; 2; 5; 10]%R) (1 / 20) true 1 [0; 7; 14; 21]%Z = Some rows /\ length rows = 5.
Proof. apply (case_predict Linear true 1). left. reflexivity. Qed.
(** 1, 2, 5, 10 is 1 + x^2: the quadratic forecaster goes on with 17, 26. *)
Example C171_case : exists rows, predict (fun t => 7 * ((t + 6) / 7))%Z (fun t => t + 7)%Z (fun p _ => 1 / 2 - p)%R Quadratic (fit Quadratic [1; 2; 5; 10]%R) (1 / 20) false 2 [0; 7; 14; 21]%Z = Some rows /\
  map l_time rows = [28; 35]%Z /\ map l_fcst rows = [17; 26]%R /\ map l_lower rows = [Some 17; Some 26]%R.
Proof.
  destruct (case_predict Quadratic false 2 ltac:(right; lia)) as (rows & E & L). exists rows. split; [exact E|]. cbn in L.
  assert (NL : forall t : Z, (t < t + 7)%Z) by (intros; lia). assert (IL : In 21%Z [0; 7; 14; 21]%Z) by (cbn; tauto). assert (ML : forall t, In t [0; 7; 14; 21]%Z -> (t <= 21)%Z) by (cbn; intros; lia).
  assert (HV : forall i, i < length [1; 2; 5; 10]%R -> nth i [1; 2; 5; 10]%R 0%R = curve Quadratic 1 0 1 i) by (intros [|[|[|[|i]]]] Hi; cbn in *; try lia; lra).
  pose proof (C171_exact (fun t => 7 * ((t + 6) / 7))%Z (fun t => t + 7)%Z NL (fun p _ => 1 / 2 - p)%R Quadratic (1 / 20) false 2 [0; 7; 14; 21]%Z [1; 2; 5; 10]%R 21%Z rows 1 0 1 eq_refl IL ML eq_refl E ltac:(cbn; lia) HV) as X.
  pose proof (C172_exact (fun t => 7 * ((t + 6) / 7))%Z (fun t => t + 7)%Z NL (fun p _ => 1 / 2 - p)%R Quadratic (1 / 20) false 2 [0; 7; 14; 21]%Z [1; 2; 5; 10]%R 21%Z rows 1 0 1 eq_refl IL ML eq_refl E ltac:(cbn; lia) HV) as Y.
  destruct (C169_rows_partial (fun t => 7 * ((t + 6) / 7))%Z (fun t => t + 7)%Z NL (fun p _ => 1 / 2 - p)%R Quadratic (1 / 20) false 2 [0; 7; 14; 21]%Z [1; 2; 5; 10]%R 21%Z eq_refl IL ML eq_refl ltac:(right; lia)) as (rows' & E' & T). rewrite E in E'. injection E' as <-.
  split; [exact T|]. destruct rows as [|r0 [|r1 [|]]]; try discriminate L. specialize (X 0 ltac:(cbn; lia)) as X0. specialize (X 1 ltac:(cbn; lia)) as X1. destruct (Y 0 ltac:(cbn; lia)) as [Y0 _]. destruct (Y 1 ltac:(cbn; lia)) as [Y1 _]. cbn in X0, X1, Y0, Y1 |- *. rewrite X0, X1, Y0, Y1. split; repeat f_equal; lra.
Qed.

Print Assumptions C171_affine.
Print Assumptions C172_middle.
Print Assumptions C172_nested.
Print Assumptions C172_exact.
Print Assumptions C172_wider.

Print Assumptions C172_width.
