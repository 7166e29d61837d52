(** C55: empirical prediction intervals and the forecast; C128: their coverage. *)
From Coq Require Import Reals Lra Lia List Arith Psatz Ratan.
From Verif Require Import PercChangeModel PercChangeSpec PercChangeProofs PercChangeProps EmpIntervalModel EmpIntervalSpec EmpIntervalProofs.
Import ListNotations.
Open Scope R_scope.

Lemma rvar_squares l : (2 <= length l)%nat -> std_of (sqrt (rvar l)) l.
Proof.
  intros H. split; [exact H|]. split; [apply sqrt_pos|]. assert (P : 2 <= len l) by (unfold len; change 2 with (INR 2); apply le_INR, H).
  exists (rsum (map (fun x => (x - rmean l) * (x - rmean l)) l)). split.
  - exists (rmean l). split; [split; [destruct l; [cbn in H; lia|discriminate]|rewrite <- rsum_fold; unfold rmean, len in *; field; lra]|]. rewrite rsum_fold. f_equal. apply map_ext. intros; ring.
  - unfold rvar. destruct (Nat.eqb_spec (length l) 1); [lia|]. set (q := rsum _). assert (0 <= q) by (unfold q; apply (S_nonneg (fun x => (x - rmean l) * (x - rmean l))); intros x _; apply (Rle_0_sqr (x - rmean l))). fold (len l).
    rewrite sqrt_sqrt by (apply Rmult_le_pos; [assumption|left; apply Rinv_0_lt_compat; lra]). field. lra.
Qed.
Lemma nth_seq_R (f : nat -> R) n i : (i < n)%nat -> nth i (map f (seq 0 n)) 0 = f i.
Proof. intros H. rewrite (nth_indep _ 0 (f 0%nat)) by (rewrite map_length, seq_length; exact H). rewrite map_nth, seq_nth by exact H. reflexivity. Qed.
Lemma emp_se_ok folds n y : folds <> [] -> Forall (fun f => length f = n) folds -> emp_se folds = Some y -> (2 <= length folds)%nat /\ ses_of folds n y.
Proof.
  intros _ F E. destruct folds as [|f [|g folds]]; [discriminate|discriminate|]. cbv [emp_se] in E. assert (LF : length f = n) by (inversion F; assumption). rewrite LF in E. apply (f_equal (fun o => match o with Some z => z | None => y end)) in E. subst y.
  split; [cbn; lia|]. split; [rewrite map_length, seq_length; reflexivity|]. intros h Hh. rewrite nth_seq_R by exact Hh. apply rvar_squares. rewrite map_length. cbn. lia.
Qed.
Lemma std_unique s t l : std_of s l -> std_of t l -> s = t.
Proof.
  intros (L & S0 & q & (m & M & ->) & E) (_ & T0 & q' & (m' & M' & ->) & E'). assert (P : 0 < INR (length l)) by (apply lt_0_INR; lia). assert (m = m') by (destruct M, M'; nra). subst m'.
  assert (2 <= INR (length l)) by (change 2 with (INR 2); apply le_INR, L). rewrite <- E in E'. assert (s * s = t * t) by nra. nra.
Qed.
Lemma ses_unique folds n y y' : ses_of folds n y -> ses_of folds n y' -> y = y'.
Proof. intros [L A] [L' A']. apply (nth_ext _ _ 0 0); [congruence|]. intros h Hh. apply (std_unique _ _ (map (fun f => nth h f 0) folds)); [apply A; lia|apply A'; lia]. Qed.
Lemma emp_se_some folds n y : (2 <= length folds)%nat -> Forall (fun f => length f = n) folds -> ses_of folds n y -> emp_se folds = Some y.
Proof.
  intros L F H. assert (exists y', emp_se folds = Some y') as [y' E] by (destruct folds as [|f [|g folds]]; [cbn in L; lia|cbn in L; lia|eexists; reflexivity]).
  rewrite E. f_equal. apply (ses_unique folds n); [|exact H]. apply emp_se_ok; [destruct folds; [cbn in L; lia|discriminate]|exact F|exact E].
Qed.
Lemma rows_nth (f : R * R -> emp_row) (pred : list R) h d : (h < length pred)%nat ->
  nth h (map f (combine (map INR (seq 1 (length pred))) pred)) d = f (INR (Datatypes.S h), nth h pred 0).
Proof.
  intros H. assert (L : length (combine (map INR (seq 1 (length pred))) pred) = length pred) by (rewrite combine_length, map_length, seq_length; lia).
  rewrite (nth_indep _ d (f (0, 0))) by (rewrite map_length, L; exact H). rewrite map_nth, combine_nth by (rewrite map_length, seq_length; reflexivity). rewrite (nth_indep _ 0 (INR 0)) by (rewrite map_length, seq_length; exact H). rewrite map_nth, seq_nth by exact H. reflexivity.
Qed.

Section Quantile.
Variable ppf : R -> R.
Definition no_row := ERow 0 0 0.
(** The interval at horizon h is the forecast plus and minus the quantile times a line in h, the line of least squares
    through the standard deviations of the errors at each horizon. *)
Theorem C55_line : forall level folds n y predicted,
  (2 <= length folds)%nat -> Forall (fun f => length f = n) folds -> (2 <= n)%nat -> ses_of folds n y ->
  exists a b rows, (forall a' b', least_squares y a' b' <-> a' = a /\ b' = b) /\
    get_eci ppf level folds predicted = Some rows /\ length rows = length predicted /\
    forall h, (h < length predicted)%nat -> fcst (nth h rows no_row) = nth h predicted 0 /\
      upper (nth h rows no_row) - nth h predicted 0 = ppf level * (a * INR (h + 1) + b) /\ nth h predicted 0 - lower (nth h rows no_row) = ppf level * (a * INR (h + 1) + b).
Proof.
  intros level folds n y predicted L F N SE. destruct SE as [LY SE']. assert (Hy : (2 <= length y)%nat) by lia. exists (slope y), (icept y). unfold get_eci. rewrite (emp_se_some folds n y L F (conj LY SE')), emp_lr_eq by exact Hy. eexists. split; [|split; [reflexivity|]].
  - intros a b. split; [apply ls_unique, Hy|]. intros [-> ->]. apply slope_min, Hy.
  - split; [rewrite map_length, combine_length, map_length, seq_length; lia|]. intros h Hh. rewrite rows_nth by exact Hh. cbn [fcst upper lower fst snd]. replace (h + 1)%nat with (Datatypes.S h) by lia. split; [reflexivity|]. split; ring.
Qed.
(** Hence the forecast is inside its interval exactly where quantile and line have the same sign. *)
Theorem C55_contains_partial : forall level folds n y predicted a b,
  (2 <= length folds)%nat -> Forall (fun f => length f = n) folds -> (2 <= n)%nat -> ses_of folds n y -> least_squares y a b ->
  exists rows, get_eci ppf level folds predicted = Some rows /\
    forall h, (h < length predicted)%nat ->
      (lower (nth h rows no_row) <= nth h predicted 0 <= upper (nth h rows no_row) <-> 0 <= ppf level * (a * INR (h + 1) + b)).
Proof.
  intros level folds n y predicted a b L F N SE LS. destruct (C55_line level folds n y predicted L F N SE) as (a' & b' & rows & U & E & _ & W). destruct (proj1 (U a b) LS) as [EA EB]. rewrite EA, EB. exists rows. split; [exact E|]. intros h Hh. destruct (W h Hh) as (_ & W1 & W2). split; intros; lra.
Qed.
(** If the standard deviations grow with the horizon, the forecast is inside from the middle horizon on. *)
Theorem C55_late_partial : forall level folds n y predicted,
  (2 <= length folds)%nat -> Forall (fun f => length f = n) folds -> (2 <= n)%nat -> ses_of folds n y -> nondecreasing y -> 0 <= ppf level ->
  exists rows, get_eci ppf level folds predicted = Some rows /\
    forall h, (h < length predicted)%nat -> (n + 1 <= 2 * (h + 1))%nat -> lower (nth h rows no_row) <= nth h predicted 0 <= upper (nth h rows no_row).
Proof.
  intros level folds n y predicted L F N SE ND P. pose proof SE as [LY SE']. assert (Hy : (2 <= length y)%nat) by lia. destruct (C55_contains_partial level folds n y predicted (slope y) (icept y) L F N SE (slope_min y Hy)) as (rows & E & W). exists rows. split; [exact E|]. intros h Hh Hn. apply W; [exact Hh|]. apply Rmult_le_pos; [exact P|].
  pose proof (slope_nonneg y Hy ND) as SP. destruct (normal_eq y Hy) as [NE _]. rewrite Sx in NE.
  assert (LP : 2 <= len y) by (unfold len; change 2 with (INR 2); apply le_INR, Hy). assert (SN : 0 <= EmpIntervalProofs.S snd (points y)).
  { apply S_nonneg. intros p Hp. apply points_in in Hp as (i & Hi & ->). cbn [snd]. destruct (SE' i ltac:(lia)) as (_ & Q & _). exact Q. }
  assert (HH : len y + 1 <= 2 * INR (h + 1)). { unfold len. rewrite <- S_INR. replace 2 with (INR 2) by (cbn; lra). rewrite <- mult_INR. apply le_INR. lia. }
  assert (M : 0 <= len y * (slope y * ((len y + 1) / 2) + icept y)) by lra. assert (0 <= slope y * ((len y + 1) / 2) + icept y) by nra. nra.
Qed.
(** Equal standard deviations at all horizons: the half-width is the quantile times that deviation. *)
Theorem C55_constant : forall level folds n y s predicted,
  (2 <= length folds)%nat -> Forall (fun f => length f = n) folds -> (1 <= n)%nat -> ses_of folds n y -> (forall h, (h < n)%nat -> nth h y 0 = s) ->
  exists rows, get_eci ppf level folds predicted = Some rows /\
    ((2 <= n)%nat -> forall h, (h < length predicted)%nat -> lower (nth h rows no_row) = nth h predicted 0 - ppf level * s /\ upper (nth h rows no_row) = nth h predicted 0 + ppf level * s) /\
    ((n = 1)%nat -> forall h, (h < length predicted)%nat -> upper (nth h rows no_row) - nth h predicted 0 = ppf level * s * (INR (h + 1) + 1) / 2).
Proof.
  intros level folds n y s predicted L F N SE C. pose proof SE as [LY SE']. destruct (le_lt_dec 2 n) as [N2|N1].
  - assert (Hy : (2 <= length y)%nat) by lia. destruct (C55_line level folds n y predicted L F N2 SE) as (a & b & rows & U & E & _ & W). exists rows. split; [exact E|]. split; [|lia]. intros _ h Hh.
    assert (LS : least_squares y 0 s). { intros a' b'. assert (Z : line_error 0 s 1 y = 0).
      { rewrite line_error_points. assert (ZZ : EmpIntervalProofs.S (fun _ : R * R => 0) (points y) = 0) by (rewrite S_const; ring). refine (eq_trans _ ZZ). apply S_ext_in. intros p Hp. apply points_in in Hp as (i & Hi & ->). cbv beta. cbn [fst snd]. rewrite C by lia. ring. }
      rewrite Z, line_error_points. apply S_nonneg. intros; apply pow2_ge_0. }
    destruct (proj1 (U _ _) LS) as [EA EB]. rewrite <- EA, <- EB in W. destruct (W h Hh) as (_ & W1 & W2). split; lra.
  - assert (EN : n = 1%nat) by lia. unfold get_eci. rewrite (emp_se_some folds n y L F SE). destruct y as [|t [|u y]]; try (cbn in LY; lia). pose proof (C 0%nat ltac:(lia)) as T. cbn in T. subst t. cbn [emp_lr]. eexists. split; [reflexivity|]. split; [lia|].
    intros _ h Hh. rewrite rows_nth by exact Hh. cbn [upper fst snd]. replace (h + 1)%nat with (Datatypes.S h) by lia. field.
Qed.
(** Even with standard deviations growing with the horizon, as the method assumes, the forecast may lie outside its
    interval: at the first horizon the lower end is above the upper end. *)
Theorem C55_refuted : forall level, 0 < ppf level ->
  exists folds y, (2 <= length folds)%nat /\ Forall (fun f => length f = 3%nat) folds /\ ses_of folds 3 y /\ nondecreasing y /\ (forall h, (h < 3)%nat -> 0 < nth h y 0) /\
    forall predicted, (1 <= length predicted)%nat ->
    exists rows, get_eci ppf level folds predicted = Some rows /\ upper (nth 0 rows no_row) < nth 0 predicted 0 < lower (nth 0 rows no_row).
Proof.
  intros level P. set (r := sqrt 2). assert (R2 : r * r = 2) by (apply sqrt_sqrt; lra). assert (RP : 0 < r) by (apply sqrt_lt_R0; lra).
  set (folds := [[1; 2; 12]; [-1; -2; -12]]). set (y := [r; 2 * r; 12 * r]). exists folds, y. assert (L : (2 <= length folds)%nat) by (cbn; lia). assert (F : Forall (fun f => length f = 3%nat) folds) by (repeat constructor).
  assert (SE : ses_of folds 3 y).
  { split; [reflexivity|]. assert (G : forall a s, 0 <= s -> s * s = 2 * (a * a) -> std_of s [a; - a]). { intros a s S0 E. split; [cbn; lia|]. split; [exact S0|]. exists (2 * (a * a)). split; [|cbn; lra]. exists 0. split; [split; [discriminate|cbn; ring]|]. cbn. ring. }
    intros [|[|[|h]]] Hh; cbn; try lia; apply G; try lra; replace (r * r) with 2 by exact (eq_sym R2); nra. }
  split; [exact L|]. split; [exact F|]. split; [exact SE|]. split. { intros i j [I J]. cbn [length y] in J. destruct i as [|[|[|i]]], j as [|[|[|j]]]; cbn in J |- *; try lia; try lra. }
  split. { intros [|[|[|h]]] Hh; cbn; try lia; lra. }
  intros predicted LP. destruct (C55_line level folds 3 y predicted L F ltac:(lia) SE) as (a & b & rows & U & E & _ & W). exists rows. split; [exact E|].
  assert (LS : least_squares y (11 / 2 * r) (- 6 * r)). { intros a' b'. unfold y. cbn [line_error].
    set (u := a' - 11 / 2 * r). set (v := b' + 6 * r). replace a' with (11 / 2 * r + u) by (unfold u; ring). replace b' with (- 6 * r + v) by (unfold v; ring).
    assert (0 <= (u + v) ^ 2 + (2 * u + v) ^ 2 + (3 * u + v) ^ 2) by (pose proof (pow2_ge_0 (u + v)); pose proof (pow2_ge_0 (2 * u + v)); pose proof (pow2_ge_0 (3 * u + v)); lra).
    match goal with |- ?x <= ?z => assert (z - x = (u + v) ^ 2 + (2 * u + v) ^ 2 + (3 * u + v) ^ 2) by field end. lra. }
  destruct (proj1 (U _ _) LS) as [EA EB]. rewrite <- EA, <- EB in W. destruct (W 0%nat ltac:(lia)) as (_ & W1 & W2). change (INR (0 + 1)) with 1 in *. assert (0 < ppf level * r) by (apply Rmult_lt_0_compat; assumption). split; nra.
Qed.
End Quantile.

(** ** C128 *)
(** Errors with the same standard deviation s at every horizon and a symmetric distribution F(x / s) (such as the
    normal): the interval "with confidence level" p has probability 2p - 1 around the forecast, not p. *)
Theorem C128_coverage_refuted : forall F ppf level folds n y s predicted,
  symmetric_cdf F ppf -> 0 < level < 1 ->
  (2 <= length folds)%nat -> Forall (fun f => length f = n) folds -> (2 <= n)%nat -> ses_of folds n y -> (forall h, (h < n)%nat -> nth h y 0 = s) -> 0 < s ->
  exists rows, get_eci ppf level folds predicted = Some rows /\
    forall h, (h < length predicted)%nat ->
      F ((upper (nth h rows no_row) - nth h predicted 0) / s) - F ((lower (nth h rows no_row) - nth h predicted 0) / s) = 2 * level - 1.
Proof.
  intros F ppf level folds n y s predicted (_ & _ & SY & INV) LV L FA N SE C SP. destruct (C55_constant ppf level folds n y s predicted L FA ltac:(lia) SE C) as (rows & E & W & _). exists rows. split; [exact E|]. intros h Hh. destruct (W N h Hh) as [-> ->].
  replace ((nth h predicted 0 + ppf level * s - nth h predicted 0) / s) with (ppf level) by (field; lra). replace ((nth h predicted 0 - ppf level * s - nth h predicted 0) / s) with (- ppf level) by (field; lra). rewrite SY, INV by exact LV. ring.
Qed.
(** A level below one half is accepted and gives a lower end above the upper end. *)
Theorem C128_low_level_refuted : forall F ppf level folds n y s predicted,
  symmetric_cdf F ppf -> 0 < level < 1 / 2 ->
  (2 <= length folds)%nat -> Forall (fun f => length f = n) folds -> (2 <= n)%nat -> ses_of folds n y -> (forall h, (h < n)%nat -> nth h y 0 = s) -> 0 < s ->
  exists rows, get_eci ppf level folds predicted = Some rows /\
    forall h, (h < length predicted)%nat -> upper (nth h rows no_row) < lower (nth h rows no_row).
Proof.
  intros F ppf level folds n y s predicted (INC & _ & SY & INV) LV L FA N SE C SP. destruct (C55_constant ppf level folds n y s predicted L FA ltac:(lia) SE C) as (rows & E & W & _). exists rows. split; [exact E|]. intros h Hh. destruct (W N h Hh) as [-> ->].
  assert (ppf level < 0). { destruct (Rlt_le_dec (ppf level) 0) as [|GE]; [assumption|exfalso]. assert (F0 : F 0 = 1 / 2) by (pose proof (SY 0) as Z; rewrite Ropp_0 in Z; lra). destruct GE as [G|G]; [apply INC in G|rewrite G in F0]; rewrite INV in * by lra; lra. }
  nra.
Qed.
(** A higher level gives a wider interval, around the same forecast. *)
Theorem C128_monotone : forall F ppf level level' folds n y predicted a b,
  symmetric_cdf F ppf -> 0 < level -> level <= level' -> level' < 1 ->
  (2 <= length folds)%nat -> Forall (fun f => length f = n) folds -> (2 <= n)%nat -> ses_of folds n y -> least_squares y a b ->
  exists rows rows', get_eci ppf level folds predicted = Some rows /\ get_eci ppf level' folds predicted = Some rows' /\
    forall h, (h < length predicted)%nat -> 0 <= a * INR (h + 1) + b ->
      lower (nth h rows' no_row) <= lower (nth h rows no_row) /\ upper (nth h rows no_row) <= upper (nth h rows' no_row).
Proof.
  intros F ppf level level' folds n y predicted a b (INC & _ & SY & INV) L0 LL L1 L FA N SE LS. destruct (C55_line ppf level folds n y predicted L FA N SE) as (a1 & b1 & rows & U & E & _ & W). destruct (C55_line ppf level' folds n y predicted L FA N SE) as (a2 & b2 & rows' & U' & E' & _ & W').
  destruct (proj1 (U _ _) LS) as [EA EB]. destruct (proj1 (U' _ _) LS) as [EA' EB']. rewrite <- EA, <- EB in W. rewrite <- EA', <- EB' in W'. exists rows, rows'. split; [exact E|]. split; [exact E'|]. intros h Hh P. destruct (W h Hh) as (_ & W1 & W2). destruct (W' h Hh) as (_ & W3 & W4).
  assert (Q : ppf level <= ppf level'). { destruct (Rle_lt_dec (ppf level) (ppf level')) as [|G]; [assumption|exfalso]. apply INC in G. rewrite !INV in G by lra. lra. }
  assert (0 <= (ppf level' - ppf level) * (a * INR (h + 1) + b)) by (apply Rmult_le_pos; lra). lra.
Qed.

(** ** Concrete cases: two folds, two horizons, standard deviations 2 and 2 *)
Definition folds1 : list (list R) := [[sqrt 2; sqrt 2]; [- sqrt 2; - sqrt 2]].
Example C55_case : (2 <= length folds1)%nat /\ Forall (fun f => length f = 2%nat) folds1 /\ ses_of folds1 2 [2; 2] /\ nondecreasing [2; 2] /\ (forall h, (h < 2)%nat -> nth h [2; 2] 0 = 2).
Proof.
  assert (R2 : sqrt 2 * sqrt 2 = 2) by (apply sqrt_sqrt; lra). split; [cbn; lia|]. split; [repeat constructor|]. assert (G : std_of 2 [sqrt 2; - sqrt 2]). { split; [cbn; lia|]. split; [lra|]. exists 4. split; [|cbn; lra]. exists 0. split; [split; [discriminate|cbn; ring]|]. cbn. replace ((sqrt 2 - 0) * ((sqrt 2 - 0) * 1)) with (sqrt 2 * sqrt 2) by ring. replace ((- sqrt 2 - 0) * ((- sqrt 2 - 0) * 1)) with (sqrt 2 * sqrt 2) by ring. lra. }
  split; [split; [reflexivity|]; intros [|[|h]] Hh; cbn; [exact G|exact G|lia]|]. split; [intros [|[|i]] [|[|j]] [I J]; cbn in *; try lia; lra|]. intros [|[|h]] Hh; cbn; [reflexivity|reflexivity|lia].
Qed.
(** a symmetric distribution with its quantile function, and the data above *)
Example C128_case : symmetric_cdf case_F case_quantile /\ 0 < 4 / 5 < 1 /\ (2 <= length folds1)%nat /\ Forall (fun f => length f = 2%nat) folds1 /\ ses_of folds1 2 [2; 2].
Proof. destruct C55_case as (A & B & C & _). split; [exact (proj1 C74_case)|]. split; [lra|]. split; [exact A|]. split; [exact B|exact C]. Qed.

Print Assumptions C55_line.
Print Assumptions C55_contains_partial.
Print Assumptions C55_late_partial.
Print Assumptions C55_constant.
Print Assumptions C55_refuted.
Print Assumptions C128_coverage_refuted.
Print Assumptions C128_low_level_refuted.
Print Assumptions C128_monotone.
