(** Theorems about simulated ARIMA series and components (C155, C156). *)
From Coq Require Import Reals Lra List Bool Arith Lia Permutation ZArith.
From Verif Require Import SimModel SimProps.
Import ListNotations.
Open Scope R_scope.

Definition sum_to (n : nat) (f : nat -> R) : R := total (map f (seq 0 n)).
(** differences, with zero before the first value *)
Definition differences (l : list R) : list R := map (fun j => nth j l 0 - match j with O => 0 | S i => nth i l 0 end) (seq 0 (length l)).
Fixpoint repeatedly (d : nat) (l : list R) : list R := match d with O => l | S d => differences (repeatedly d l) end.

Lemma dot_sum : forall a b, length a = length b -> dot a b = sum_to (length a) (fun k => nth k a 0 * nth k b 0).
Proof.
  unfold sum_to. induction a as [|x a IH]; intros [|y b] H; try discriminate; [reflexivity|]. cbn [dot length seq map total nth]. rewrite IH by (cbn in H; lia). f_equal. rewrite <- seq_shift, map_map. reflexivity.
Qed.
Lemma nth_skipn_R : forall (l : list R) b j, nth j (skipn b l) 0 = nth (b + j) l 0.
Proof. induction l as [|x l IH]; intros b j; [rewrite skipn_nil, !nth_overflow by (cbn; lia); reflexivity|]. destruct b as [|b]; [reflexivity|]. cbn. apply IH. Qed.
Lemma nth_firstn_R : forall (l : list R) b j, (j < b)%nat -> nth j (firstn b l) 0 = nth j l 0.
Proof. induction l as [|x l IH]; intros b j H; [rewrite firstn_nil; reflexivity|]. destruct b as [|b]; [lia|]. destruct j as [|j]; [reflexivity|]. cbn. apply IH. lia. Qed.
Lemma skipn_tab (l : list R) b : skipn b l = map (fun j => nth (b + j) l 0) (seq 0 (length l - b)).
Proof.
  apply (nth_ext _ _ 0 0); [rewrite skipn_length, map_length, seq_length; reflexivity|]. intros k K. rewrite skipn_length in K. rewrite nth_tab by exact K. apply nth_skipn_R.
Qed.
Section ARMA.
Variables (ar ma : list R) (t : R) (eps : nat -> R).
Let path := arma_path ar (1 :: ma) t eps.
Lemma path_S i : path (S (S i)) = path (S i) ++ [arma_value ar (1 :: ma) t eps (path (S i)) (S i)].
Proof. reflexivity. Qed.
Lemma path_len : forall len, length (path len) = len.
Proof. induction len as [|len IH]; [reflexivity|]. destruct len as [|len]; [reflexivity|]. rewrite path_S, app_length, IH. cbn. lia. Qed.
Lemma path_nth : forall len i, (i < len)%nat -> nth i (path len) 0 = nth i (path (S i)) 0.
Proof.
  induction len as [|len IH]; intros i I; [lia|]. destruct (Nat.eq_dec i len) as [->|N]; [reflexivity|]. destruct len as [|len]; [lia|]. rewrite path_S, app_nth1 by (rewrite path_len; lia). apply IH. lia.
Qed.
Lemma path_at i : (length ar <= i)%nat -> (length ma < i)%nat -> nth i (path (S i)) 0 =
  sum_to (length ar) (fun k => nth k ar 0 * nth (i - 1 - k) (path i) 0) + (eps i + sum_to (length ma) (fun k => nth k ma 0 * eps (i - 1 - k)%nat)) + t.
Proof.
  intros P Q. destruct i as [|i]; [lia|]. rewrite path_S, app_nth2 by (rewrite path_len; lia). rewrite path_len, Nat.sub_diag. cbn [nth]. unfold arma_value.
  replace (Nat.min (S i) (length ar)) with (length ar) by lia. cbn [length]. replace (Nat.min (S i) (S (length ma) - 1)) with (length ma) by lia. replace (Nat.min (S i + 1) (S (length ma))) with (S (length ma)) by lia.
  rewrite firstn_all. f_equal. f_equal.
  - rewrite dot_sum by (rewrite rev_length, firstn_length, skipn_length, path_len; lia). unfold sum_to. apply total_ext. intros k K. apply in_seq in K. f_equal.
    rewrite rev_nth by (rewrite firstn_length, skipn_length, path_len; lia). rewrite firstn_length, skipn_length, path_len. rewrite nth_firstn_R by lia. rewrite nth_skipn_R. f_equal. lia.
  - change (firstn (S (length ma)) (1 :: ma)) with (1 :: firstn (length ma) ma). rewrite firstn_all, seq_S, map_app, rev_app_distr. cbn [map rev app dot]. replace (S i - length ma + length ma)%nat with (S i) by lia. rewrite Rmult_1_l. f_equal.
    rewrite dot_sum by (rewrite rev_length, map_length, seq_length; reflexivity). unfold sum_to. apply total_ext. intros k K. apply in_seq in K. f_equal.
    rewrite rev_nth by (rewrite map_length, seq_length; lia). rewrite map_length, seq_length. rewrite (nth_indep _ 0 (eps 0%nat)) by (rewrite map_length, seq_length; lia). rewrite map_nth, seq_nth by lia. f_equal. lia.
Qed.
End ARMA.
(** Without unit roots: the series satisfies the ARMA equation in every returned row, the values before the first row being those
    of the burn-in. *)
Theorem C155_equation : forall eps n ar ma burnin t, (0 < n)%nat ->
  exists x : nat -> R, let shift := (Nat.max (length ar) (S (length ma)) + burnin)%nat in
  arima_sim eps n ar ma burnin 0 t = map (fun j => x (shift + j)%nat) (seq 0 n) /\
  forall j, (j < n)%nat -> let i := (shift + j)%nat in
  x i = sum_to (length ar) (fun k => nth k ar 0 * x (i - (k + 1))%nat) + eps i + sum_to (length ma) (fun k => nth k ma 0 * eps (i - (k + 1))%nat) + t.
Proof.
  intros eps n ar ma burnin t N. exists (fun i => nth i (arma_path ar (1 :: ma) t eps (S i)) 0). cbv zeta. set (sh := (Nat.max (length ar) (S (length ma)) + burnin)%nat). split.
  - unfold arima_sim. change (length (1 :: ma)) with (S (length ma)). replace (n + Nat.max (length ar) (S (length ma)) + burnin)%nat with (sh + n)%nat by (unfold sh; lia). replace (sh + n - n)%nat with sh by lia.
    rewrite skipn_tab, path_len. replace (sh + n - sh)%nat with n by lia. apply map_ext_in. intros j J. apply in_seq in J. apply path_nth. lia.
  - intros j J. rewrite path_at by (unfold sh; lia). rewrite <- Rplus_assoc. f_equal. f_equal.
    + f_equal. unfold sum_to. apply total_ext. intros k K. apply in_seq in K. f_equal. rewrite path_nth by (unfold sh; lia). replace (sh + j - 1 - k)%nat with (sh + j - (k + 1))%nat by lia. reflexivity.
    + unfold sum_to. apply total_ext. intros k K. apply in_seq in K. f_equal. f_equal. lia.
Qed.
(** With d unit roots the d-th differences are that series. *)
Lemma loop_spec (h : list R -> nat -> R) (src : nat -> R) old : (forall j temp, length temp = length old -> (forall k, (j < k)%nat -> nth k temp 0 = nth k old 0) -> h temp j = src j) ->
  forall m, (m < length old)%nat -> let out := fold_left (fun temp j => upd (S j) (h temp j + nth j temp 0) temp) (seq 0 m) old in
  length out = length old /\ nth 0 out 0 = nth 0 old 0 /\ (forall k, (k < m)%nat -> nth (S k) out 0 = src k + nth k out 0) /\ (forall k, (m < k)%nat -> nth k out 0 = nth k old 0).
Proof.
  intros H. induction m as [|m IH]; intros M; cbv zeta; [split; [reflexivity|]; split; [reflexivity|]; split; [intros; lia|reflexivity]|].
  destruct (IH ltac:(lia)) as (I1 & I2 & I3 & I4). rewrite seq_S, fold_left_app. cbn [fold_left Nat.add]. set (y := fold_left _ (seq 0 m) old) in *. unfold upd.
  assert (V : forall k, (k < length old)%nat -> nth k (set_slice (S m) (S (S m)) (fun _ => h y m + nth m y 0) y) 0 = if (k =? S m)%nat then src m + nth m y 0 else nth k y 0).
  { intros k K. rewrite set_slice_nth by lia. rewrite H by assumption. destruct (Nat.eqb_spec k (S m)), (Nat.leb_spec (S m) k), (Nat.ltb_spec k (S (S m))); try lia; reflexivity. }
  split; [rewrite set_slice_len; exact I1|]. split; [rewrite V by lia; exact I2|]. split.
  - intros k K. rewrite !V by lia. destruct (Nat.eqb_spec (S k) (S m)), (Nat.eqb_spec k (S m)); try lia; [|apply I3; lia]. replace k with m by lia. reflexivity.
  - intros k K. destruct (Nat.lt_ge_cases k (length old)) as [X|X]; [|rewrite !nth_overflow by (rewrite ?set_slice_len; lia); reflexivity]. rewrite V by exact X. destruct (Nat.eqb_spec k (S m)); [lia|]. apply I4. lia.
Qed.
Lemma diff_of temp src n : length temp = S n -> nth 0 temp 0 = 0 -> (forall k, (k < n)%nat -> nth (S k) temp 0 = src k + nth k temp 0) -> differences (skipn 1 temp) = map src (seq 0 n).
Proof.
  intros L Z H. unfold differences. rewrite skipn_length, L. replace (S n - 1)%nat with n by lia. apply map_ext_in. intros j J. apply in_seq in J. destruct j as [|j]; rewrite !nth_skipn_R; cbn [Nat.add].
  - rewrite (H 0%nat) by lia. lra.
  - rewrite (H (S j)) by lia. lra.
Qed.
Theorem C155_unit_roots : forall eps n ar ma burnin t d, (0 < n)%nat ->
  length (arima_sim eps n ar ma burnin d t) = n /\ repeatedly d (arima_sim eps n ar ma burnin d t) = arima_sim eps n ar ma burnin 0 t.
Proof.
  intros eps n ar ma burnin t d N. set (arma := arima_sim eps n ar ma burnin 0 t).
  assert (LA : length arma = n). { destruct (C155_equation eps n ar ma burnin t N) as (x & E & _). unfold arma. rewrite E. now rewrite map_length, seq_length. }
  destruct d as [|d]; [split; [exact LA|reflexivity]|].
  assert (E : forall d, arima_sim eps n ar ma burnin (S d) t = skipn 1 (passes n d (first_pass arma (repeat 0 (S n))))) by reflexivity. rewrite E.
  assert (R0 : forall k, nth k (repeat 0 (S n)) 0 = 0) by (intros k; apply nth_repeat).
  assert (F1 : length (first_pass arma (repeat 0 (S n))) = S n /\ nth 0 (first_pass arma (repeat 0 (S n))) 0 = 0 /\ differences (skipn 1 (first_pass arma (repeat 0 (S n)))) = arma).
  { unfold first_pass. rewrite LA. destruct (loop_spec (fun _ j => nth j arma 0) (fun j => nth j arma 0) (repeat 0 (S n)) (fun _ _ _ _ => eq_refl) n) as (L & Z & V & _); [rewrite repeat_length; lia|].
    rewrite repeat_length in L. rewrite R0 in Z. split; [exact L|]. split; [exact Z|]. rewrite (diff_of _ (fun j => nth j arma 0) n L Z V). etransitivity; [|symmetry; apply nth_tab_all]. rewrite LA. reflexivity. }
  assert (FD : forall d, length (passes n d (first_pass arma (repeat 0 (S n)))) = S n /\ nth 0 (passes n d (first_pass arma (repeat 0 (S n)))) 0 = 0 /\ repeatedly (S d) (skipn 1 (passes n d (first_pass arma (repeat 0 (S n))))) = arma).
  { clear d. induction d as [|d (I1 & I2 & I3)]; [exact F1|]. cbn [passes]. set (old := passes n d (first_pass arma (repeat 0 (S n)))) in *. unfold view_pass.
    destruct (loop_spec (fun temp j => nth (S j) temp 0) (fun j => nth (S j) old 0) old (fun j temp _ H => H (S j) (Nat.lt_succ_diag_r j)) n) as (L & Z & V & _); [lia|].
    rewrite I1 in L. rewrite I2 in Z. split; [exact L|]. split; [exact Z|].
    assert (RS : forall d l, repeatedly (S d) l = repeatedly d (differences l)) by (clear; induction d as [|d IH]; intros l; [reflexivity|]; cbn [repeatedly] in *; now rewrite IH).
    rewrite RS. rewrite (diff_of _ (fun j => nth (S j) old 0) n L Z V). rewrite <- I3. f_equal. rewrite skipn_tab, I1. replace (S n - 1)%nat with n by lia. reflexivity. }
  destruct (FD d) as (L & _ & R). split; [rewrite skipn_length, L; lia|exact R].
Qed.
(** x_i = x_{i-1} / 2 + e_i + e_{i-1}: three values, and two unit roots *)
Example C155_case : let eps := fun i => INR i in
  arima_sim eps 3 [1/2] [1] 0 0 0 = [7/2; 27/4; 83/8] /\ arima_sim eps 3 [1/2] [1] 0 2 0 = [7/2; 55/4; 275/8].
Proof. cbv zeta. split; cbn; unfold arma_value; cbn; repeat (apply f_equal2; [lra|]); reflexivity. Qed.

Definition history (n : nat) (ops : list (bool * (nat -> R))) : simulator := fold_left (fun s op => add_component s (fst op) (snd op)) ops (new_simulator n).
Lemma component_inv : forall ops s, let s' := fold_left (fun s op => add_component s (fst op) (snd op)) ops s in length (series_of s') = length (series_of s) /\ time_of s' = time_of s.
Proof. induction ops as [|[m c] ops IH]; intros s; cbv zeta; [split; reflexivity|]. cbn [fold_left fst snd]. destruct (IH (add_component s m c)) as [A B]. split; [etransitivity; [exact A|]|etransitivity; [exact B|reflexivity]]. cbn. now rewrite map_length, seq_length. Qed.
(** Additive components add up, in any order. *)
Theorem C156_additive : forall n cs, stl_sim (history n (map (pair false) cs)) = Some (map (fun k => total (map (fun c => c k) cs)) (seq 0 n)).
Proof.
  intros n cs. unfold history. destruct (component_inv (map (pair false) cs) (new_simulator n)) as [A B]. unfold stl_sim. rewrite A, B. cbn [series_of time_of new_simulator]. rewrite repeat_length, Nat.eqb_refl. f_equal.
  apply (nth_ext _ _ 0 0); [rewrite A; cbn; rewrite repeat_length, map_length, seq_length; reflexivity|]. intros k K. rewrite A in K. cbn in K. rewrite repeat_length in K. rewrite nth_tab by exact K.
  assert (G : forall cs s, (k < length (series_of s))%nat -> nth k (series_of (fold_left (fun s op => add_component s (fst op) (snd op)) (map (pair false) cs) s)) 0 = nth k (series_of s) 0 + total (map (fun c => c k) cs)).
  { clear. induction cs as [|c cs IH]; intros s H; [cbn; lra|]. cbn [map fold_left fst snd total]. rewrite IH by (cbn; rewrite map_length, seq_length; exact H). cbn [series_of add_component]. rewrite nth_tab by exact H. lra. }
  rewrite G by (cbn; rewrite repeat_length; exact K). cbn [series_of new_simulator]. rewrite nth_repeat. lra.
Qed.
Theorem C156_order : forall n cs cs', Permutation cs cs' -> stl_sim (history n (map (pair false) cs)) = stl_sim (history n (map (pair false) cs')).
Proof.
  intros n cs cs' P. rewrite !C156_additive. f_equal. apply map_ext. intros k. induction P; cbn; lra.
Qed.
(** Multiplicative components added before any additive one are lost: the simulator starts with zeros. *)
Theorem C156_multiplicative_refuted : forall n ms cs,
  stl_sim (history n (map (pair true) ms ++ map (pair false) cs)) = stl_sim (history n (map (pair false) cs)).
Proof.
  intros n ms cs. unfold history. rewrite fold_left_app. f_equal. f_equal. induction ms as [|m ms IH]; [reflexivity|]. cbn [map fold_left fst snd].
  replace (add_component (new_simulator n) true m) with (new_simulator n); [exact IH|]. unfold add_component, new_simulator. cbn [n_of time_of series_of]. f_equal.
  rewrite repeat_length. apply (nth_ext _ _ 0 0); [now rewrite repeat_length, map_length, seq_length|]. intros k K. rewrite repeat_length in K. rewrite nth_tab by exact K. rewrite nth_repeat. lra.
Qed.
(** A multiplicative component added after additive ones raises their sum by its own share. *)
Theorem C156_multiplicative : forall n cs m, stl_sim (history n (map (pair false) cs ++ [(true, m)])) = Some (map (fun k => total (map (fun c => c k) cs) * (1 + m k)) (seq 0 n)).
Proof.
  intros n cs m. unfold history. rewrite fold_left_app. cbn [fold_left fst snd]. pose proof (C156_additive n cs) as A. unfold history in A. revert A. set (s := fold_left _ _ _). destruct (component_inv (map (pair false) cs) (new_simulator n)) as [L T]. fold s in L, T.
  unfold stl_sim. cbn [add_component series_of time_of]. rewrite map_length, seq_length, L, T. cbn [series_of time_of new_simulator]. rewrite repeat_length, Nat.eqb_refl. intros A. assert (A' : series_of s = map (fun k => total (map (fun c => c k) cs)) (seq 0 n)) by congruence. f_equal.
  apply map_ext_in. intros k K. apply in_seq in K. rewrite A', nth_tab by lia. reflexivity.
Qed.
(** The linear trend starts at zero, rises in proportion to time and stays below its magnitude. *)
Theorem C156_trend : forall time n tiny magnitude, (0 < n)%nat -> 0 < tiny -> 0 < magnitude ->
  (forall j k, (j < k < n)%nat -> time j < time k) ->
  linear_trend time n tiny magnitude 0 = 0 /\
  (forall k, (k < n)%nat -> 0 <= linear_trend time n tiny magnitude k < magnitude) /\
  forall i j k l, time j - time i = time l - time k ->
    linear_trend time n tiny magnitude j - linear_trend time n tiny magnitude i = linear_trend time n tiny magnitude l - linear_trend time n tiny magnitude k.
Proof.
  intros time n tiny m N T M H. unfold linear_trend. set (w := time (n - 1)%nat - time 0%nat + tiny).
  assert (W : 0 < w) by (unfold w; destruct (Nat.eq_dec n 1) as [->|]; [cbn; lra|pose proof (H 0%nat (n - 1)%nat); specialize (H0 ltac:(lia)); lra]).
  split; [unfold Rdiv; rewrite Rminus_diag_eq by reflexivity; lra|]. split.
  - intros k K. assert (X : 0 <= (time k - time 0%nat) / w < 1).
    { split.
      - apply Rmult_le_pos; [|left; apply Rinv_0_lt_compat; exact W]. destruct k as [|k]; [lra|]. pose proof (H 0%nat (S k) ltac:(lia)). lra.
      - apply (Rmult_lt_reg_r w); [exact W|]. unfold Rdiv. rewrite Rmult_assoc, Rinv_l by lra. unfold w. destruct (Nat.eq_dec k (n - 1)) as [->|]; [lra|]. pose proof (H k (n - 1)%nat ltac:(lia)). lra. }
    split; [apply Rmult_le_pos; lra|]. rewrite <- (Rmult_1_r m) at 2. apply Rmult_lt_compat_l; lra.
  - intros i j k l E. replace (time j) with (time i + (time l - time k)) by lra. field. lra.
Qed.
(** The season repeats after its period. *)
Theorem C156_season : forall time magnitude period j k (z : nat), period <> 0 -> time j = time k + INR z * period -> sine time magnitude period j = sine time magnitude period k.
Proof.
  intros time m p j k z P E. unfold sine. f_equal. rewrite E. replace (2 * PI * ((time k + INR z * p - time 0%nat) / p)) with (2 * PI * ((time k - time 0%nat) / p) + 2 * INR z * PI) by (field; exact P). apply sin_period.
Qed.
Example C156_case : stl_sim (history 3 [(true, fun _ => 5); (false, INR); (true, fun _ => 1); (false, fun _ => 10)]) = Some [10; 12; 14].
Proof. cbn. f_equal. repeat (f_equal; try lra). Qed.

Print Assumptions C155_equation.
Print Assumptions C155_unit_roots.
Print Assumptions C156_additive.
Print Assumptions C156_order.
Print Assumptions C156_multiplicative_refuted.
Print Assumptions C156_trend.
Print Assumptions C156_season.

Print Assumptions C156_multiplicative.
