(** C308: the spectrum of the Fourier seasonality detector. *)
From Coq Require Import List Arith ZArith Reals Lia Lra.
From Verif Require Import FftModel.
Import ListNotations.
Open Scope R_scope.

(** ** Specification *)
Fixpoint rsum (n : nat) (f : nat -> R) : R := match n with O => 0 | S m => rsum m f + f m end.
(** the angle of frequency [k] (so many cycles in [n] values) at the value [m] *)
Definition angle (n k m : nat) : R := 2 * PI * INR k * INR m / INR n.
(** the power of a series at the frequency of [k] cycles *)
Definition power (x : list R) (k : nat) : R :=
  let n := length x in
  Rsqr (rsum n (fun m => nth m x 0 * cos (angle n k m))) + Rsqr (rsum n (fun m => nth m x 0 * sin (angle n k m))).
Definition decibel (p : R) : option R := if Rlt_dec 0 p then Some (10 * (ln p / ln 10)) else None.
(** a wave of [k] cycles in [n] values *)
Definition wave (A phi : R) (n k : nat) : list R := map (fun m => A * cos (angle n k m + phi)) (seq 0 n).
Definition repeats (p : nat) (x : list R) : Prop := forall m, (m + p < length x)%nat -> nth (m + p) x 0 = nth m x 0.

(** ** Sums *)
Lemma rsum_ext n f g : (forall m, (m < n)%nat -> f m = g m) -> rsum n f = rsum n g.
Proof. induction n as [|n IH]; intros H; [reflexivity|]. cbn. rewrite IH, H by (intros; try apply H; lia). reflexivity. Qed.
Lemma rsum_plus n f g : rsum n (fun m => f m + g m) = rsum n f + rsum n g.
Proof. induction n as [|n IH]; cbn; [ring|]. rewrite IH. ring. Qed.
Lemma rsum_scal n c f : rsum n (fun m => c * f m) = c * rsum n f.
Proof. induction n as [|n IH]; cbn; [ring|]. rewrite IH. ring. Qed.
Lemma rsum_zero n : rsum n (fun _ => 0) = 0.
Proof. induction n as [|n IH]; cbn; [reflexivity|]. rewrite IH. ring. Qed.
Lemma rsum_const n c : rsum n (fun _ => c) = INR n * c.
Proof. induction n as [|n IH]; [cbn; ring|]. cbn [rsum]. rewrite IH, S_INR. ring. Qed.
Lemma rsum_add n m f : rsum (n + m) f = rsum n f + rsum m (fun i => f (n + i)%nat).
Proof. induction m as [|m IH]; [rewrite Nat.add_0_r; cbn; ring|]. rewrite Nat.add_succ_r. cbn. rewrite IH. ring. Qed.
Lemma rsum_head n f : rsum (S n) f = f 0%nat + rsum n (fun m => f (S m)).
Proof. change (S n) with (1 + n)%nat. rewrite rsum_add. cbn. ring. Qed.
Lemma rsum_swap n m f : rsum n (fun i => rsum m (fun j => f i j)) = rsum m (fun j => rsum n (fun i => f i j)).
Proof. induction n as [|n IH]; cbn; [rewrite rsum_zero; reflexivity|]. rewrite IH. rewrite <- rsum_plus. reflexivity. Qed.
Lemma rsum_blocks p q f : rsum (q * p) f = rsum q (fun b => rsum p (fun a => f (b * p + a)%nat)).
Proof. induction q as [|q IH]; [reflexivity|]. cbn [rsum Nat.mul]. rewrite Nat.add_comm, rsum_add, IH. reflexivity. Qed.
(** ** Trigonometric sums *)
Lemma cos_turns x z : cos (x + IZR z * (2 * PI)) = cos x.
Proof.
  assert (P : forall k x, cos (x + INR k * (2 * PI)) = cos x) by (intros k y; rewrite <- (cos_period y k); f_equal; ring).
  destruct (Z_le_gt_dec 0 z) as [H|H].
  - rewrite <- (Z2Nat.id z H), <- INR_IZR_INZ. apply P.
  - rewrite <- (P (Z.to_nat (- z)) (x + IZR z * (2 * PI))). apply (f_equal cos). rewrite INR_IZR_INZ, Z2Nat.id by lia. rewrite opp_IZR. ring.
Qed.
Lemma sin_turns x z : sin (x + IZR z * (2 * PI)) = sin x.
Proof. rewrite <- !cos_shift. rewrite <- (cos_turns (PI / 2 - x) (- z)). apply (f_equal cos). rewrite opp_IZR. ring. Qed.
Lemma telescope t phi n : rsum n (fun m => 2 * sin (t / 2) * cos (INR m * t + phi)) = sin (INR n * t - t / 2 + phi) - sin (- (t / 2) + phi).
Proof.
  induction n as [|n IH]; [cbn [rsum INR]; replace (0 * t - t / 2 + phi) with (- (t / 2) + phi) by ring; ring|]. cbn [rsum]. rewrite IH, S_INR.
  replace ((INR n + 1) * t - t / 2 + phi) with ((INR n * t + phi) + t / 2) by field. replace (INR n * t - t / 2 + phi) with ((INR n * t + phi) - t / 2) by ring.
  rewrite (sin_plus (INR n * t + phi) (t / 2)), (sin_minus (INR n * t + phi) (t / 2)). ring.
Qed.
Lemma half_angle n k : (0 < k < n)%nat -> sin (2 * PI * INR k / INR n / 2) <> 0.
Proof.
  intros (K & L). apply Rgt_not_eq. assert (0 < INR n) by (apply lt_0_INR; lia). assert (0 < INR k) by (apply lt_0_INR; lia). pose proof PI_RGT_0.
  replace (2 * PI * INR k / INR n / 2) with (PI * (INR k / INR n)) by (field; lra).
  assert (0 < INR k / INR n) by (apply Rdiv_lt_0_compat; assumption).
  assert (INR k / INR n < 1) by (apply Rmult_lt_reg_r with (INR n); [assumption|]; unfold Rdiv; rewrite Rmult_assoc, Rinv_l, Rmult_1_r, Rmult_1_l by lra; apply lt_INR; exact L).
  apply sin_gt_0; [apply Rmult_lt_0_compat; assumption|]. rewrite <- (Rmult_1_r PI) at 2. apply Rmult_lt_compat_l; assumption.
Qed.
(** over a whole number of cycles a cosine adds up to nothing *)
Lemma cos_sum n k phi : (0 < k < n)%nat -> rsum n (fun m => cos (angle n k m + phi)) = 0.
Proof.
  intros K. assert (NN : INR n <> 0) by (apply not_0_INR; lia). set (t := 2 * PI * INR k / INR n). pose proof (half_angle n k K) as H. fold t in H.
  assert (E : 2 * sin (t / 2) * rsum n (fun m => cos (angle n k m + phi)) = 0).
  { rewrite <- rsum_scal. rewrite (rsum_ext n _ (fun m => 2 * sin (t / 2) * cos (INR m * t + phi))); [|intros m _; unfold angle, t; f_equal; f_equal; f_equal; field; exact NN].
    rewrite telescope. replace (INR n * t - t / 2 + phi) with ((- (t / 2) + phi) + IZR (Z.of_nat k) * (2 * PI)) by (rewrite <- INR_IZR_INZ; unfold t; field; exact NN).
    rewrite sin_turns. ring. }
  apply Rmult_integral in E as [E|E]; [|exact E]. exfalso. apply Rmult_integral in E as [E|E]; [lra|contradiction].
Qed.
Lemma angle_add n j k m : angle n (j + k) m = angle n j m + angle n k m.
Proof. unfold angle. rewrite plus_INR. unfold Rdiv. ring. Qed.
Lemma cos_cos_sum n j k phi : (0 < j + k < n)%nat -> j <> k -> rsum n (fun m => cos (angle n j m + phi) * cos (angle n k m)) = 0 /\ rsum n (fun m => cos (angle n j m + phi) * sin (angle n k m)) = 0.
Proof.
  intros L NE.
  assert (D : forall psi, rsum n (fun m => cos (angle n j m - angle n k m + psi)) = 0).
  { intros psi. destruct (le_lt_dec k j) as [H|H].
    - rewrite <- (cos_sum n (j - k) psi) by lia. apply rsum_ext. intros m _. f_equal. replace j with ((j - k) + k)%nat at 1 by lia. rewrite angle_add. ring.
    - rewrite <- (cos_sum n (k - j) (- psi)) by lia. apply rsum_ext. intros m _. rewrite <- cos_neg. f_equal. replace k with ((k - j) + j)%nat at 1 by lia. rewrite angle_add. ring. }
  assert (U : forall psi, rsum n (fun m => cos (angle n j m + angle n k m + psi)) = 0).
  { intros psi. rewrite <- (cos_sum n (j + k) psi) by exact L. apply rsum_ext. intros m _. rewrite angle_add. reflexivity. }
  split.
  - rewrite (rsum_ext n _ (fun m => / 2 * (cos (angle n j m + angle n k m + phi) + cos (angle n j m - angle n k m + phi)))).
    + rewrite rsum_scal, rsum_plus, U, D. ring.
    + intros m _. replace (angle n j m + angle n k m + phi) with ((angle n j m + phi) + angle n k m) by ring. replace (angle n j m - angle n k m + phi) with ((angle n j m + phi) - angle n k m) by ring.
      rewrite (cos_plus (angle n j m + phi)), (cos_minus (angle n j m + phi)). field.
  - rewrite (rsum_ext n _ (fun m => / 2 * (cos (angle n j m + angle n k m + (phi - PI / 2)) + - 1 * cos (angle n j m - angle n k m + (phi - PI / 2))))).
    + rewrite rsum_scal, rsum_plus, rsum_scal, U, D. ring.
    + intros m _. replace (angle n j m + angle n k m + (phi - PI / 2)) with (- (PI / 2 - ((angle n j m + phi) + angle n k m))) by ring.
      replace (angle n j m - angle n k m + (phi - PI / 2)) with (- (PI / 2 - ((angle n j m + phi) - angle n k m))) by ring.
      rewrite !cos_neg, !cos_shift, (sin_plus (angle n j m + phi)), (sin_minus (angle n j m + phi)). field.
Qed.
Lemma cos_self_sum n k phi : (0 < k)%nat -> (2 * k < n)%nat ->
  rsum n (fun m => cos (angle n k m + phi) * cos (angle n k m)) = INR n / 2 * cos phi /\ rsum n (fun m => cos (angle n k m + phi) * sin (angle n k m)) = - (INR n / 2 * sin phi).
Proof.
  intros K L.
  assert (U : forall psi, rsum n (fun m => cos (angle n k m + angle n k m + psi)) = 0).
  { intros psi. rewrite <- (cos_sum n (k + k) psi) by lia. apply rsum_ext. intros m _. rewrite angle_add. reflexivity. }
  split.
  - rewrite (rsum_ext n _ (fun m => / 2 * (cos (angle n k m + angle n k m + phi) + cos phi))); [rewrite rsum_scal, rsum_plus, U, rsum_const; field|].
    intros m _. replace (angle n k m + angle n k m + phi) with ((angle n k m + phi) + angle n k m) by ring. replace (cos phi) with (cos ((angle n k m + phi) - angle n k m)) by (f_equal; ring).
    rewrite (cos_plus (angle n k m + phi)), (cos_minus (angle n k m + phi)). field.
  - rewrite (rsum_ext n _ (fun m => / 2 * (cos (angle n k m + angle n k m + (phi - PI / 2)) + - sin phi))); [rewrite rsum_scal, rsum_plus, U, rsum_const; field|].
    intros m _. replace (angle n k m + angle n k m + (phi - PI / 2)) with (- (PI / 2 - ((angle n k m + phi) + angle n k m))) by ring. replace (sin phi) with (sin ((angle n k m + phi) - angle n k m)) by (f_equal; ring).
    rewrite cos_neg, cos_shift, (sin_plus (angle n k m + phi)), (sin_minus (angle n k m + phi)). field.
Qed.
(** ** The table *)
Lemma part_sum w n k x m : part w n k m x = rsum (length x) (fun i => nth i x 0 * w (- angle n k (m + i))).
Proof.
  revert m. induction x as [|v t IH]; intros m; [reflexivity|]. cbn [part length]. rewrite rsum_head, IH. cbn [nth]. rewrite Nat.add_0_r. unfold angle at 1. apply (f_equal (Rplus _)).
  apply rsum_ext. intros i _. replace (S m + i)%nat with (m + S i)%nat by lia. reflexivity.
Qed.
Lemma psd_power x k : part cos (length x) k 0 x * part cos (length x) k 0 x + part sin (length x) k 0 x * part sin (length x) k 0 x = power x k.
Proof.
  rewrite !part_sum. unfold power. cbv zeta. rewrite (rsum_ext _ (fun i => nth i x 0 * cos (- angle (length x) k (0 + i))) (fun m => nth m x 0 * cos (angle (length x) k m))) by (intros m _; rewrite cos_neg; reflexivity).
  rewrite (rsum_ext _ (fun i => nth i x 0 * sin (- angle (length x) k (0 + i))) (fun m => -1 * (nth m x 0 * sin (angle (length x) k m)))) by (intros m _; rewrite sin_neg; cbn [Nat.add]; ring).
  rewrite rsum_scal. unfold Rsqr. ring.
Qed.
Lemma combine_map2 {A B C} (f : A -> B) (g : A -> C) l : combine (map f l) (map g l) = map (fun x => (f x, g x)) l.
Proof. induction l as [|a l IH]; [reflexivity|]. cbn. rewrite IH. reflexivity. Qed.
Lemma combine_app {A B} (a a' : list A) (b b' : list B) : length a = length b -> combine (a ++ a') (b ++ b') = combine a b ++ combine a' b'.
Proof. revert b. induction a as [|x a IH]; intros [|y b] H; try discriminate; [reflexivity|]. cbn. injection H as H. rewrite (IH _ H). reflexivity. Qed.
Lemma halves_add n : (1 <= n)%nat -> ((n - 1) / 2 + 1 + n / 2 = n)%nat.
Proof.
  intros H. destruct (Nat.Even_or_Odd n) as [(q & ->)|(q & ->)].
  - replace (2 * q - 1)%nat with (1 + (q - 1) * 2)%nat by lia. rewrite Nat.div_add by lia. replace (2 * q)%nat with (q * 2)%nat by lia. rewrite Nat.div_mul by lia. cbn. lia.
  - replace (2 * q + 1 - 1)%nat with (q * 2)%nat by lia. rewrite Nat.div_mul by lia. replace (2 * q + 1)%nat with (1 + q * 2)%nat by lia. rewrite Nat.div_add by lia. cbn. lia.
Qed.
Lemma filter_all {A} (p : A -> bool) l : (forall x, In x l -> p x = true) -> filter p l = l.
Proof. induction l as [|a l IH]; intros H; [reflexivity|]. cbn. rewrite (H a (or_introl eq_refl)), IH; [reflexivity|]. intros x I. apply H. right. exact I. Qed.
Lemma filter_none {A} (p : A -> bool) l : (forall x, In x l -> p x = false) -> filter p l = [].
Proof. induction l as [|a l IH]; intros H; [reflexivity|]. cbn. rewrite (H a (or_introl eq_refl)), IH; [reflexivity|]. intros x I. apply H. right. exact I. Qed.
(** The table has one row for each number of cycles from 1 to (n-1)/2, in order: its frequency is the cycles per unit of time
    times the spacing, its amplitude the power in decibel. *)
Theorem C308_rows : forall s x, 0 < s -> x <> [] ->
  get_fft s x = map (fun k => (INR k / INR (length x) * s, decibel (power x k))) (seq 1 ((length x - 1) / 2)).
Proof.
  intros s x S0 NE. assert (N1 : (1 <= length x)%nat) by (destruct x; [contradiction|cbn; lia]). assert (NP : 0 < INR (length x)) by (apply lt_0_INR; lia).
  unfold get_fft, fftfreq, fft. rewrite map_map. cbn [fst snd]. rewrite (map_ext _ (power x) (psd_power x)). rewrite map_app, !map_map.
  set (n := length x) in *. assert (SQ : seq 0 n = seq 0 ((n - 1) / 2 + 1) ++ seq ((n - 1) / 2 + 1) (n / 2)) by (rewrite <- (halves_add n N1) at 1; apply (seq_app ((n - 1) / 2 + 1) (n / 2) 0)). rewrite SQ. clear SQ.
  rewrite map_app, combine_app by (rewrite !map_length; reflexivity). rewrite filter_app, map_app. rewrite (filter_none _ (combine (map _ (seq 0 (n / 2))) _)).
  - rewrite app_nil_r, combine_map2, Nat.add_comm. cbn [Nat.add seq map filter fst].
    destruct (Rlt_dec 0 (IZR (Z.of_nat 0) / (INR n * (1 / s)))) as [H|_]; [exfalso; cbn in H; unfold Rdiv in H; rewrite Rmult_0_l in H; lra|].
    assert (E : forall k, IZR (Z.of_nat k) / (INR n * (1 / s)) = INR k / INR n * s) by (intros k; rewrite <- INR_IZR_INZ; field; lra).
    rewrite filter_all.
    { rewrite map_map. cbn [map app]. apply map_ext. intros k. cbn [fst snd]. rewrite E. unfold decibel, log10. destruct (Rlt_dec 0 (power x k)); reflexivity. }
    intros p I. apply in_map_iff in I as (k & <- & I). cbn [fst]. rewrite E. apply in_seq in I. destruct (Rlt_dec 0 (INR k / INR n * s)) as [_|H]; [reflexivity|]. exfalso. apply H.
    apply Rmult_lt_0_compat; [|exact S0]. apply Rdiv_lt_0_compat; [apply lt_0_INR; lia|exact NP].
  - intros (f, p) I. apply in_combine_l in I. apply in_map_iff in I as (i & <- & I). apply in_seq in I. cbn [fst]. destruct (Rlt_dec 0 _) as [H|_]; [|reflexivity]. exfalso.
    assert (NG : IZR (- Z.of_nat (n / 2) + Z.of_nat i) < 0) by (apply IZR_lt; lia).
    replace (IZR (- Z.of_nat (n / 2) + Z.of_nat i) / (INR n * (1 / s))) with (- ((- IZR (- Z.of_nat (n / 2) + Z.of_nat i)) / INR n * s)) in H by (field; lra).
    assert (0 < - IZR (- Z.of_nat (n / 2) + Z.of_nat i) / INR n * s); [|lra]. apply Rmult_lt_0_compat; [|exact S0]. apply Rdiv_lt_0_compat; lra.
Qed.
Lemma below_half n k : (1 <= k <= (n - 1) / 2)%nat -> (0 < k /\ 2 * k < n)%nat.
Proof. intros (A & B). pose proof (Nat.mul_div_le (n - 1) 2 ltac:(lia)). lia. Qed.
Lemma sums_of_constant n k : (1 <= k <= (n - 1) / 2)%nat -> rsum n (fun m => cos (angle n k m)) = 0 /\ rsum n (fun m => sin (angle n k m)) = 0.
Proof.
  intros K. apply below_half in K as (A & B). split.
  - rewrite <- (cos_sum n k 0) by lia. apply rsum_ext. intros m _. f_equal. ring.
  - rewrite <- (cos_sum n k (- (PI / 2))) by lia. apply rsum_ext. intros m _. rewrite <- cos_shift, <- cos_neg. f_equal. ring.
Qed.
Lemma nth_map_r (f : R -> R) x m : (m < length x)%nat -> nth m (map f x) 0 = f (nth m x 0).
Proof. intros H. rewrite (nth_indep _ 0 (f 0)) by (rewrite map_length; exact H). apply map_nth. Qed.
(** The table does not depend on the level of the series: adding a constant to all values changes nothing. *)
Theorem C308_offset : forall s x c, 0 < s -> get_fft s (map (fun v => v + c) x) = get_fft s x.
Proof.
  intros s x c S0. destruct x as [|v0 t]; [reflexivity|]. set (x := v0 :: t) in *. rewrite (C308_rows s x), (C308_rows s (map _ x)) by (exact S0 || discriminate). rewrite map_length. apply map_ext_in.
  intros k I. apply in_seq in I. f_equal. f_equal. unfold power. rewrite map_length. cbv zeta. destruct (sums_of_constant (length x) k) as (C & SN); [lia|]. f_equal; f_equal.
  - rewrite (rsum_ext _ _ (fun m => nth m x 0 * cos (angle (length x) k m) + c * cos (angle (length x) k m))) by (intros m M; rewrite (nth_map_r (fun v => v + c)) by exact M; ring).
    rewrite rsum_plus, rsum_scal, C. ring.
  - rewrite (rsum_ext _ _ (fun m => nth m x 0 * sin (angle (length x) k m) + c * sin (angle (length x) k m))) by (intros m M; rewrite (nth_map_r (fun v => v + c)) by exact M; ring).
    rewrite rsum_plus, rsum_scal, SN. ring.
Qed.
Lemma power_scale x c k : power (map (fun v => c * v) x) k = c * c * power x k.
Proof.
  unfold power. rewrite map_length. cbv zeta. rewrite (rsum_ext _ (fun m => nth m (map (fun v => c * v) x) 0 * cos _) (fun m => c * (nth m x 0 * cos (angle (length x) k m)))) by (intros m M; rewrite (nth_map_r (fun v => c * v)) by exact M; ring).
  rewrite (rsum_ext _ (fun m => nth m (map (fun v => c * v) x) 0 * sin _) (fun m => c * (nth m x 0 * sin (angle (length x) k m)))) by (intros m M; rewrite (nth_map_r (fun v => c * v)) by exact M; ring).
  rewrite !rsum_scal. unfold Rsqr. ring.
Qed.
(** In other units, all amplitudes change by the same number of decibel. *)
Theorem C308_scale : forall s x c, 0 < s -> c <> 0 ->
  get_fft s (map (fun v => c * v) x) = map (fun r => (fst r, option_map (fun a => a + 10 * (ln (c * c) / ln 10)) (snd r))) (get_fft s x).
Proof.
  intros s x c S0 C0. destruct x as [|v0 t]; [reflexivity|]. set (x := v0 :: t) in *. rewrite (C308_rows s x), (C308_rows s (map _ x)) by (exact S0 || discriminate). rewrite map_length, map_map. apply map_ext.
  intros k. cbn [fst snd]. f_equal. rewrite power_scale. unfold decibel. assert (CC : 0 < c * c) by (apply Rlt_0_sqr; exact C0).
  assert (L10 : ln 10 <> 0) by (apply Rgt_not_eq; rewrite <- ln_1; apply ln_increasing; lra).
  destruct (Rlt_dec 0 (power x k)) as [P|P]; destruct (Rlt_dec 0 (c * c * power x k)) as [Q0|Q0]; cbn [option_map].
  - f_equal. rewrite ln_mult by assumption. field. exact L10.
  - exfalso. apply Q0. apply Rmult_lt_0_compat; assumption.
  - exfalso. apply P. apply Rmult_lt_reg_l with (c * c); [exact CC|]. rewrite Rmult_0_r. exact Q0.
  - reflexivity.
Qed.
Lemma wave_length A phi n j : length (wave A phi n j) = n.
Proof. unfold wave. rewrite map_length, seq_length. reflexivity. Qed.
Lemma wave_nth A phi n j m : (m < n)%nat -> nth m (wave A phi n j) 0 = A * cos (angle n j m + phi).
Proof.
  intros H. unfold wave. rewrite (nth_indep _ 0 ((fun m => A * cos (angle n j m + phi)) 0%nat)) by (rewrite map_length, seq_length; exact H).
  rewrite (map_nth (fun m => A * cos (angle n j m + phi))), seq_nth by exact H. reflexivity.
Qed.
Lemma wave_power A phi n j k : power (wave A phi n j) k =
  A * A * (Rsqr (rsum n (fun m => cos (angle n j m + phi) * cos (angle n k m))) + Rsqr (rsum n (fun m => cos (angle n j m + phi) * sin (angle n k m)))).
Proof.
  unfold power. rewrite wave_length. cbv zeta.
  rewrite (rsum_ext _ (fun m => nth m (wave A phi n j) 0 * cos _) (fun m => A * (cos (angle n j m + phi) * cos (angle n k m)))) by (intros m M; rewrite wave_nth by exact M; ring).
  rewrite (rsum_ext _ (fun m => nth m (wave A phi n j) 0 * sin _) (fun m => A * (cos (angle n j m + phi) * sin (angle n k m)))) by (intros m M; rewrite wave_nth by exact M; ring).
  rewrite !rsum_scal. unfold Rsqr. ring.
Qed.
(** A wave of so many cycles, whatever its phase, shows in the row of its frequency and in no other. *)
Theorem C308_wave : forall s A phi n j, 0 < s -> A <> 0 -> (1 <= j <= (n - 1) / 2)%nat ->
  get_fft s (wave A phi n j) = map (fun k => (INR k / INR n * s, if Nat.eq_dec k j then decibel (Rsqr (A * INR n / 2)) else None)) (seq 1 ((n - 1) / 2)).
Proof.
  intros s A phi n j S0 A0 J. destruct (below_half n j J) as (J0 & J1). assert (NE : wave A phi n j <> []) by (intros E; apply (f_equal (@length R)) in E; rewrite wave_length in E; cbn in E; lia).
  rewrite (C308_rows s _ S0 NE), wave_length. apply map_ext_in. intros k I. apply in_seq in I. f_equal. rewrite wave_power. destruct (Nat.eq_dec k j) as [->|N].
  - destruct (cos_self_sum n j phi J0 J1) as (-> & ->). f_equal. pose proof (sin2_cos2 phi) as P. unfold Rsqr in *.
    transitivity (A * A * (INR n / 2) * (INR n / 2) * (sin phi * sin phi + cos phi * cos phi)); [field|rewrite P; field].
  - destruct (below_half n k) as (K0 & K1); [lia|]. destruct (cos_cos_sum n j k phi) as (-> & ->); [lia|congruence|]. unfold decibel, Rsqr. destruct (Rlt_dec 0 _) as [H|_]; [exfalso; lra|reflexivity].
Qed.
(** Refuted: that every seasonality of a cycle that divides the length shows: a series that alternates between two values, a
    season of two, has no power in any row. *)
Theorem C308_alternating_refuted : forall s A q, 0 < s -> (1 <= q)%nat ->
  (forall m, (m < 2 * q)%nat -> nth m (wave A 0 (2 * q) q) 0 = A * (if Nat.even m then 1 else -1)) /\
  forall r, In r (get_fft s (wave A 0 (2 * q) q)) -> snd r = None.
Proof.
  intros s A q S0 Q1. assert (NN : INR (2 * q) <> 0) by (apply not_0_INR; lia). split.
  - intros m M. rewrite wave_nth by exact M. f_equal.
    assert (E : angle (2 * q) q m + 0 = INR m * PI) by (unfold angle; rewrite mult_INR in *; cbn [INR] in *; field; intros H; apply NN; rewrite H; ring). rewrite E. clear E M.
    assert (H : forall m, cos (INR m * PI) = if Nat.even m then 1 else -1); [|apply H]. clear m. intros m. induction m as [|m IH]; [cbn; rewrite Rmult_0_l; apply cos_0|].
    rewrite S_INR. replace ((INR m + 1) * PI) with (INR m * PI + PI) by ring. rewrite neg_cos, IH. rewrite Nat.even_succ, <- Nat.negb_even. destruct (Nat.even m); cbn; ring.
  - intros r I. assert (NE : wave A 0 (2 * q) q <> []) by (intros E; apply (f_equal (@length R)) in E; rewrite wave_length in E; cbn in E; lia).
    rewrite (C308_rows s _ S0 NE), wave_length in I. apply in_map_iff in I as (k & <- & I). apply in_seq in I. destruct (below_half (2 * q) k) as (K0 & K1); [lia|]. cbn [snd]. rewrite wave_power.
    destruct (cos_cos_sum (2 * q) q k 0) as (-> & ->); [lia|lia|]. unfold decibel, Rsqr. destruct (Rlt_dec 0 _) as [H|_]; [exfalso; lra|reflexivity].
Qed.
Lemma cos_sum_mod q k phi : (0 < q)%nat -> (k mod q <> 0)%nat -> rsum q (fun b => cos (angle q k b + phi)) = 0.
Proof.
  intros Q0 NM. pose proof (Nat.mod_upper_bound k q ltac:(lia)) as U. rewrite <- (cos_sum q (k mod q) phi) by lia. apply rsum_ext. intros b _.
  assert (NQ : INR q <> 0) by (apply not_0_INR; lia).
  rewrite <- (cos_turns (angle q (k mod q) b + phi) (Z.of_nat (k / q * b))). f_equal. rewrite <- INR_IZR_INZ. unfold angle.
  rewrite (Nat.div_mod k q) at 1 by lia. rewrite plus_INR, !mult_INR. field. exact NQ.
Qed.
Lemma repeats_block p x : repeats p x -> forall b a, (b * p + a < length x)%nat -> nth (b * p + a) x 0 = nth a x 0.
Proof.
  intros P b. induction b as [|b IH]; intros a H; [reflexivity|]. replace (S b * p + a)%nat with ((b * p + a) + p)%nat in * by lia. rewrite P by exact H. apply IH. lia.
Qed.
(** A series that repeats after [p] values, for [q] whole periods, has power only at the whole multiples of the frequency
    1/p. *)
Theorem C308_period : forall s x p q, 0 < s -> (0 < p)%nat -> (0 < q)%nat -> length x = (q * p)%nat -> repeats p x ->
  forall f a, In (f, Some a) (get_fft s x) -> exists h, (1 <= h)%nat /\ f = INR h / INR p * s.
Proof.
  intros s x p q S0 P0 Q0 L RP f a I. assert (NE : x <> []) by (intros ->; cbn in L; nia). rewrite (C308_rows s x S0 NE) in I. apply in_map_iff in I as (k & E & I). injection E as <- E. apply in_seq in I.
  destruct (Nat.eq_dec (k mod q) 0) as [M|M].
  - exists (k / q)%nat. assert (K : k = (q * (k / q))%nat) by (rewrite (Nat.div_mod k q) at 1 by lia; lia). split; [destruct (k / q)%nat; lia|]. rewrite L. rewrite K at 1. rewrite !mult_INR. field.
    split; apply not_0_INR; lia.
  - exfalso. assert (NQ : INR q <> 0) by (apply not_0_INR; lia). assert (NP : INR p <> 0) by (apply not_0_INR; lia).
    assert (Z : forall phi, rsum (q * p) (fun m => nth m x 0 * cos (angle (q * p) k m + phi)) = 0).
    { intros phi. rewrite rsum_blocks, rsum_swap. rewrite (rsum_ext p _ (fun _ => 0)); [apply rsum_zero|]. intros i Hi.
      rewrite (rsum_ext q _ (fun b => nth i x 0 * cos (angle q k b + (angle (q * p) k i + phi)))).
      - rewrite rsum_scal, cos_sum_mod by assumption. ring.
      - intros b Hb. rewrite (repeats_block p x RP) by (rewrite L; nia). f_equal. f_equal. unfold angle. rewrite plus_INR, !mult_INR. field. split; assumption. }
    assert (PZ : power x k = 0).
    { unfold power. rewrite L. cbv zeta. rewrite (rsum_ext _ (fun m => nth m x 0 * cos _) (fun m => nth m x 0 * cos (angle (q * p) k m + 0))) by (intros m _; rewrite Rplus_0_r; reflexivity).
      rewrite (rsum_ext _ (fun m => nth m x 0 * sin _) (fun m => nth m x 0 * cos (angle (q * p) k m + - (PI / 2)))) by (intros m _; rewrite <- cos_shift, <- (cos_neg (PI / 2 - _)); f_equal; f_equal; ring).
      rewrite !Z. unfold Rsqr. ring. }
    rewrite PZ in E. unfold decibel in E. destruct (Rlt_dec 0 0) as [H|_]; [lra|discriminate].
Qed.
(** A concrete case: five values, one cycle, spacing 1. *)
Example C308_case : get_fft 1 (wave 2 0 5 1) = [(1 / 5 * 1, decibel (Rsqr (2 * INR 5 / 2))); (2 / 5 * 1, None)] /\ repeats 2 [1; 3; 1; 3] /\ (1 <= 1 <= (5 - 1) / 2)%nat.
Proof.
  split; [|split; [intros m H; cbn in H; destruct m as [|[|[|m]]]; try reflexivity; lia|cbn; lia]].
  rewrite (C308_wave 1 2 0 5 1) by (lra || (cbn; lia)). cbn [seq map Nat.div Nat.sub Nat.divmod fst Nat.eq_dec]. cbn. repeat f_equal; field.
Qed.

Print Assumptions C308_rows.
Print Assumptions C308_offset.
Print Assumptions C308_scale.
Print Assumptions C308_wave.
Print Assumptions C308_alternating_refuted.
Print Assumptions C308_period.
