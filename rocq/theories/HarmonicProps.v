(** Harmonic regression. *)
From Coq Require Import List ZArith Reals Bool Arith Lia Lra.
From Verif Require Import HarmonicModel LsqModel LsqProofs.
Import ListNotations.
Open Scope nat_scope.

(** ** Specification *)
(** the sum of [n] waves: the [j]-th has [j + 1] cycles per [p] hours *)
Fixpoint waves (p : R) (n : nat) (s c : nat -> R) (t : Z) : R :=
  match n with
  | O => 0%R
  | S j => (waves p j s c t + s j * sin (2 * PI * INR (S j) * (IZR t / 3600) / p) + c j * cos (2 * PI * INR (S j) * (IZR t / 3600) / p))%R
  end.
Definition average (l : list R) : R := (fold_right Rplus 0 l / INR (length l))%R.
(** how far a function of time is from the values *)
Definition misfit (f : Z -> R) (times : list Z) (values : list R) : R := fold_right (fun d a => (snd d - f (fst d)) ^ 2 + a)%R 0%R (combine times values).
(** the times tell all waves apart *)
Definition determined (p : R) (n : nat) (times : list Z) := forall s c, (forall t, In t times -> waves p n s c t = 0%R) -> forall j, j < n -> s j = 0%R /\ c j = 0%R.

(** ** Proofs *)
Definition coef (s c : nat -> R) : LsqModel.row := fun i => if Nat.even i then s (i / 2) else c (i / 2).
Lemma even2 j : Nat.even (j * 2) = true. Proof. rewrite Nat.even_mul. cbn. apply orb_true_r. Qed.
Lemma odd2 j : Nat.even (S (j * 2)) = false. Proof. rewrite Nat.even_succ, <- Nat.negb_even, even2. reflexivity. Qed.
Lemma half_odd j : S (j * 2) / 2 = j. Proof. symmetry. apply (Nat.div_unique _ 2 j 1); lia. Qed.
Lemma dot_waves q n a t : dot (n * 2) a (fourier_row q t) = waves (period q) n (fun j => a (j * 2)) (fun j => a (S (j * 2))) t.
Proof.
  unfold dot. induction n as [|n IH]; [reflexivity|]. change (S n * 2) with (S (S (n * 2))). cbn [total waves]. rewrite IH. unfold fourier_row, hours. cbv zeta. rewrite even2, odd2, half_odd, Nat.div_mul by lia.
  replace (2 * (INR n + 1) * PI * (IZR t / 3600) / period q)%R with (2 * PI * INR (S n) * (IZR t / 3600) / period q)%R; [reflexivity|]. rewrite S_INR. unfold Rdiv. ring.
Qed.
Lemma waves_ext p n s c s' c' t : (forall j, j < n -> s j = s' j /\ c j = c' j) -> waves p n s c t = waves p n s' c' t.
Proof. induction n as [|n IH]; intros E; [reflexivity|]. cbn. rewrite IH by (intros; apply E; lia). destruct (E n) as [-> ->]; [lia|reflexivity]. Qed.
Lemma dot_coef q n s c t : dot (n * 2) (coef s c) (fourier_row q t) = waves (period q) n s c t.
Proof. rewrite dot_waves. apply waves_ext. intros j _. unfold coef. rewrite even2, odd2, half_odd, Nat.div_mul by lia. split; reflexivity. Qed.
Lemma waves_period p n s c t k u : p <> 0%R -> (IZR u = 3600 * p * IZR k)%R -> waves p n s c (t + u) = waves p n s c t.
Proof.
  intros P U. induction n as [|n IH]; [reflexivity|]. cbn [waves]. rewrite IH. clear IH.
  assert (E : (2 * PI * INR (S n) * (IZR (t + u) / 3600) / p = 2 * PI * INR (S n) * (IZR t / 3600) / p + 2 * IZR (k * Z.of_nat (S n)) * PI)%R). { rewrite plus_IZR, U, mult_IZR, <- INR_IZR_INZ. field. exact P. }
  rewrite E. generalize (2 * PI * INR (S n) * (IZR t / 3600) / p)%R. intros y. generalize (k * Z.of_nat (S n))%Z. intros z.
  assert (SC : sin (y + 2 * IZR z * PI) = sin y /\ cos (y + 2 * IZR z * PI) = cos y).
  { destruct (Z_le_gt_dec 0 z) as [H|H].
    - rewrite <- (Z2Nat.id z H), <- INR_IZR_INZ. split; [apply sin_period|apply cos_period].
    - replace z with (- Z.of_nat (Z.to_nat (- z)))%Z by lia. rewrite opp_IZR, <- INR_IZR_INZ. set (n' := Z.to_nat (- z)). split; [rewrite <- (sin_period (y + 2 * - INR n' * PI) n')|rewrite <- (cos_period (y + 2 * - INR n' * PI) n')]; f_equal; ring. }
  destruct SC as [-> ->]. reflexivity.
Qed.
Lemma misfit_ssr q n a times values : ssr (n * 2) (combine (map (fourier_row q) times) values) a = misfit (waves (period q) n (fun j => a (j * 2)) (fun j => a (S (j * 2)))) times values.
Proof.
  unfold ssr, misfit, sumof. revert values. induction times as [|t times IH]; intros [|v values]; [reflexivity..|]. cbn [map combine fold_right fst snd]. rewrite IH, dot_waves. ring_simplify. reflexivity.
Qed.
Lemma in_data q times (values : list R) d : length times = length values -> In d (combine (map (fourier_row q) times) values) <-> exists t v, In (t, v) (combine times values) /\ d = (fourier_row q t, v).
Proof.
  revert values. induction times as [|t times IH]; intros [|v values] L; try discriminate; cbn [map combine In].
  - split; [intros []|intros (t & v & [] & _)].
  - rewrite IH by (cbn in L; lia). split.
    + intros [<-|(t' & v' & I & ->)]; [exists t, v; auto|exists t', v'; auto].
    + intros (t' & v' & [E|I] & ->); [injection E as -> ->; auto|right; exists t', v'; auto].
Qed.
Lemma in_times {A B} (l : list A) (r : list B) a : length l = length r -> In a l -> exists b, In (a, b) (combine l r).
Proof. revert r. induction l as [|x l IH]; intros [|y r] L I; try discriminate; [destruct I|]. destruct I as [->|I]; [exists y; cbn; auto|]. destruct (IH r) as [b Hb]; [cbn in L; lia|exact I|]. exists b. cbn. auto. Qed.
Lemma in_combine_nth {B} (l : list Z) (f : Z -> B) a b : In (a, b) (combine l (map f l)) -> b = f a.
Proof. induction l as [|x l IH]; [intros []|]. cbn. intros [E|I]; [injection E as -> ->; reflexivity|auto]. Qed.
Lemma independent_of q times values : let n := Z.to_nat (order q) in length times = length values -> determined (period q) n times -> independent (n * 2) (combine (map (fourier_row q) times) values).
Proof.
  intros n L D a Z i Hi. specialize (D (fun j => a (j * 2)) (fun j => a (S (j * 2)))). assert (H : forall j, j < n -> a (j * 2) = 0%R /\ a (S (j * 2)) = 0%R).
  { intros j Hj. apply D; [|exact Hj]. intros t It. destruct (in_times times values t L It) as [v Hv]. rewrite <- dot_waves. apply (Z (fourier_row q t, v)). apply in_data; [exact L|]. exists t, v. auto. }
  assert (C : i = i / 2 * 2 \/ i = S (i / 2 * 2)) by (pose proof (Nat.div_mod i 2 ltac:(lia)); pose proof (Nat.mod_upper_bound i 2 ltac:(lia)); lia). assert (Hj : i / 2 < n) by (apply Nat.div_lt_upper_bound; lia). destruct C as [->| ->]; apply H; exact Hj || (rewrite half_odd; exact Hj) || (rewrite Nat.div_mul by lia; exact Hj).
Qed.

(** ** C179: the fit *)
(** Parameters are refused exactly when the period or the order is not positive. *)
Theorem C179_checked : forall p o, make_params p o = None <-> (p <= 0)%R \/ (o <= 0)%Z.
Proof.
  intros p o. unfold make_params. destruct (Rle_dec p 0) as [H|H]; [split; auto|]. destruct (Z.leb_spec o 0) as [H0|H0]; [split; auto|]. split; [discriminate|]. intros [C|C]; [contradiction|lia].
Qed.
(** A fitted model predicts a sum of [order] waves, the one closest to the deviations of the values from their mean;
    with more observations than coefficients it always fits. *)
Theorem C179_least : forall p o q times values dates, make_params p o = Some q -> length times = length values -> 2 * Z.to_nat o <= length values ->
  exists s c rows, predict q (fit q times values) dates = Some rows /\
    rows = map (fun t => (t, waves p (Z.to_nat o) s c t)) dates /\
    forall s' c', (misfit (fun t => average values + waves p (Z.to_nat o) s c t) times values <= misfit (fun t => average values + waves p (Z.to_nat o) s' c' t) times values)%R.
Proof.
  intros p o q times values dates MP L N. unfold make_params in MP. destruct (Rle_dec p 0) as [|NP]; [discriminate|]. destruct (Z.leb_spec o 0) as [|NO]; [discriminate|]. injection MP as <-. set (q := {| period := p; order := o |}).
  unfold fit. change (columns q) with (Z.to_nat o * 2). destruct (Nat.ltb_spec (length values) (Z.to_nat o * 2)) as [C|_]; [lia|]. cbv zeta. set (n := Z.to_nat o). set (dem := map _ values). set (a := beta (n * 2) (combine (map (fourier_row q) times) dem)).
  exists (fun j => a (j * 2)), (fun j => a (S (j * 2))). eexists. split; [reflexivity|]. split; [apply map_ext; intros t; f_equal; apply dot_waves|]. intros s' c'.
  assert (M : forall f, misfit (fun t => average values + f t)%R times values = misfit f times dem).
  { intros f. unfold misfit, dem. change (mean values) with (average values). generalize (average values). intros mu. clear. revert values. induction times as [|t times IH]; intros [|v values]; [reflexivity..|]. cbn [map combine fold_right fst snd]. rewrite IH. f_equal. ring. }
  rewrite !M. pose proof (beta_least (n * 2) (combine (map (fourier_row q) times) dem) (coef s' c')) as B. rewrite !misfit_ssr in B. fold a in B. cbn [period q] in B.
  eapply Rle_trans; [exact B|]. apply Req_le. unfold misfit. induction (combine times dem) as [|d r IH]; [reflexivity|]. cbn [fold_right]. rewrite IH. f_equal. f_equal. f_equal. apply waves_ext. intros j _. unfold coef. rewrite even2, odd2, half_odd, Nat.div_mul by lia. split; reflexivity.
Qed.
(** Predictions repeat: dates a whole number of periods apart get the same value. *)
Theorem C179_periodic : forall p o q times values dates dates' rows rows' k u, make_params p o = Some q ->
  (IZR u = 3600 * p * IZR k)%R -> dates' = map (fun t => (t + u)%Z) dates ->
  predict q (fit q times values) dates = Some rows -> predict q (fit q times values) dates' = Some rows' ->
  map snd rows' = map snd rows.
Proof.
  intros p o q times values dates dates' rows rows' k u MP U -> P P'. unfold make_params in MP. destruct (Rle_dec p 0) as [|NP]; [discriminate|]. destruct (Z.leb_spec o 0) as [|NO]; [discriminate|]. injection MP as <-. set (q := {| period := p; order := o |}) in *.
  destruct (fit q times values) as [a|]; [|discriminate]. cbn [predict] in *. injection P as <-. injection P' as <-. rewrite !map_map. apply map_ext. intros t. cbn [snd]. change (columns q) with (Z.to_nat o * 2). rewrite !dot_waves. cbn [period q]. apply waves_period with k; [lra|exact U].
Qed.
(** With too few observations the fit raises. *)
Theorem C179_short : forall q times values, fit q times values = None <-> length values < 2 * Z.to_nat (order q).
Proof. intros q times values. unfold fit, columns. destruct (Nat.ltb_spec (length values) (Z.to_nat (order q) * 2)); split; intros; try discriminate; try lia; reflexivity. Qed.

(** ** C180: the level of the data *)
(** C180 (partial): waves around a level are predicted exactly, but without the level; the waves have to cancel over
    the times of the data, which have to tell all waves apart. *)
Theorem C180_exact_partial : forall p o q times level s c dates, make_params p o = Some q -> 2 * Z.to_nat o <= length times ->
  determined p (Z.to_nat o) times -> average (map (waves p (Z.to_nat o) s c) times) = 0%R ->
  predict q (fit q times (map (fun t => level + waves p (Z.to_nat o) s c t)%R times)) dates = Some (map (fun t => (t, waves p (Z.to_nat o) s c t)) dates).
Proof.
  intros p o q times level s c dates MP N D A. unfold make_params in MP. destruct (Rle_dec p 0) as [|NP]; [discriminate|]. destruct (Z.leb_spec o 0) as [|NO]; [discriminate|]. injection MP as <-. set (q := {| period := p; order := o |}). set (n := Z.to_nat o) in *.
  set (w := waves p n s c) in *. set (values := map _ times). assert (LV : length values = length times) by apply map_length. unfold fit. change (columns q) with (n * 2). destruct (Nat.ltb_spec (length values) (n * 2)) as [C|_]; [lia|]. cbv zeta. cbn [predict]. f_equal. apply map_ext. intros t. f_equal. change (columns q) with (n * 2).
  assert (MV : mean values = level). { assert (NT : INR (length times) <> 0%R) by (apply not_0_INR; lia). change (mean values) with (average values). unfold average, values in *. rewrite !map_length in *. assert (E : fold_right Rplus 0%R (map (fun t => level + w t)%R times) = (INR (length times) * level + fold_right Rplus 0 (map w times))%R). { clear. induction times as [|t times IH]; [cbn; ring|]. cbn [map fold_right length]. rewrite IH, S_INR. ring. }
    assert (Z : fold_right Rplus 0%R (map w times) = 0%R). { apply (Rmult_eq_reg_r (/ INR (length times))); [|apply Rinv_neq_0_compat, NT]. unfold Rdiv in A. rewrite A. ring. } rewrite E, Z. field. exact NT. }
  assert (DM : map (fun v => v - mean values)%R values = map w times). { rewrite MV. unfold values. rewrite map_map. apply map_ext. intros u. ring. } rewrite DM.
  change w with (waves (period q) n s c). rewrite <- (dot_coef q n s c t). apply dot_ext. intros i Hi.
  apply beta_exact; [apply (independent_of q times (map (waves (period q) n s c) times)); [symmetry; apply map_length|exact D]| |exact Hi].
  intros d Id. apply in_data in Id; [|rewrite map_length; reflexivity]. destruct Id as (u & v & I & ->). cbn [fst snd]. rewrite dot_coef. apply in_combine_nth in I. exact I.
Qed.
(** The level is lost: adding a constant to all values changes no prediction. *)
Theorem C180_level_refuted : forall q times values dates (x : R), length values <> 0 ->
  predict q (fit q times (map (fun v => v + x)%R values)) dates = predict q (fit q times values) dates.
Proof.
  intros q times values dates x NV. unfold fit. rewrite map_length. destruct (length values <? columns q); [reflexivity|]. cbv zeta. rewrite map_map.
  assert (NT : INR (length values) <> 0%R) by (apply not_0_INR; exact NV). assert (M : mean (map (fun v => v + x)%R values) = (mean values + x)%R). { unfold mean. rewrite map_length. assert (E : sumof (fun v => v) (map (fun v => v + x)%R values) = (sumof (fun v => v) values + INR (length values) * x)%R). { clear. induction values as [|v values IH]; [cbn; ring|]. unfold sumof in *. cbn [map fold_right length]. rewrite IH, S_INR. ring. } rewrite E. field. exact NT. }
  rewrite M. replace (map (fun v => v + x - (mean values + x))%R values) with (map (fun v => v - mean values)%R values); [reflexivity|]. apply map_ext. intros v. ring.
Qed.
(** So a constant series, for one, is predicted to be zero at each of its own times. *)
Theorem C180_constant_refuted : forall p o q times level, make_params p o = Some q -> 2 * Z.to_nat o <= length times ->
  predict q (fit q times (map (fun _ => level) times)) times = Some (map (fun t => (t, 0%R)) times).
Proof.
  intros p o q times level MP N. unfold make_params in MP. destruct (Rle_dec p 0) as [|NP]; [discriminate|]. destruct (Z.leb_spec o 0) as [|NO]; [discriminate|]. injection MP as <-. set (q := {| period := p; order := o |}). set (n := Z.to_nat o) in *.
  unfold fit. rewrite map_length. change (columns q) with (n * 2). destruct (Nat.ltb_spec (length times) (n * 2)) as [C|_]; [lia|]. cbv zeta. cbn [predict]. f_equal.
  assert (MV : mean (map (fun _ => level) times) = level). { assert (NT : INR (length times) <> 0%R) by (apply not_0_INR; lia). unfold mean. rewrite map_length. assert (E : sumof (fun v => v) (map (fun _ : Z => level) times) = (INR (length times) * level)%R). { clear. induction times as [|v times IH]; [cbn; ring|]. unfold sumof in *. cbn [map fold_right length]. rewrite IH, S_INR. ring. } rewrite E. field. exact NT. }
  rewrite MV, map_map. set (data := combine _ _). apply map_ext_in. intros t It. f_equal. change (columns q) with (n * 2).
  assert (Z : forall d, In d data -> snd d = dot (n * 2) (fun _ => 0%R) (fst d)). { intros d Id. unfold data in Id. apply in_data in Id; [|rewrite map_length; reflexivity]. destruct Id as (u & v & I & ->). cbn [fst snd]. rewrite (in_combine_nth times (fun _ => (level - level)%R) u v I). unfold dot. rewrite (total_scale (n * 2) 0%R (fourier_row q u)). ring. }
  destruct (in_times times (map (fun _ => (level - level)%R) times) t ltac:(rewrite map_length; reflexivity) It) as [v Iv].
  assert (ID : In (fourier_row q t, v) data) by (apply in_data; [rewrite map_length; reflexivity|]; exists t, v; auto).
  assert (B : (ssr (n * 2) data (fun _ => 0) <= ssr (n * 2) data (beta (n * 2) data))%R). { apply Req_le. rewrite (ssr_exact (n * 2) data _ Z). unfold ssr. rewrite (sumof_ext _ (fun _ => 0%R)); [apply sumof_zero|]. intros d Id. rewrite (Z d Id). ring. }
  pose proof (beta_rows (n * 2) data _ B _ ID) as E. cbn [fst] in E. transitivity (dot (n * 2) (fun _ => 0%R) (fourier_row q t)); [symmetry; exact E|]. unfold dot. rewrite (total_scale (n * 2) 0%R (fourier_row q t)). ring.
Qed.

(** ** Cases *)
(** six hours apart over two days, a daily wave around ten *)
Definition quarter (k : nat) : Z := (21600 * Z.of_nat k)%Z.
Definition quarters : list Z := map quarter (seq 0 8).
Lemma quarter_wave s c k : waves 24 1 s c (quarter k) = (s 0%nat * sin (INR k * (PI / 2)) + c 0%nat * cos (INR k * (PI / 2)))%R.
Proof. cbn [waves]. unfold quarter. rewrite mult_IZR, <- INR_IZR_INZ. replace (2 * PI * INR 1 * (21600 * INR k / 3600) / 24)%R with (INR k * (PI / 2))%R by (cbn [INR]; field). ring. Qed.
Lemma quarter_values s c : waves 24 1 s c (quarter 0) = c 0 /\ waves 24 1 s c (quarter 1) = s 0 /\ waves 24 1 s c (quarter 2) = (- c 0%nat)%R /\ waves 24 1 s c (quarter 3) = (- s 0%nat)%R.
Proof.
  rewrite !quarter_wave. cbn [INR]. replace (0 * (PI / 2))%R with 0%R by ring. replace (1 * (PI / 2))%R with (PI / 2)%R by ring. replace ((1 + 1) * (PI / 2))%R with PI by field. replace ((1 + 1 + 1) * (PI / 2))%R with (3 * (PI / 2))%R by ring.
  rewrite sin_0, cos_0, sin_PI2, cos_PI2, sin_PI, cos_PI, sin_3PI2, cos_3PI2. repeat split; ring.
Qed.
Lemma quarter_again s c k : waves 24 1 s c (quarter (4 + k)) = waves 24 1 s c (quarter k).
Proof. replace (quarter (4 + k)) with (quarter k + 86400)%Z by (unfold quarter; lia). apply waves_period with 1%Z; lra. Qed.
Example C179_case : make_params 24 1 = Some {| period := 24; order := 1 |} /\ 2 * Z.to_nat 1 <= length quarters /\ (IZR 86400 = 3600 * 24 * IZR 1)%R.
Proof. split; [unfold make_params; destruct (Rle_dec 24 0); [lra|reflexivity]|]. split; [cbn; lia|lra]. Qed.
Example C180_case : determined 24 (Z.to_nat 1) quarters /\ forall s c, average (map (waves 24 (Z.to_nat 1) s c) quarters) = 0%R.
Proof.
  change (Z.to_nat 1) with 1. split.
  - intros s c Z j Hj. destruct (quarter_values s c) as (V0 & V1 & _). replace j with 0 by lia. rewrite <- V0, <- V1. split; apply Z; unfold quarters; cbn [seq map In]; auto.
  - intros s c. unfold average, quarters. rewrite map_map. cbn [seq map fold_right]. destruct (quarter_values s c) as (V0 & V1 & V2 & V3). pose proof (quarter_again s c 0) as V4. pose proof (quarter_again s c 1) as V5. pose proof (quarter_again s c 2) as V6. pose proof (quarter_again s c 3) as V7. cbn [plus] in V4, V5, V6, V7. rewrite V4, V5, V6, V7, V0, V1, V2, V3. unfold Rdiv. ring.
Qed.

Print Assumptions C179_checked.
Print Assumptions C179_least.
Print Assumptions C179_periodic.
Print Assumptions C179_short.
Print Assumptions C180_exact_partial.
Print Assumptions C180_level_refuted.
Print Assumptions C180_constant_refuted.
