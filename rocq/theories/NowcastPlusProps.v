(** Theorems about NowcastingPlusModel (C143) and the dynamic model (C144). *)
From Coq Require Import ZArith.
From Verif Require Import Common FeatModel FeatSpec FeatProofs FeatProps NowcastModel NowcastSpec NowcastProps NowcastPlusProofs.
Open Scope nat_scope.

Definition plus_features : list (column -> column) :=
  map MOM [10; 15; 20; 25; 30] ++ map ROC [10; 15; 20; 25; 30] ++ map LAG [1; 2; 3; 4; 5] ++ map MA [10; 20; 30].
Definition dynamic_features : list (column -> column) :=
  map ROC [10; 15; 20; 25; 30] ++ map MOM [10; 15; 20; 25; 30] ++ map LAG [1; 2; 3; 4; 5; 20] ++ map MA [10; 20; 30; 40].
Lemma row_of_features fs s i x : row_of (map (fun F : column -> column => F s) fs) i = Some x <-> feature_row fs s i x.
Proof. rewrite row_of_forall2. apply forall2_map_l. Qed.
Lemma plus_columns_eq s : plus_columns s = map (fun F : column -> column => F s) plus_features.
Proof. reflexivity. Qed.
Lemma dynamic_columns_eq s : has_zero s = false -> dynamic_columns s = map (fun F : column -> column => F s) dynamic_features.
Proof. intros H. unfold dynamic_columns. rewrite H. reflexivity. Qed.
Lemma complete_no_zero s : complete s -> has_zero s = false.
Proof.
  intros C. unfold has_zero. apply Bool.not_true_iff_false. intros H. apply existsb_exists in H as (v & I & E).
  apply (In_nth _ _ None) in I as (i & L & N). destruct (C i L) as (w & W & NZ). unfold row in W. rewrite N in W. rewrite W in E. apply Qeq_bool_iff in E. contradiction.
Qed.
(** rows i-m .. i are present and not zero *)
Definition full (m : nat) (s : column) (i : nat) : Prop := m <= i /\ i < length s /\ forall j, i - m <= j <= i -> exists v, row s j = Some v /\ ~ (v == 0)%Q.
Lemma full_mom m s i n : full m s i -> n <= m -> exists v, row (MOM n s) i = Some v.
Proof.
  intros (M & L & F) N. rewrite C136_mom by exact L. destruct (Nat.ltb_spec i n); [lia|].
  destruct (F (i - n)) as (a & E & _); [lia|]. destruct (F i) as (b & E' & _); [lia|]. rewrite E, E'. eexists. reflexivity.
Qed.
Lemma full_roc m s i n : full m s i -> 1 <= n <= S m -> exists v, row (ROC n s) i = Some v.
Proof.
  intros (M & L & F) N. rewrite C136_roc_partial by (try exact L; lia). destruct (Nat.ltb_spec i (n - 1)); [lia|].
  destruct (F (i - (n - 1))) as (a & E & NZ); [lia|]. destruct (F i) as (b & E' & _); [lia|]. rewrite E, E'.
  destruct (Qeq_bool a 0) eqn:Z; [apply Qeq_bool_iff in Z; contradiction|]. eexists. reflexivity.
Qed.
Lemma full_lag m s i n : full m s i -> n <= m -> exists v, row (LAG n s) i = Some v.
Proof.
  intros (M & L & F) N. rewrite C136_lag by exact L. destruct (Nat.ltb_spec i n); [lia|]. destruct (F (i - n)) as (a & E & _); [lia|]. exists a. exact E.
Qed.
Lemma full_ma m s i n : full m s i -> 1 <= n <= S m -> exists v, row (MA n s) i = Some v.
Proof.
  intros (M & L & F) N. destruct (C136_ma n s i ltac:(lia) L) as [H _].
  destruct (H (map (fun j => value s (S i - n + j)) (seq 0 n))) as (v & V & _); [lia| |rewrite map_length, seq_length; reflexivity|exists v; exact V].
  intros j J. rewrite nth_map_seq by exact J. cbn [Nat.add]. destruct (F (S i - n + j)) as (a & E & _); [lia|]. unfold value. rewrite E. reflexivity.
Qed.
Lemma features_full m s i fs : full m s i ->
  (forall F, In F fs -> exists n, (F = MOM n /\ n <= m) \/ (F = ROC n /\ 1 <= n <= S m) \/ (F = LAG n /\ n <= m) \/ (F = MA n /\ 1 <= n <= S m)) ->
  exists x, feature_row fs s i x.
Proof.
  intros H A. apply forall2_exists. intros F I. destruct (A F I) as (n & [[-> N]|[[-> N]|[[-> N]|[-> N]]]]).
  - eapply full_mom; eassumption.
  - eapply full_roc; eassumption.
  - eapply full_lag; eassumption.
  - eapply full_ma; eassumption.
Qed.
Lemma plus_full s i : full 30 s i -> exists x, feature_row plus_features s i x.
Proof.
  intros H. apply (features_full 30); [exact H|]. intros F I. unfold plus_features in I. rewrite !in_app_iff, !in_map_iff in I.
  destruct I as [(n & <- & I)|[(n & <- & I)|[(n & <- & I)|(n & <- & I)]]]; exists n; cbn in I.
  - left. split; [reflexivity|lia].
  - right; left. split; [reflexivity|lia].
  - right; right; left. split; [reflexivity|lia].
  - right; right; right. split; [reflexivity|lia].
Qed.
Lemma dynamic_full s i : full 39 s i -> exists x, feature_row dynamic_features s i x.
Proof.
  intros H. apply (features_full 39); [exact H|]. intros F I. unfold dynamic_features in I. rewrite !in_app_iff, !in_map_iff in I.
  destruct I as [(n & <- & I)|[(n & <- & I)|[(n & <- & I)|(n & <- & I)]]]; exists n; cbn in I.
  - right; left. split; [reflexivity|lia].
  - left. split; [reflexivity|lia].
  - right; right; left. split; [reflexivity|lia].
  - right; right; right. split; [reflexivity|lia].
Qed.
Lemma forall2_pick {A B} (R : A -> B -> Prop) l x a : Forall2 R l x -> In a l -> exists b, R a b.
Proof. intros F. induction F as [|p q l x E F IH]; intros [].
  - subst. exists q. exact E.
  - apply IH. assumption.
Qed.
Lemma complete_full m s i : complete s -> m <= i < length s -> full m s i.
Proof. intros C H. split; [lia|]. split; [lia|]. intros j J. apply C. lia. Qed.
Lemma plus_rows s : complete s -> forall i, i < length s -> ((exists x, row_of (plus_columns s) i = Some x) <-> 30 <= i).
Proof.
  intros C i L. rewrite plus_columns_eq. split.
  - intros [x X]. apply row_of_features in X. destruct (forall2_pick _ _ _ (MOM 30) X) as [v V]; [cbn; tauto|].
    rewrite C136_mom in V by exact L. destruct (Nat.ltb_spec i 30); [discriminate|lia].
  - intros H. destruct (plus_full s i) as [x X]; [apply complete_full; [exact C|lia]|]. exists x. apply row_of_features. exact X.
Qed.
Lemma dynamic_rows s : complete s -> forall i, i < length s -> ((exists x, row_of (dynamic_columns s) i = Some x) <-> 39 <= i).
Proof.
  intros C i L. rewrite dynamic_columns_eq by (apply complete_no_zero; exact C). split.
  - intros [x X]. apply row_of_features in X. destruct (forall2_pick _ _ _ (MA 40) X) as [v V]; [cbn; tauto|].
    destruct (Nat.lt_ge_cases i 39) as [K|K]; [|exact K]. destruct (C136_ma 40 s i ltac:(lia) L) as [_ N]. rewrite N in V; [discriminate|]. left. lia.
  - intros H. destruct (dynamic_full s i) as [x X]; [apply complete_full; [exact C|lia]|]. exists x. apply row_of_features. exact X.
Qed.
Lemma forall2_map_r {A B} (R : A -> B -> Prop) g : forall l, (forall a, In a l -> R a (g a)) -> Forall2 R l (map g l).
Proof. induction l as [|a l IH]; intros H; cbn; constructor; [apply H; left; reflexivity|]. apply IH. intros. apply H. right. assumption. Qed.

(** On a complete series sampled on a daily grid, with more than a day of data and a curve that tells the minutes apart: the
    regressor gets the features of all rows from 30 on, and as labels how much the value minus the curve falls over the next
    [step] rows; the values returned are the last [step] values, minus the curve at the LAST row, minus what the regressor
    says, plus the curve [step] rows after the last row. *)
Theorem C143_forecast_partial : forall poly learn P minute s step,
  complete s -> daily_grid P minute -> 1 <= step -> 30 + step < length s -> P + step <= length s ->
  let n := length s in let b := curve poly minute s in
  (forall i j, i < P -> j < P -> (b i == b j)%Q -> i = j) ->
  exists X y p, plus_predict poly learn step (map minute (seq 0 n)) s = Some p /\
    Forall2 (feature_row plus_features s) (seq 30 (n - 30)) X /\
    y = map (fun i => (value s i - b i - (value s (i + step)%nat - b (i + step)%nat))%Q) (seq 30 (n - 30 - step)) /\
    Forall2 (fun i v => exists x, feature_row plus_features s i x /\
      v = (value s i - b (n - 1)%nat - learn X y x + b (n - 1 + step)%nat)%Q) (seq (n - step) step) p.
Proof.
  intros poly learn P minute s step C G H L D. cbv zeta. intros INJ. unfold plus_predict.
  rewrite (core_fit poly learn minute s (plus_columns s) 30 C (plus_rows s C) step H L).
  eexists. eexists. eexists. split; [apply (core_predict poly P minute s (plus_columns s) 30 C G INJ (plus_rows s C) step _ H ltac:(lia) D)|].
  split; [|split; [reflexivity|]].
  - apply forall2_map_r. intros i I. apply in_seq in I. apply row_of_features. rewrite <- plus_columns_eq. apply (features_ok s _ 30 (plus_rows s C)). lia.
  - apply forall2_map_r. intros i I. apply in_seq in I. eexists. split; [|reflexivity]. apply row_of_features. rewrite <- plus_columns_eq.
    apply (features_ok s _ 30 (plus_rows s C)). lia.
Qed.
Lemma feature_row_inj fs s i : forall x z, feature_row fs s i x -> feature_row fs s i z -> x = z.
Proof.
  unfold feature_row. induction fs as [|F fs IH]; intros x z X Z; inversion X; inversion Z; subst; [reflexivity|]. f_equal; [congruence|]. apply IH; assumption.
Qed.
Lemma forall2_seq_last {B} (R : nat -> B -> Prop) a n p d : Forall2 R (seq a n) p -> 1 <= n -> R (a + n - 1) (last p d).
Proof.
  intros F N. pose proof (forall2_last R _ _ 0 d F) as X. destruct n as [|n]; [lia|]. rewrite seq_S, last_last in X.
  replace (a + S n - 1) with (a + n) by lia. apply X. destruct (seq a n); discriminate.
Qed.
(** The dynamic model chooses its features by whether the series contains a zero; missing values are no zeros. *)
Theorem C144_features : forall s i x,
  row_of (dynamic_columns s) i = Some x <->
  ((exists j v, j < length s /\ row s j = Some v /\ (v == 0)%Q) /\ feature_row (map MOM [10; 15; 20; 25; 30] ++ map LAG [10; 15; 20; 25; 30]) s i x) \/
  ((forall j v, j < length s -> row s j = Some v -> ~ (v == 0)%Q) /\ feature_row dynamic_features s i x).
Proof.
  intros s i x. unfold dynamic_columns. assert (Z : has_zero s = true <-> exists j v, j < length s /\ row s j = Some v /\ (v == 0)%Q).
  { unfold has_zero. rewrite existsb_exists. split.
    - intros (v & I & E). apply (In_nth _ _ None) in I as (j & L & N). destruct v as [v|]; [|discriminate]. exists j, v. split; [exact L|]. split; [exact N|]. apply Qeq_bool_iff. exact E.
    - intros (j & v & L & N & E). exists (Some v). split; [unfold row in N; rewrite <- N; apply nth_In; exact L|]. apply Qeq_bool_iff. exact E. }
  destruct (has_zero s).
  - rewrite <- row_of_features. split.
    + intros H. left. split; [apply Z; reflexivity|exact H].
    + intros [[_ H]|[N _]]; [exact H|]. exfalso. destruct (proj1 Z eq_refl) as (j & v & L & W & E). exact (N j v L W E).
  - change (row_of (map (fun F : column -> column => F s) dynamic_features) i = Some x <->
      ((exists j v, j < length s /\ row s j = Some v /\ (v == 0)%Q) /\ feature_row (map MOM [10; 15; 20; 25; 30] ++ map LAG [10; 15; 20; 25; 30]) s i x) \/
      ((forall j v, j < length s -> row s j = Some v -> ~ (v == 0)%Q) /\ feature_row dynamic_features s i x)). rewrite row_of_features. split.
    + intros H. right. split; [|exact H]. intros j v L W E. assert (X : false = true) by (apply Z; exists j, v; tauto). discriminate.
    + intros [[H _]|[_ H]]; [apply Z in H; discriminate|exact H].
Qed.
Example C144_features_case : let s : column := Some (1 # 1)%Q :: None :: repeat (Some (2 # 1)%Q) 60 in
  exists x, row_of (dynamic_columns s) 50 = Some x /\ length x = 20.
Proof. eexists. split; [vm_compute; reflexivity|reflexivity]. Qed.
(** So the last value returned is the true value [step] rows later, whenever the regressor is right about the fall. *)
Theorem C143_exact_partial : forall poly learn P minute s step,
  complete s -> daily_grid P minute -> 1 <= step -> 30 + step < length s -> P + step <= length s ->
  let n := length s in let b := curve poly minute s in
  (forall i j, i < P -> j < P -> (b i == b j)%Q -> i = j) ->
  forall next, (forall X y x, feature_row plus_features s (n - 1) x ->
     (learn X y x == (value s (n - 1)%nat - b (n - 1)%nat) - (next - b (n - 1 + step)%nat))%Q) ->
  exists p, plus_predict poly learn step (map minute (seq 0 n)) s = Some p /\ (last p 0 == next)%Q.
Proof.
  intros poly learn P minute s step C G H L D. cbv zeta. intros INJ next LE.
  destruct (C143_forecast_partial poly learn P minute s step C G H L D INJ) as (X & y & p & E & _ & _ & F). exists p. split; [exact E|].
  destruct (forall2_seq_last _ _ _ _ 0%Q F H) as (x & FX & V). replace (length s - step + step - 1) with (length s - 1) in * by lia.
  rewrite V, (LE X y x FX). ring.
Qed.
(** The other values returned are not: here the series repeats itself exactly, the curve differs from it by a constant and the
    regressor is right everywhere (no fall), but the forecast from the row before the last is 14, and the value two rows after
    that row is 11. *)
Definition three (i : nat) : Z := Z.of_nat (i mod 3).
Definition wave (n : nat) : column := map (fun i => Some (inject_Z (10 + three i))) (seq 0 n).
Lemma wave_row n i : i < n -> row (wave n) i = Some (inject_Z (10 + three i)).
Proof. intros H. unfold row, wave. rewrite nth_map_seq by exact H. reflexivity. Qed.
Lemma wave_complete n : complete (wave n).
Proof.
  intros i L. unfold wave in L. rewrite map_length, seq_length in L. exists (inject_Z (10 + three i)). split; [apply wave_row; exact L|].
  unfold three, Qeq, inject_Z. cbn [Qnum Qden]. lia.
Qed.
Lemma three_grid : daily_grid 3 three.
Proof.
  split; [lia|]. split.
  - intros i. unfold three. f_equal. replace (i + 3) with (i + 1 * 3) by lia. apply Nat.mod_add. lia.
  - intros i j I J E. unfold three in E. rewrite !Nat.mod_small in E by assumption. lia.
Qed.
Definition minutes_curve : list (Z * Q) -> Z -> Q := fun _ m => inject_Z m.
Theorem C143_steps_refuted :
  complete (wave 40) /\ daily_grid 3 three /\
  (forall i, i + 2 < 42 -> (value (wave 42) i - curve minutes_curve three (wave 40) i - (value (wave 42) (i + 2)%nat - curve minutes_curve three (wave 40) (i + 2)%nat) == 0)%Q) /\
  exists p0 p1, plus_predict minutes_curve (fun _ _ _ => 0%Q) 2 (map three (seq 0 40)) (wave 40) = Some [p0; p1] /\
    (p1 == 12)%Q /\ (p0 == 14)%Q /\ row (wave 42) 41 = Some 12%Q /\ row (wave 42) 40 = Some 11%Q.
Proof.
  split; [apply wave_complete|]. split; [apply three_grid|]. split.
  - intros i H. unfold value, curve, minutes_curve. rewrite !wave_row by lia. cbn [value_or_0]. rewrite !inject_Z_plus. ring.
  - destruct (C143_forecast_partial minutes_curve (fun _ _ _ => 0%Q) 3 three (wave 40) 2) as (X & y & p & E & _ & _ & F).
    + apply wave_complete.
    + apply three_grid.
    + lia.
    + unfold wave. rewrite map_length, seq_length. lia.
    + unfold wave. rewrite map_length, seq_length. lia.
    + intros i j I J K. apply three_grid; [exact I|exact J|]. unfold curve, minutes_curve, Qeq, inject_Z in K. cbn [Qnum Qden] in K. lia.
    + change (length (wave 40)) with 40 in *. cbn [Nat.sub seq] in F. inversion F as [|? p0 ? p' (x0 & _ & V0) F']; subst.
      inversion F' as [|? p1 ? p'' (x1 & _ & V1) F'']; subst. inversion F''; subst.
      eexists. eexists. split; [exact E|]. split; [vm_compute; reflexivity|]. split; [vm_compute; reflexivity|]. split; reflexivity.
Qed.
(** With at most one day of data (each minute seen once) predict raises: there is no row [step] after the first row with the
    minute of the last one. *)
Theorem C143_day_refuted : forall poly learn P minute s step,
  complete s -> daily_grid P minute -> 1 <= step -> length s <= P ->
  (forall i j, i < P -> j < P -> (curve poly minute s i == curve poly minute s j)%Q -> i = j) ->
  plus_predict poly learn step (map minute (seq 0 (length s))) s = None.
Proof.
  intros poly learn P minute s step C G H L INJ. unfold plus_predict. destruct (diff_fit _ _ _ _ _ _); [|reflexivity].
  apply (core_short poly P minute s (plus_columns s) C G INJ step _ H L).
Qed.
Lemma poly_rows_short minute : forall s k, nth k s (Some 0%Q) = None -> length (poly_rows (map minute (seq 0 (length s))) s) < length s.
Proof.
  intros s. generalize 0 as a. induction s as [|v s IH]; intros a k K; [destruct k; discriminate|].
  assert (LE : forall t c, length (poly_rows (map minute (seq c (length t))) t) <= length t).
  { unfold poly_rows. induction t as [|w t IT]; intros c; cbn; [lia|]. rewrite app_length. specialize (IT (S c)). destruct w; cbn; lia. }
  unfold poly_rows. cbn. rewrite app_length. fold (poly_rows (map minute (seq (S a) (length s))) s).
  destruct k as [|k]; cbn in K.
  - subst v. cbn. specialize (LE s (S a)). lia.
  - specialize (IH (S a) k K). destruct v; cbn; lia.
Qed.
Lemma all_some_in_none {A B} (f : A -> option B) l a : In a l -> f a = None -> all_some (map f l) = None.
Proof.
  intros I E. destruct (all_some (map f l)) as [x|] eqn:X; [|reflexivity]. apply all_some_forall2 in X. destruct (forall2_pick _ _ _ a X I) as [v V]. congruence.
Qed.
(** With a missing value anywhere before the last 31 rows (these being complete), fit raises: the curve is evaluated on the rows
    with a value only, and looked up by row number. *)
Theorem C143_missing_refuted : forall poly learn minute s step k,
  k < length s - 31 -> row s k = None -> (forall i, length s - 31 <= i < length s -> exists v, row s i = Some v /\ ~ (v == 0)%Q) ->
  plus_predict poly learn step (map minute (seq 0 (length s))) s = None.
Proof.
  intros poly learn minute s step k K M F. unfold plus_predict, diff_fit. cbv zeta.
  destruct (plus_full s (length s - 1)) as [x X]; [split; [lia|]; split; [lia|]; intros j J; apply F; lia|].
  assert (I : In (length s - 1) (kept (plus_columns s) s)).
  { apply in_kept. split; [destruct (F (length s - 1)) as (v & V & _); [lia|]; exists v; exact V|]. exists x. rewrite plus_columns_eq. apply row_of_features. exact X. }
  assert (E : deseasoned (kept (plus_columns s) s) s (season poly (map minute (seq 0 (length s))) s) = None).
  { unfold deseasoned. apply (all_some_in_none _ _ (length s - 1) I). destruct (nth (length s - 1) s None); [|reflexivity].
    rewrite (proj2 (nth_error_None _ _)); [reflexivity|]. unfold season. cbv zeta. rewrite map_length.
    assert (N : nth k s (Some 0%Q) = None) by (rewrite (nth_indep _ _ None) by lia; exact M).
    pose proof (poly_rows_short minute s k N). lia. }
  rewrite E. destruct (all_some _); reflexivity.
Qed.
Example C143_missing_case : let s := None :: wave 40 in row s 0 = None /\ forall i, length s - 31 <= i < length s -> exists v, row s i = Some v /\ ~ (v == 0)%Q.
Proof.
  cbv zeta. split; [reflexivity|]. intros i H. cbn [length] in H. destruct i as [|i]; [cbn in H; lia|]. apply (wave_complete 40 i). lia.
Qed.

(** The dynamic model is trained on the fall over ONE row, whatever the step, and adds the curve [step] rows ahead. *)
Theorem C144_dynamic_partial : forall poly learn P minute s step,
  complete s -> daily_grid P minute -> 1 <= step -> 39 + step <= length s -> 40 < length s -> P + step <= length s ->
  let n := length s in let b := curve poly minute s in
  (forall i j, i < P -> j < P -> (b i == b j)%Q -> i = j) ->
  exists X y p, dynamic_predict poly learn step (map minute (seq 0 n)) s = Some p /\
    Forall2 (feature_row dynamic_features s) (seq 39 (n - 39)) X /\
    y = map (fun i => (value s i - b i - (value s (i + 1)%nat - b (i + 1)%nat))%Q) (seq 39 (n - 39 - 1)) /\
    Forall2 (fun i v => exists x, feature_row dynamic_features s i x /\
      v = (value s i - b (n - 1)%nat - learn X y x + b (n - 1 + step)%nat)%Q) (seq (n - step) step) p.
Proof.
  intros poly learn P minute s step C G H L L' D. cbv zeta. intros INJ. unfold dynamic_predict.
  rewrite (core_fit poly learn minute s (dynamic_columns s) 39 C (dynamic_rows s C) 1 ltac:(lia) ltac:(lia)).
  pose proof (dynamic_columns_eq s (complete_no_zero s C)) as DE.
  eexists. eexists. eexists. split; [apply (core_predict poly P minute s (dynamic_columns s) 39 C G INJ (dynamic_rows s C) step _ H ltac:(lia) D)|].
  split; [|split; [reflexivity|]].
  - apply forall2_map_r. intros i I. apply in_seq in I. apply row_of_features. rewrite <- DE. apply (features_ok s _ 39 (dynamic_rows s C)). lia.
  - apply forall2_map_r. intros i I. apply in_seq in I. eexists. split; [|reflexivity]. apply row_of_features. rewrite <- DE.
    apply (features_ok s _ 39 (dynamic_rows s C)). lia.
Qed.
(** With a regressor that is right about what it was trained on, the forecast is the value one row ahead, moved by the curve from
    there to [step] rows ahead: right for step 1, and wrong for any other step by how the deviation from the curve changes. *)
Theorem C144_dynamic_refuted : forall poly learn P minute s step,
  complete s -> daily_grid P minute -> 1 <= step -> 39 + step <= length s -> 40 < length s -> P + step <= length s ->
  let n := length s in let b := curve poly minute s in
  (forall i j, i < P -> j < P -> (b i == b j)%Q -> i = j) ->
  forall next1 next, (forall X y x, feature_row dynamic_features s (n - 1) x ->
     (learn X y x == (value s (n - 1)%nat - b (n - 1)%nat) - (next1 - b (n - 1 + 1)%nat))%Q) ->
  exists p, dynamic_predict poly learn step (map minute (seq 0 n)) s = Some p /\
    (last p 0 - next == (next1 - b (n - 1 + 1)%nat) - (next - b (n - 1 + step)%nat))%Q.
Proof.
  intros poly learn P minute s step C G H L L' D. cbv zeta. intros INJ next1 next LE.
  destruct (C144_dynamic_partial poly learn P minute s step C G H L L' D INJ) as (X & y & p & E & _ & _ & F). exists p. split; [exact E|].
  destruct (forall2_seq_last _ _ _ _ 0%Q F H) as (x & FX & V). replace (length s - step + step - 1) with (length s - 1) in * by lia.
  rewrite V, (LE X y x FX). ring.
Qed.
Example C144_case : complete (wave 50) /\ daily_grid 3 three /\ length (wave 50) = 50 /\
  forall i j, i < 3 -> j < 3 -> (curve minutes_curve three (wave 50) i == curve minutes_curve three (wave 50) j)%Q -> i = j.
Proof.
  split; [apply wave_complete|]. split; [apply three_grid|]. split; [reflexivity|]. intros i j I J K. apply three_grid; [exact I|exact J|].
  unfold curve, minutes_curve, Qeq, inject_Z in K. cbn [Qnum Qden] in K. lia.
Qed.

Print Assumptions C143_forecast_partial.
Print Assumptions C143_exact_partial.
Print Assumptions C143_steps_refuted.
Print Assumptions C143_day_refuted.
Print Assumptions C143_missing_refuted.
Print Assumptions C144_dynamic_partial.
Print Assumptions C144_dynamic_refuted.

Print Assumptions C144_features.
