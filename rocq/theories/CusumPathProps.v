(** C275: the vectorised path of the CUSUM model returns what the loop over the steps returns. *)
From Verif Require Import Common PySlice CusumModel CusumDetModel CusumSpec CusumProofs CusumStateProofs
  CusumDetProps CusumMagProps CusumVecProps CusumRunModel CusumShiftProofs CusumPathProofs.
Require Import Reals.
Require Import String List.
Require Import Sorted.
Open Scope Z_scope.

(** ** Specification *)

(** [n] times, evenly spaced, in whole seconds and after the first second of 1970. *)
Definition evenly (t0 f : Z) (n : nat) (times : list Z) : Prop :=
  times = map (fun i => t0 + Z.of_nat i * f) (seq 0 n) /\
  0 < f /\ 1000000000 <= t0 /\ (1000000000 | t0) /\ (1000000000 | f).
(** the same configuration with and without vectorization *)
Definition with_vec (b : bool) (g : config) : config :=
  MkConfig (g_threshold g) (g_std_ratio g) (g_magnitude g) (g_mag_ratio g) (g_dirs g) (g_scan g) (g_hist g)
    (g_step g) (g_adapted g) b (g_score g).
(** a state between two calls: an alert that is on has a direction, and its change point is
    earlier than the time [t] (nanoseconds; change points are in seconds). *)
Definition ready (s : state) (t : Z) : Prop :=
  (length (cps s) <= 10)%nat /\ number_of_normal_scan s = 0 /\
  (alert_fired s = true -> alert_direction s <> None /\ cps s <> [] /\ last (cps s) 0 * 1000000000 < t).

(** ** Lemmas *)
Lemma ready_inv s t : ready s t -> inv s.
Proof. intros (A & B & C). repeat split; [exact A| | |exact B]; apply C; assumption. Qed.
Lemma first_ge_bound times t : forall i a, first_ge times t i = Some a ->
  i <= a /\ exists x, nth_error times (Z.to_nat (a - i)) = Some x /\ t <= x.
Proof.
  induction times as [|x l IH]; intros i a; [discriminate|]. cbn [first_ge]. destruct (Z.leb_spec t x).
  - intros E; injection E as <-. split; [lia|]. exists x. rewrite Z.sub_diag. auto.
  - intros E. apply IH in E as (L & y & N & T). split; [lia|]. exists y.
    replace (Z.to_nat (a - i)) with (Datatypes.S (Z.to_nat (a - (i + 1)))) by lia. auto.
Qed.
Lemma smooth_length g f vals : length (smooth_of g f vals) = length vals.
Proof. unfold smooth_of, smoothed. destruct (_ <? _)%nat; [|reflexivity]. now rewrite map_length, seq_length. Qed.
Lemma loop_with b g std times vals smooth step starts : forall s,
  loop_path (with_vec b g) std times vals smooth step starts s = loop_path g std times vals smooth step starts s.
Proof.
  induction starts as [|t r IH]; intros s; [reflexivity|]. cbn [loop_path].
  change (g_hist (with_vec b g)) with (g_hist g).
  destruct (time2idx_right times (t - g_hist g)) as [hs|]; [|reflexivity].
  destruct (time2idx_right times t) as [he|]; [|reflexivity].
  destruct (time2idx_left times (t + step)) as [se|]; [|reflexivity].
  destruct (se + 1 <=? he); [apply IH|].
  change (one_step (with_vec b g) std times vals smooth hs he (se + 1) s)
    with (one_step g std times vals smooth hs he (se + 1) s).
  destruct (one_step _ _ _ _ _ _ _ _ _) as [(s', v)|]; [|reflexivity]. rewrite IH. reflexivity.
Qed.
Lemma rows_with b g std step ct pt cols : forall c pcols founds s,
  vec_rows (with_vec b g) std step ct pt c cols pcols founds s = vec_rows g std step ct pt c cols pcols founds s.
Proof.
  induction cols as [|v cols IH]; intros c pcols founds s; [reflexivity|].
  destruct pcols as [|p pcols]; [reflexivity|]. destruct founds as [|f founds]; [reflexivity|]. cbn [vec_rows].
  change (fit_vec_row (with_vec b g) std s ct v f (c * step)) with (fit_vec_row g std s ct v f (c * step)).
  destruct (fit_vec_row _ _ _ _ _ _ _) as [(s', res)|]; [|reflexivity]. rewrite IH. reflexivity.
Qed.
Lemma vec_with b g std times vals smooth step p h s dim st :
  vec_path (with_vec b g) std times vals smooth step p h s dim st = vec_path g std times vals smooth step p h s dim st.
Proof.
  unfold vec_path. change (vec_found (with_vec b g)) with (vec_found g).
  destruct (vec_found g _ _); [|reflexivity]. apply rows_with.
Qed.

(** the columns of the vectorised path *)
Lemma block_cols {A} (l : list A) p h s dim : (1 <= s)%nat -> (h <= p)%nat -> (1 <= dim)%nat ->
  (p + dim * s <= length l)%nat ->
  let block := py_slice l (Some (Z.max (Z.of_nat p - Z.of_nat h) 0)) (Some (Z.of_nat p + Z.of_nat dim * Z.of_nat s)) in
  reorganize_big_data block (Z.of_nat h + Z.of_nat s) (Z.of_nat s)
  = map (fun k => cut (p - h + k * s) (h + s) l) (seq 0 dim) /\
  py_slice block None (Some (Z.of_nat h + Z.of_nat s)) = cut (p - h) (h + s) l.
Proof.
  intros S1 HP D1 L. cbv zeta.
  replace (Z.max (Z.of_nat p - Z.of_nat h) 0) with (Z.of_nat (p - h)) by lia.
  replace (Z.of_nat p + Z.of_nat dim * Z.of_nat s) with (Z.of_nat (p + dim * s)) by nia.
  rewrite slice_cut by nia. replace (p + dim * s - (p - h))%nat with (h + dim * s)%nat by nia.
  assert (LB : length (cut (p - h) (h + dim * s) l) = (h + dim * s)%nat) by (apply cut_length; nia).
  split.
  - rewrite (block_columns _ _ _ (Z.of_nat dim - 1)) by nia.
    replace (Datatypes.S (Z.to_nat (Z.of_nat dim - 1))) with dim by lia.
    apply map_ext_in. intros k K. apply in_seq in K.
    replace (Z.to_nat (Z.of_nat h + Z.of_nat s)) with (h + s)%nat by lia. rewrite Nat2Z.id.
    change (cut (k * s) (h + s) (cut (p - h) (h + dim * s) l) = cut (p - h + k * s) (h + s) l).
    apply cut_cut. nia.
  - replace (Z.of_nat h + Z.of_nat s) with (Z.of_nat (h + s)) by lia.
    rewrite slice_first_cut by nia. rewrite cut_cut by nia. f_equal. lia.
Qed.

Lemma vec_is_loop g std t0 f n times vals smooth p h s dim st :
  evenly t0 f n times -> length vals = n -> length smooth = n ->
  g_hist g = Z.of_nat h * f -> (2 <= h)%nat -> 2 * f <= g_scan g -> (1 <= s)%nat -> (h <= p)%nat -> (1 <= dim)%nat ->
  (p + dim * s <= n)%nat -> ready st (t0 + Z.of_nat p * f) ->
  (vec_path g std times vals smooth (Z.of_nat s * f) (Z.of_nat p) (Z.of_nat h) (Z.of_nat s) (Z.of_nat dim) st
   = loop_path g std times vals smooth (Z.of_nat s * f)
       (map (fun k => t0 + Z.of_nat p * f + Z.of_nat k * (Z.of_nat s * f)) (seq 0 dim)) st) \/
  (vec_path g std times vals smooth (Z.of_nat s * f) (Z.of_nat p) (Z.of_nat h) (Z.of_nat s) (Z.of_nat dim) st = None /\
   ~ (g_magnitude g = None /\ understood (det_dirs g))).
Proof.
  intros (ET & F & P0 & W0 & WF) LV LS HH H2 SC S1 HP D1 BND RD. subst times.
  fold (grid t0 f 0 n). unfold vec_path. cbv zeta.
  assert (LG := grid_length t0 f 0 n).
  destruct (block_cols vals p h s dim) as (-> & _); [lia..|].
  destruct (block_cols smooth p h s dim) as (-> & _); [lia..|].
  destruct (block_cols (grid t0 f 0 n) p h s dim) as (_ & ->); [lia..|].
  rewrite cut_grid by nia.
  assert (PC : last_rows (Z.of_nat s) (map (fun k => cut (p - h + k * s) (h + s) smooth) (seq 0 dim))
    = map (fun k => cut (p + k * s) s smooth) (seq 0 dim)).
  { unfold last_rows. rewrite map_map. apply map_ext_in. intros k K. apply in_seq in K.
    assert (LC : length (cut (p - h + k * s) (h + s) smooth) = (h + s)%nat) by (apply cut_length; nia).
    rewrite slice_last_cut by lia. rewrite LC, cut_cut by lia. f_equal. lia. }
  rewrite PC, slice_last_cut by (rewrite ?grid_length; lia). rewrite grid_length.
  assert (PT : cut (h + s - s) s (grid t0 f (p - h) (h + s)) = grid t0 f p s).
  { rewrite <- (cut_grid t0 f (p - h) (h + s) n) by nia. rewrite cut_cut by lia. rewrite cut_grid by nia. f_equal. lia. }
  rewrite PT. destruct (grid_scan g t0 f (p - h) (h + s) F ltac:(lia) SC) as (i & SI & I0 & I3).
  unfold vec_found. rewrite SI, grid_length.
  destruct (Z.ltb_spec 1 (Z.of_nat (h + s) - i)) as [_|]; [|lia].
  set (cols := map (fun k => cut (p - h + k * s) (h + s) vals) (seq 0 dim)).
  set (A := det_args g (i, Z.of_nat (h + s))).
  assert (VC : valid_call A (grid t0 f (p - h) (h + s)) cols).
  { split; [|rewrite grid_length; split; [lia|cbn; lia]].
    intros ts I. unfold cols in I. apply in_map_iff in I as (k & <- & K). apply in_seq in K.
    rewrite grid_length. apply cut_length. nia. }
  destruct (vec_detector A (det_dirs g) (grid t0 f (p - h) (h + s)) cols) as [out|] eqn:VD.
  - left. cbn [option_map]. destruct (C272_columns _ _ _ _ _ VC VD) as (LO & COL).
    assert (LCOL : length cols = dim) by (unfold cols; rewrite map_length, seq_length; reflexivity).
    symmetry. apply (paths_same g std t0 f n vals smooth p h s i); auto; try lia.
    + rewrite map_length. lia.
    + intros q Q. destruct (COL q (cut (p - h + q * s) (h + s) vals)) as (v & pp & N & D & F2).
      { unfold cols. rewrite nth_error_map.
        rewrite (nth_error_nth' _ 0%nat) by (rewrite seq_length; lia). rewrite seq_nth by lia. reflexivity. }
      exists v, pp. rewrite nth_error_map, N. split; [reflexivity|]. split; [exact D|exact F2].
    + eapply ready_inv; eauto.
    + intros FI. destruct RD as (_ & _ & R). destruct (R FI) as (_ & _ & X). rewrite Nat.add_0_r. exact X.
  - right. split; [reflexivity|]. intros (NM & U).
    apply (C272_raises _ _ _ _ VC U) in VD as (ts & I & N).
    destruct VC as (LEN & L3 & W).
    destruct (C270_returns A (det_dirs g) (grid t0 f (p - h) (h + s)) ts) as (o & O); auto.
    + rewrite (LEN ts I). reflexivity.
    + rewrite (LEN ts I). exact L3.
    + cbn. lia.
    + rewrite (LEN ts I). exact W.
    + congruence.
Qed.

Lemma call_same g std t0 f n times vals org regular s :
  evenly t0 f n times -> length vals = n -> (org < n)%nat -> ready s (t0 + Z.of_nat org * f) ->
  fit_predict (with_vec true g) std f regular times vals (Z.of_nat org) s
  = fit_predict (with_vec false g) std f regular times vals (Z.of_nat org) s \/
  (fit_predict (with_vec true g) std f regular times vals (Z.of_nat org) s = None /\
   ~ (g_magnitude g = None /\ understood (det_dirs g))).
Proof.
  intros EV LV ORG RD. assert (EV' := EV). destruct EV' as (ET & F & P0 & W0 & WF).
  unfold fit_predict. change (windows_ok (with_vec true g) f) with (windows_ok g f).
  change (windows_ok (with_vec false g) f) with (windows_ok g f).
  destruct (negb (windows_ok g f)) eqn:WO; [left; reflexivity|]. apply negb_false_iff in WO.
  cbv zeta.
  change (g_vectorized (with_vec true g)) with true. change (g_vectorized (with_vec false g)) with false.
  change (g_scan (with_vec true g)) with (g_scan g). change (g_scan (with_vec false g)) with (g_scan g).
  change (g_hist (with_vec true g)) with (g_hist g). change (g_hist (with_vec false g)) with (g_hist g).
  change (g_score (with_vec true g)) with (g_score g). change (g_score (with_vec false g)) with (g_score g).
  change (rest_path (with_vec true g)) with (rest_path g). change (rest_path (with_vec false g)) with (rest_path g).
  cbn [andb].
  change (smooth_of (with_vec true g) f vals) with (smooth_of g f vals).
  change (smooth_of (with_vec false g) f vals) with (smooth_of g f vals).
  change (step_of (with_vec true g)) with (step_of g). change (step_of (with_vec false g)) with (step_of g).
  set (smooth := smooth_of g f vals).
  assert (TN : forall i d, (i < n)%nat -> nth i times d = t0 + Z.of_nat i * f).
  { intros i d H. rewrite ET. fold (grid t0 f 0 n). rewrite grid_nth by lia. reflexivity. }
  assert (LT : length times = n) by (rewrite ET, map_length, seq_length; reflexivity).
  assert (DT : py_slice times (Some (Z.of_nat org)) None = grid t0 f org (n - org)).
  { unfold py_slice. rewrite LT, norm_idx_in by lia.
    replace (Z.to_nat (Z.of_nat n - Z.of_nat org)) with (n - org)%nat by lia. rewrite Nat2Z.id.
    change (cut org (n - org) times = grid t0 f org (n - org)). rewrite ET. apply cut_grid. lia. }
  rewrite DT. rewrite (TN 0%nat 0) by lia. rewrite (grid_nth t0 f org (n - org) 0 0) by lia. rewrite Nat.add_0_r.
  assert (FN : last times 0 = t0 + Z.of_nat (n - 1) * f).
  { rewrite ET. fold (grid t0 f 0 n). replace n with (Datatypes.S (n - 1)) at 1 by lia. rewrite grid_last. reflexivity. }
  rewrite FN, LT. cbn [Z.of_nat Z.mul]. rewrite Z.add_0_r.
  destruct (_ <? Z.max (t0 + g_hist g) _); [left; reflexivity|].
  destruct (time2idx_right (grid t0 f org (n - org)) _) as [a|] eqn:TR; [|left; reflexivity].
  unfold time2idx_right in TR. apply first_ge_bound in TR as (A0 & x & NX & XX). rewrite Z.sub_0_r in NX.
  assert (AB : (Z.to_nat a < n - org)%nat).
  { rewrite <- (grid_length t0 f org (n - org)). apply nth_error_Some. congruence. }
  apply nth_error_nth with (d := 0) in NX. rewrite NX. rewrite grid_nth in NX by lia.
  destruct (_ <? g_scan g); [left; reflexivity|].
  rewrite !vec_with, !loop_with.
  match goal with |- context [step_of ?g ?a ?b ?c] => set (step := step_of g a b c) end.
  destruct ((step mod f =? 0) && (g_hist g mod f =? 0) && regular &&
            (2 <=? (Z.of_nat n - (a + Z.of_nat org)) /
                (multi_ts_len (g_hist g) step f - n_hist_win_pts (g_hist g) f))) eqn:C; [|left; reflexivity].
  apply andb_true_iff in C as (C & D2). apply andb_true_iff in C as (C & _). apply andb_true_iff in C as (C1 & C2).
  apply Z.eqb_eq in C1, C2. apply Z.leb_le in D2.
  apply Z.mod_divide in C1; [|lia]. apply Z.mod_divide in C2; [|lia].
  rewrite step_points_exact in * by assumption.
  destruct C1 as (sz & SZ). destruct C2 as (hz & HZ). rewrite SZ in *. rewrite Z.div_mul in * by lia.
  unfold windows_ok in WO. apply andb_true_iff in WO as (WO1 & WO2).
  apply negb_true_iff, orb_false_iff in WO2 as (SC & HC). apply Z.ltb_ge in SC, HC.
  assert (S1 : 1 <= sz).
  { assert (f <= step); [|nia]. unfold step, step_of. destruct (g_step g) as [st|].
    - apply andb_true_iff in WO1 as (_ & W). apply negb_true_iff, Z.ltb_ge in W. exact W.
    - apply Z.min_glb; [|nia]. apply Z.div_le_lower_bound; lia. }
  assert (H2 : 2 <= hz) by nia.
  unfold n_hist_win_pts. replace (ceil_div (g_hist g) f) with hz.
  2:{ unfold ceil_div. rewrite HZ. replace (- (hz * f)) with (- hz * f) by ring. rewrite Z.div_mul; lia. }
  set (p := (org + Z.to_nat a)%nat). set (dim := (Z.of_nat n - (a + Z.of_nat org)) / sz) in *.
  assert (PA : a + Z.of_nat org = Z.of_nat p) by (unfold p; lia).
  assert (DM : dim * sz <= Z.of_nat n - Z.of_nat p < (dim + 1) * sz).
  { unfold dim. rewrite PA. pose proof (Z.div_mod (Z.of_nat n - Z.of_nat p) sz ltac:(lia)).
    pose proof (Z.mod_pos_bound (Z.of_nat n - Z.of_nat p) sz ltac:(lia)). nia. }
  assert (HP : hz <= Z.of_nat p). { fold p in NX. rewrite HZ in XX. nia. }
  assert (DR : date_range x (Z.min (t0 + Z.of_nat (n - 1) * f + f - sz * f) (t0 + Z.of_nat (n - 1) * f)) (sz * f)
    = map (fun k => t0 + Z.of_nat p * f + Z.of_nat k * (Z.of_nat (Z.to_nat sz) * f)) (seq 0 (Z.to_nat dim))).
  { fold p in NX. rewrite Z2Nat.id by lia. rewrite NX. unfold date_range.
    replace (Z.min (t0 + Z.of_nat (n - 1) * f + f - sz * f) (t0 + Z.of_nat (n - 1) * f))
      with (t0 + (Z.of_nat n - sz) * f) by nia.
    destruct (Z.ltb_spec (t0 + (Z.of_nat n - sz) * f) x); [nia|].
    do 3 f_equal. rewrite <- NX.
    replace (t0 + (Z.of_nat n - sz) * f - (t0 + Z.of_nat p * f)) with ((Z.of_nat n - Z.of_nat p + (-1) * sz) * f) by ring.
    rewrite Z.div_mul_cancel_r by lia. rewrite Z.div_add by lia. unfold dim. rewrite PA. ring. }
  rewrite DR, PA.
  destruct (vec_is_loop g std t0 f n times vals smooth p (Z.to_nat hz) (Z.to_nat sz) (Z.to_nat dim) s) as [E|(E & X)];
    try (unfold smooth; rewrite ?smooth_length; first [assumption|lia|nia]).
  - destruct RD as (R1 & R2 & R3). split; [exact R1|]. split; [exact R2|]. intros FI.
    destruct (R3 FI) as (Y1 & Y2 & Y3). split; [exact Y1|]. split; [exact Y2|]. unfold p. nia.
  - left. rewrite !Z2Nat.id in E by lia. rewrite E. rewrite !Z2Nat.id by lia. reflexivity.
  - right. split; [|exact X]. rewrite !Z2Nat.id in E by lia. rewrite E. reflexivity.
Qed.

(** ** The theorems *)

(** On an evenly spaced series the vectorised call returns the scores and leaves the state of
    the call without vectorization. *)
Theorem C275_same : forall g std t0 f n times vals org regular s r,
  evenly t0 f n times -> length vals = n -> (org < n)%nat -> ready s (t0 + Z.of_nat org * f) ->
  fit_predict (with_vec true g) std f regular times vals (Z.of_nat org) s = Some r ->
  fit_predict (with_vec false g) std f regular times vals (Z.of_nat org) s = Some r.
Proof.
  intros g std t0 f n times vals org regular s r EV LV ORG RD H.
  destruct (call_same g std t0 f n times vals org regular s EV LV ORG RD) as [E|(E & _)]; congruence.
Qed.
(** Without a magnitude test both calls also raise an exception together. *)
Theorem C275_raises : forall g std t0 f n times vals org regular s,
  evenly t0 f n times -> length vals = n -> (org < n)%nat -> ready s (t0 + Z.of_nat org * f) ->
  g_magnitude g = None -> understood (det_dirs g) ->
  fit_predict (with_vec true g) std f regular times vals (Z.of_nat org) s
  = fit_predict (with_vec false g) std f regular times vals (Z.of_nat org) s.
Proof.
  intros g std t0 f n times vals org regular s EV LV ORG RD NM U.
  destruct (call_same g std t0 f n times vals org regular s EV LV ORG RD) as [E|(_ & E)]; [exact E|].
  destruct E; auto.
Qed.

(** ** The state after a call *)
Lemma fit_scan_ready g std s times vals s' t : ready s t -> (forall x, In x times -> x < t) ->
  fit_scan g std s times vals = Some s' -> ready s' t.
Proof.
  intros RD B H. unfold fit_scan in H. destruct (scan_index g times) as [i|]; [|discriminate].
  assert (IV := ready_inv _ _ RD). destruct RD as (R1 & R2 & R3).
  destruct (alert_fired s) eqn:FI; cbn [negb andb] in H.
  - destruct (fit_step (watched g) (g_std_ratio g) (g_adapted g) s (seen std vals i (secs (last times 0)) []) IV)
      as (s2 & E & (I1 & I2 & I3) & _ & ON). rewrite E in H. injection H as <-.
    destruct (ON FI) as (CP & _ & _). destruct (R3 eq_refl) as (_ & _ & R).
    split; [exact I1|]. split; [exact I3|]. intros F2. destruct (I2 F2) as (A & C). rewrite CP. rewrite CP in A. auto.
  - assert (OFF : forall fs s2, fit (watched g) (g_std_ratio g) (g_adapted g) s
        (seen std vals i (secs (last times 0)) fs) = Some s2 ->
        (forall f, In f fs -> f_time f * second < t) -> ready s2 t).
    { intros fs s2 E FT.
      destruct (fit_step (watched g) (g_std_ratio g) (g_adapted g) s (seen std vals i (secs (last times 0)) fs) IV)
        as (s3 & E3 & (I1 & I2 & I3) & ON & _). rewrite E in E3. injection E3 as <-.
      split; [exact I1|]. split; [exact I3|]. intros F2. destruct (I2 F2) as (A & C).
      split; [exact C|]. split; [exact A|]. destruct (ON FI) as (YES & NO). cbn [seen s_enough s_found] in YES, NO.
      destruct (1 <? _); [|rewrite NO in F2 by auto; congruence].
      destruct fs as [|f fs]; [rewrite NO in F2 by auto; congruence|].
      destruct YES as (f' & IN & _ & _ & CP & _); [split; [reflexivity|discriminate]|].
      destruct (push_cp_spec (cps s) (f_time f') R1) as (PS & _ & _ & PL). rewrite CP, <- PS, PL. apply FT; exact IN. }
    destruct (1 <? Z.of_nat (length vals) - i).
    + destruct (detector _ _ times vals) as [l|] eqn:DT; [|discriminate]. apply OFF in H; [exact H|].
      destruct (first_of l) as [r|] eqn:FO; [|intros f []]. intros f [<-|[]]. cbn [found_of f_time].
      apply first_of_in in FO. apply (detector_times _ _ _ _ _ DT) in FO. specialize (B _ FO).
      pose proof (Z.mul_div_le (m_time (snd r)) second ltac:(reflexivity)). unfold secs. lia.
    + apply OFF in H; [exact H|intros f []].
Qed.
Lemma slice_incl {A} (l : list A) a b : incl (py_slice l a b) l.
Proof.
  intros x I. unfold py_slice in I.
  match type of I with In _ (firstn ?k (skipn ?m _)) => rewrite <- (firstn_skipn m l); apply in_or_app; right;
    rewrite <- (firstn_skipn k (skipn m l)); apply in_or_app; left end. exact I.
Qed.
Lemma one_step_ready g std times vals smooth hs he se s s' v t : ready s t -> (forall x, In x times -> x < t) ->
  one_step g std times vals smooth hs he se s = Some (s', v) -> ready s' t.
Proof.
  intros RD B H. unfold one_step in H.
  destruct (fit_scan g std s _ _) as [s1|] eqn:E; [|discriminate].
  destruct (predict _ _ _ _); [|discriminate]. injection H as <- <-.
  eapply fit_scan_ready; [exact RD| |exact E].
  intros x I. apply in_app_or in I as [I|I]; apply slice_incl in I; auto.
Qed.
Lemma loop_ready g std times vals smooth step starts t : (forall x, In x times -> x < t) ->
  forall s s' v, ready s t -> loop_path g std times vals smooth step starts s = Some (s', v) -> ready s' t.
Proof.
  intros B. induction starts as [|u r IH]; intros s s' v RD H; cbn [loop_path] in H.
  - injection H as <- <-. exact RD.
  - destruct (time2idx_right times (u - g_hist g)) as [hs|]; [|discriminate].
    destruct (time2idx_right times u) as [he|]; [|discriminate].
    destruct (time2idx_left times (u + step)) as [se|]; [|discriminate].
    destruct (se + 1 <=? he); [eapply IH; eauto|].
    destruct (one_step g std times vals smooth hs he (se + 1) s) as [(s1, v1)|] eqn:O; [|discriminate].
    destruct (loop_path g std times vals smooth step r s1) as [(s2, v2)|] eqn:L; [|discriminate].
    cbn in H. injection H as <- <-. eapply IH; [|exact L]. eapply one_step_ready; eauto.
Qed.
(** The state a call leaves is ready for later data, so calls on consecutive data can be
    compared one after the other; a new model is ready for everything. *)
Theorem C275_next : forall g std t0 f n times vals org regular s s' v t,
  evenly t0 f n times -> length vals = n -> (org < n)%nat -> ready s (t0 + Z.of_nat org * f) ->
  fit_predict g std f regular times vals (Z.of_nat org) s = Some (s', v) ->
  (forall x, In x times -> x < t) -> ready s' t.
Proof.
  intros g std t0 f n times vals org regular s s' v t EV LV ORG RD H B.
  assert (H' : fit_predict (with_vec false g) std f regular times vals (Z.of_nat org) s = Some (s', v)).
  { destruct g as [a b c d e f' h i j [|] l]; [|exact H].
    apply (C275_same (MkConfig a b c d e f' h i j true l) std t0 f n) in H; assumption. }
  clear H. assert (R2 : ready s t).
  { destruct RD as (R1 & R2 & R3). split; [exact R1|]. split; [exact R2|]. intros FI. destruct (R3 FI) as (A & C & D).
    split; [exact A|]. split; [exact C|]. assert (t0 + Z.of_nat org * f < t); [|lia]. apply B.
    destruct EV as (-> & _). apply (grid_in t0 f 0 n). exists org. split; [lia|reflexivity]. }
  unfold fit_predict in H'. destruct (negb (windows_ok _ _)); [discriminate|]. cbv zeta in H'.
  assert (WH : forall (o : option (list value)), option_map (pair s) o = Some (s', v) -> ready s' t).
  { intros [o|] E; [|discriminate]. injection E as <- <-. exact R2. }
  destruct (_ <? Z.max _ _); [eapply WH; exact H'|].
  destruct (time2idx_right (py_slice times (Some (Z.of_nat org)) None) _) as [a|]; [|discriminate].
  destruct (_ <? g_scan _); [eapply WH; exact H'|].
  change (g_vectorized (with_vec false g)) with false in H'. cbn [andb] in H'.
  destruct (loop_path _ _ _ _ _ _ _ _) as [(s1, v1)|] eqn:L; [|discriminate].
  apply (loop_ready _ _ _ _ _ _ _ t B _ _ _ R2) in L. unfold rest_path in H'.
  destruct (0 <? _).
  - destruct (time2idx_left _ _); [|discriminate].
    destruct (one_step _ _ _ _ _ _ _ _ _) as [(s2, v2)|] eqn:O; [|discriminate]. injection H' as <- <-.
    eapply one_step_ready; [exact L|exact B|exact O].
  - injection H' as <- <-. exact L.
Qed.
Theorem C275_new : forall t, ready init t.
Proof. intros t. split; [cbn; lia|]. split; [reflexivity|discriminate]. Qed.

Definition flat (l : list Q) : option Q := match l with [] => None | _ => Some 1%Q end.
Definition demo_config : config :=
  MkConfig (1 / 100) 1 None (13 # 10) None 2000000000 2000000000 (Some 1000000000) false true Change.
Definition demo_times : list Z := map (fun i => 1000000000 + Z.of_nat i * 1000000000) (seq 0 6).
Definition alert_at (t : Z) : state :=
  {| cps := [t]; alert_fired := true; pre_mean := Some 1%Q; pre_std := Some 1%Q; number_of_normal_scan := 0;
     alert_direction := Some Increase |}.
Lemma demo_evenly : evenly 1000000000 1000000000 6 demo_times.
Proof. split; [reflexivity|]. repeat split; try lia; exists 1; reflexivity. Qed.
(** an alert of an earlier call goes on; the leading rows are history or have no score *)
Example C275_case : exists v,
  ready (alert_at 0) (1000000000 + Z.of_nat 1 * 1000000000) /\
  fit_predict (with_vec true demo_config) flat 1000000000 true demo_times [5; 5; 5; 5; 5; 7]%Q (Z.of_nat 1) (alert_at 0)
  = Some (alert_at 0, v) /\
  v = [V 0; V ((10 # 2) - 1); V ((10 # 2) - 1); V ((10 # 2) - 1); V ((12 # 2) - 1)] /\
  Forall (fun x => match x with V q => (0 <= q)%Q | _ => False end) v.
Proof.
  assert (R : ready (alert_at 0) (1000000000 + Z.of_nat 1 * 1000000000)).
  { split; [cbn; lia|]. split; [reflexivity|]. intros _. split; [discriminate|]. split; [discriminate|]. cbn. lia. }
  eexists. split; [exact R|]. split.
  - rewrite (C275_raises demo_config flat 1000000000 1000000000 6);
      [vm_compute; reflexivity|exact demo_evenly|reflexivity|lia|exact R|reflexivity|left; left; reflexivity].
  - split; [vm_compute; reflexivity|]. repeat constructor; vm_compute; discriminate.
Qed.

(** Without the condition on the state the paths differ: a model with an alert is called again
    with data that include times before its change point. The vectorised call returns scores,
    the call without vectorization raises an exception. *)
Theorem C275_reused_refuted : exists g std t0 f n times vals s r,
  evenly t0 f n times /\ length vals = n /\ inv s /\
  fit_predict (with_vec true g) std f true times vals 0 s = Some r /\
  fit_predict (with_vec false g) std f true times vals 0 s = None.
Proof.
  set (vals := [5; 5; 5; 5; 5; 7]%Q).
  set (cols := [[5; 5; 5]; [5; 5; 5]; [5; 5; 5]; [5; 5; 7]]%Q).
  set (ct := [1000000000; 2000000000; 3000000000]).
  set (A := det_args demo_config (0, 3)).
  assert (VC : valid_call A ct cols).
  { split; [|cbn; lia]. intros ts [<-|[<-|[<-|[<-|[]]]]]; reflexivity. }
  assert (U : understood (det_dirs demo_config)) by (left; left; reflexivity).
  assert (OK : exists a b c d, vec_detector A (det_dirs demo_config) ct cols = Some [a; b; c; d]).
  { destruct (vec_detector A (det_dirs demo_config) ct cols) as [out|] eqn:VD.
    - destruct (C272_columns _ _ _ _ _ VC VD) as (LO & _). change (length out = 4%nat) in LO.
      destruct out as [|a [|b [|c [|d [|]]]]]; try discriminate LO. exists a, b, c, d. reflexivity.
    - apply (C272_raises _ _ _ _ VC U) in VD as (ts & I & N). destruct VC as (LEN & L3 & W).
      destruct (C270_returns A (det_dirs demo_config) ct ts) as (o & O).
      + rewrite (LEN ts I). reflexivity.
      + rewrite (LEN ts I). exact L3.
      + cbn. lia.
      + rewrite (LEN ts I). exact W.
      + reflexivity.
      + exact U.
      + congruence. }
  destruct OK as (a & b & c & d & OK).
  assert (VF : vec_found demo_config ct cols = Some [first_of a; first_of b; first_of c; first_of d]).
  { unfold vec_found. change (scan_index demo_config ct) with (Some 0).
    change (Z.of_nat (length ct)) with 3. change (1 <? 3 - 0) with true. cbv iota. fold A. rewrite OK. reflexivity. }
  assert (VP : vec_path demo_config flat demo_times vals (smooth_of demo_config 1000000000 vals) 1000000000 2 2 1 4 (alert_at 5)
     = Some (alert_at 5, [V ((10 # 2) - 1); V ((10 # 2) - 1); V ((10 # 2) - 1); V ((12 # 2) - 1)])).
  { unfold vec_path. cbv zeta.
    match goal with |- context [vec_found demo_config ?x ?y] => change x with ct; change y with cols end.
    rewrite VF. vm_compute. reflexivity. }
  exists demo_config, flat, 1000000000, 1000000000, 6%nat, demo_times, vals, (alert_at 5),
    (alert_at 5, [V 0; V 0; V ((10 # 2) - 1); V ((10 # 2) - 1); V ((10 # 2) - 1); V ((12 # 2) - 1)]).
  split; [exact demo_evenly|]. split; [reflexivity|]. split.
  { split; [cbn; lia|]. split; [|reflexivity]. intros _. split; discriminate. }
  split; [|vm_compute; reflexivity].
  unfold fit_predict. change (negb (windows_ok (with_vec true demo_config) 1000000000)) with false. cbv zeta iota.
  match goal with |- (if ?x then _ else _) = _ => change x with false end. cbv iota.
  match goal with |- match ?x with _ => _ end = _ => change x with (Some 2) end. cbv iota.
  match goal with |- (if ?x then _ else _) = _ => change x with false end. cbv iota.
  match goal with |- match (if ?x then _ else _) with _ => _ end = _ => change x with true end. cbv iota.
  match goal with |- match ?x with _ => _ end = _ =>
    change x with (vec_path demo_config flat demo_times vals (smooth_of demo_config 1000000000 vals) 1000000000 2 2 1 4 (alert_at 5)) end.
  rewrite VP. vm_compute. reflexivity.
Qed.

Print Assumptions C275_same.
Print Assumptions C275_raises.
Print Assumptions C275_next.
Print Assumptions C275_new.
Print Assumptions C275_reused_refuted.
