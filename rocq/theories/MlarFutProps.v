(** Specification and proofs for MlarFutModel: the features of the time that is forecast, the automatic features, and the matrix of all rows. *)
From Coq Require Import String List Reals Bool Arith ZArith Lia Lra.
From Verif Require Import MlarModel MlarFutModel.
From Verif Require MlarGridModel TsfFourierModel.
Import ListNotations.
Open Scope Z_scope.

(** *** Specification *)
(** The cells are the values of the series at the c times up to t and the c times after it, NaN outside the series. *)
Definition around (start : Z) (values : list cell) (t : Z) (c : nat) (cells : list cell) : Prop :=
  List.length cells = (2 * c)%nat /\
  forall i, (i < 2 * c)%nat -> let u := t - Z.of_nat c + 1 + Z.of_nat i in
    (forall j, u = start + Z.of_nat j -> (j < List.length values)%nat -> nth i cells None = nth j values None) /\
    (u < start \/ start + Z.of_nat (List.length values) <= u -> nth i cells None = None).
(** A frame has a target and a covariate in every row. *)
Definition proper (f : frame) : Prop := List.length (target f) = List.length (future f).

(** *** Lists of times *)
Lemma times_from_length a n : List.length (times_from a n) = n.
Proof. unfold times_from. now rewrite map_length, seq_length. Qed.
Lemma times_from_nth a n i d : (i < n)%nat -> nth i (times_from a n) d = a + Z.of_nat i.
Proof. intros I. unfold times_from. rewrite (nth_indep _ d (a + Z.of_nat 0)) by (now rewrite map_length, seq_length). rewrite (map_nth (fun i => a + Z.of_nat i)), seq_nth by exact I. reflexivity. Qed.
Lemma times_from_in a n t : In t (times_from a n) <-> a <= t < a + Z.of_nat n.
Proof.
  unfold times_from. rewrite in_map_iff. split; [intros (i & <- & I); apply in_seq in I; lia|]. intros H. exists (Z.to_nat (t - a)). split; [lia|]. apply in_seq. lia.
Qed.
Lemma times_from_cons a n : times_from a (S n) = a :: times_from (a + 1) n.
Proof. unfold times_from. cbn [seq map]. rewrite Z.add_0_r. f_equal. rewrite <- seq_shift, map_map. apply map_ext. intros i. lia. Qed.
Lemma times_from_skipn k : forall a n, skipn k (times_from a n) = times_from (a + Z.of_nat k) (n - k).
Proof.
  induction k as [|k IH]; intros a n; [rewrite Z.add_0_r, Nat.sub_0_r; reflexivity|]. destruct n as [|n]; [reflexivity|]. rewrite times_from_cons. cbn [skipn]. rewrite IH.
  replace (S n - S k)%nat with (n - k)%nat by lia. f_equal. lia.
Qed.
Lemma find_times {A} (t : Z) : forall (rows : list A) a, find (fun r => fst r =? t) (combine (times_from a (List.length rows)) rows) =
  if (a <=? t) && (t <? a + Z.of_nat (List.length rows)) then option_map (fun r => (t, r)) (nth_error rows (Z.to_nat (t - a))) else None.
Proof.
  induction rows as [|r rows IH]; intros a.
  - cbn. destruct (Z.leb_spec a t), (Z.ltb_spec t (a + 0)); try reflexivity; lia.
  - cbn [List.length]. rewrite times_from_cons. cbn [combine find fst]. destruct (Z.eqb_spec a t) as [E|E].
    + subst t. rewrite Z.sub_diag. cbn. destruct (Z.leb_spec a a), (Z.ltb_spec a (a + Z.pos (Pos.of_succ_nat (List.length rows)))); try lia. reflexivity.
    + rewrite IH. destruct (Z.leb_spec (a + 1) t), (Z.leb_spec a t), (Z.ltb_spec t (a + 1 + Z.of_nat (List.length rows))), (Z.ltb_spec t (a + Z.of_nat (S (List.length rows)))); cbn [andb]; try lia; try reflexivity.
      replace (Z.to_nat (t - a)) with (S (Z.to_nat (t - (a + 1)))) by lia. reflexivity.
Qed.
Lemma nth_skip {A} (k : nat) : forall (l : list A) i d, nth i (skipn k l) d = nth (k + i) l d.
Proof. induction k as [|k IH]; intros [|x l] i d; cbn; [reflexivity|reflexivity|destruct i; reflexivity|apply IH]. Qed.
Lemma nth_first {A} (n : nat) : forall (l : list A) i d, (i < n)%nat -> nth i (firstn n l) d = nth i l d.
Proof. induction n as [|n IH]; intros [|x l] [|i] d I; cbn; try reflexivity; try lia. apply IH. lia. Qed.
Lemma nth_pad (n i : nat) (l : list cell) : nth i (pad n l) None = nth i l None.
Proof.
  unfold pad. destruct (Nat.lt_ge_cases i (List.length l)) as [I|I]; [now apply app_nth1|]. rewrite app_nth2, (nth_overflow l) by exact I. apply nth_repeat.
Qed.
Lemma all_some_ok {A} : forall l : list (option A), (forall x, In x l -> x <> None) -> exists m, all_some l = Some m /\ l = map Some m.
Proof.
  induction l as [|x l IH]; intros H; [now exists []|]. destruct (IH ltac:(intros y Y; apply H; now right)) as (m & E & E2). destruct x as [x|]; [|exfalso; apply (H None); [now left|reflexivity]].
  cbn. rewrite E. exists (x :: m). split; [reflexivity|]. cbn. now rewrite E2.
Qed.
Lemma all_some_none {A} : forall l : list (option A), In None l -> all_some l = None.
Proof. induction l as [|[x|] l IH]; intros H; [destruct H| |reflexivity]. destruct H as [H|H]; [discriminate|]. cbn. now rewrite (IH H). Qed.
Lemma nth_error_map {A B} (f : A -> B) : forall l k, nth_error (map f l) k = option_map f (nth_error l k).
Proof. induction l as [|x l IH]; intros [|k]; cbn; try reflexivity. apply IH. Qed.

(** *** The table of the future covariate *)
Lemma table_ok c f : (1 <= c)%nat -> (c <= List.length (future f) + 1)%nat -> exists table, future_table c f = Some table /\
  (forall t, first f + Z.of_nat c - 1 <= t <= last_time f -> around (first f) (future f) t c (future_at c table t)) /\
  (forall t, t < first f + Z.of_nat c - 1 \/ last_time f < t -> future_at c table t = repeat None (2 * c)).
Proof.
  intros C1 C2. unfold future_table, embed. destruct (Nat.eqb_spec c 0) as [E|_]; [lia|]. destruct (Nat.ltb_spec (S (List.length (future f))) c) as [E|_]; [lia|].
  set (rows := map _ _). assert (LR : List.length rows = (List.length (future f) + 1 - c)%nat) by (unfold rows; now rewrite map_length, seq_length).
  eexists. split; [reflexivity|]. unfold times. rewrite times_from_skipn. replace (List.length (future f) - (c - 1))%nat with (List.length rows) by lia. unfold future_at, last_time.
  split; intros t T.
  - rewrite find_times. destruct (Z.leb_spec (first f + Z.of_nat (c - 1)) t), (Z.ltb_spec t (first f + Z.of_nat (c - 1) + Z.of_nat (List.length rows))); try lia. cbn [andb].
    set (j := Z.to_nat (t - (first f + Z.of_nat (c - 1)))). assert (J : (j < List.length rows)%nat) by (unfold j; lia). rewrite (nth_error_nth' rows [] J). cbn [option_map snd].
    assert (N : nth j rows [] = pad (c + c) (firstn (c + c) (skipn (j + (c - c)) (future f)))).
    { unfold rows. rewrite (nth_indep _ [] (pad (c + c) (firstn (c + c) (skipn (0 + (c - c)) (future f))))) by exact J. rewrite (map_nth (fun j => pad (c + c) (firstn (c + c) (skipn (j + (c - c)) (future f))))), seq_nth by lia. reflexivity. }
    rewrite N, Nat.sub_diag, Nat.add_0_r. split.
    + unfold pad. rewrite app_length, repeat_length, firstn_length. lia.
    + intros i I u. rewrite nth_pad, nth_first, nth_skip by lia. split.
      * intros k K _. f_equal. unfold u, j in *. lia.
      * intros U. apply nth_overflow. unfold u, j in *. lia.
  - rewrite find_times. destruct (Z.leb_spec (first f + Z.of_nat (c - 1)) t), (Z.ltb_spec t (first f + Z.of_nat (c - 1) + Z.of_nat (List.length rows))); try lia; reflexivity.
Qed.
Lemma table_none c f : (c = 0 \/ List.length (future f) + 1 < c)%nat -> future_table c f = None.
Proof. unfold future_table, embed. intros H. destruct (Nat.eqb_spec c 0) as [E|E]; [reflexivity|]. destruct (Nat.ltb_spec (S (List.length (future f))) c) as [K|K]; [reflexivity|lia]. Qed.
Lemma calendar_known columns known t : In t known -> calendar_at columns known t = map (fun g => Some (g t)) columns.
Proof. intros H. unfold calendar_at. apply map_ext. intros g. replace (existsb (Z.eqb t) known) with true; [reflexivity|]. symmetry. apply existsb_exists. exists t. split; [exact H|apply Z.eqb_refl]. Qed.
Lemma calendar_unknown columns known t : ~ In t known -> calendar_at columns known t = repeat None (List.length columns).
Proof.
  intros H. unfold calendar_at. replace (existsb (Z.eqb t) known) with false; [induction columns; cbn; congruence|]. symmetry. apply Bool.not_true_is_false. intros E. apply existsb_exists in E as (u & U & E).
  apply Z.eqb_eq in E. subst u. now apply H.
Qed.
Lemma extra_ok columns horizons c frames s f t : nth_error frames s = Some f -> (1 <= c)%nat -> (forall g, In g frames -> (c <= List.length (future g) + 1)%nat) ->
  exists cells, extra columns horizons c frames s t = Some (calendar_at columns (stamps horizons frames) t ++ cells) /\
    (first f + Z.of_nat c - 1 <= t <= last_time f -> around (first f) (future f) t c cells) /\
    (t < first f + Z.of_nat c - 1 \/ last_time f < t -> cells = repeat None (2 * c)).
Proof.
  intros N C H. unfold extra. destruct (all_some_ok (map (future_table c) frames)) as (tables & E & E2).
  { intros x X. apply in_map_iff in X as (g & <- & G). destruct (table_ok c g C (H g G)) as (tb & T & _). now rewrite T. }
  rewrite E. destruct (table_ok c f C (H f (nth_error_In _ _ N))) as (tb & T & A & B).
  assert (NT : nth_error tables s = Some tb).
  { assert (Q : nth_error (map Some tables) s = Some (Some tb)) by (rewrite <- E2, nth_error_map, N; cbn; now rewrite T). rewrite nth_error_map in Q. destruct (nth_error tables s); cbn in Q; congruence. }
  rewrite NT. eexists. split; [reflexivity|]. split; [apply A|apply B].
Qed.
Lemma stamps_in horizons frames t : In t (stamps horizons frames) <-> exists f, In f frames /\ (first f <= t <= last_time f \/ exists h, In h horizons /\ t = last_time f + Z.of_nat h).
Proof.
  unfold stamps. rewrite in_flat_map. split.
  - intros (f & F & T). exists f. split; [exact F|]. apply in_app_iff in T as [T|T].
    + left. unfold times in T. apply times_from_in in T. unfold last_time. lia.
    + right. apply in_map_iff in T as (h & <- & H). exists h. now split.
  - intros (f & F & [T|(h & H & T)]); exists f; (split; [exact F|]); apply in_app_iff.
    + left. unfold times. apply times_from_in. unfold last_time in T. lia.
    + right. apply in_map_iff. exists h. now split.
Qed.

(** C309, in training: the row of an origin whose outcome lies in the series has the calendar columns of the time of the
    outcome and the covariate around that time. *)
Theorem C309_training : forall columns horizons c frames s f o h, nth_error frames s = Some f -> (1 <= c)%nat ->
  (forall g, In g frames -> (c <= List.length (future g) + 1)%nat) -> let t := o + Z.of_nat h in first f <= t <= last_time f ->
  exists cells, extra columns horizons c frames s t = Some (map (fun g => Some (g t)) columns ++ cells) /\
    (first f + Z.of_nat c - 1 <= t -> around (first f) (future f) t c cells) /\ (t < first f + Z.of_nat c - 1 -> cells = repeat None (2 * c)).
Proof.
  intros columns horizons c frames s f o h N C H t T. destruct (extra_ok columns horizons c frames s f t N C H) as (cells & E & A & B). exists cells. split; [|split].
  - rewrite E, calendar_known; [reflexivity|]. apply stamps_in. exists f. split; [apply (nth_error_In _ _ N)|now left].
  - intros L. apply A. lia.
  - intros L. apply B. now left.
Qed.

(** *** The window of a forecast *)
Lemma last_valid_lt : forall l k, last_valid l = Some k -> (k < List.length l)%nat.
Proof.
  induction l as [|x l IH]; intros k E; [discriminate|]. cbn in *. destruct (last_valid l) as [j|]; [injection E as <-; pose proof (IH j eq_refl); lia|]. destruct x; [|discriminate]. injection E as <-. lia.
Qed.
Lemma forecast_frame_ok ml f k : proper f -> (1 <= ml)%nat -> last_valid (target f) = Some k -> exists w, forecast_frame ml f = Some w /\
  first w = first f + Z.of_nat k - Z.of_nat ml + 1 /\ last_time w = last_time f /\ List.length (future w) = (ml + (List.length (future f) - 1 - k))%nat /\
  future w = map (at_time (first f) (future f)) (times_from (first w) (List.length (future w))).
Proof.
  intros P M K. unfold forecast_frame. rewrite K. pose proof (last_valid_lt _ _ K) as LK. unfold proper in P. eexists. split; [reflexivity|]. cbn [first future last_time]. unfold last_time. cbn [first future].
  rewrite map_length, times_from_length. split; [lia|]. split; [lia|]. split; [lia|reflexivity].
Qed.
Lemma at_time_in start l j : (j < List.length l)%nat -> at_time start l (start + Z.of_nat j) = nth j l None.
Proof. intros J. unfold at_time. destruct (Z.ltb_spec (start + Z.of_nat j) start); [lia|]. f_equal. lia. Qed.
Lemma at_time_out start l t : t < start \/ start + Z.of_nat (List.length l) <= t -> at_time start l t = None.
Proof. intros T. unfold at_time. destruct (Z.ltb_spec t start); [reflexivity|]. apply nth_overflow. lia. Qed.
Lemma around_window f w t c cells : future w = map (at_time (first f) (future f)) (times_from (first w) (List.length (future w))) ->
  last_time w = last_time f -> first w + Z.of_nat c - 1 <= t -> around (first w) (future w) t c cells -> around (first f) (future f) t c cells.
Proof.
  intros W L T [LC A]. split; [exact LC|]. intros i I u. destruct (A i I) as [A1 A2]. fold u in A1, A2. assert (U : first w <= u) by (unfold u; lia). unfold last_time in L.
  destruct (Z.le_gt_cases (first w + Z.of_nat (List.length (future w))) u) as [O|O].
  - rewrite (A2 (or_intror O)). split; [|reflexivity]. intros j E J. lia.
  - assert (X : nth i cells None = at_time (first f) (future f) u).
    { set (k := Z.to_nat (u - first w)). rewrite (A1 k) by (unfold k; lia). rewrite W at 1. assert (K : (k < List.length (future w))%nat) by (unfold k; lia).
      rewrite (nth_indep _ None (at_time (first f) (future f) 0)) by (rewrite map_length, times_from_length; exact K). rewrite (map_nth (at_time (first f) (future f))), times_from_nth by exact K. f_equal. unfold k. lia. }
    rewrite X. split; [intros j E J; rewrite E; now apply at_time_in|intros Q; now apply at_time_out].
Qed.

(** C309, in a forecast: from the last valid target at the row k of its series, the row for the horizon h is that of the time
    h steps later.  The calendar columns are those of that time if the series has that time, or the target is valid up to
    the end of the series, or the steps from the end are a horizon too.  The covariate is that around that time, if the
    series has that time and the window is long enough. *)
Theorem C309_forecast : forall columns horizons ml c frames s f k h, (1 <= ml)%nat -> (1 <= c)%nat -> nth_error frames s = Some f -> last_valid (target f) = Some k ->
  (forall g, In g frames -> proper g /\ exists j, last_valid (target g) = Some j /\ (c <= ml + (List.length (future g) - 1 - j) + 1)%nat) ->
  let t := first f + Z.of_nat k + Z.of_nat h in
  exists calendar cells, forecast_extra columns horizons ml c frames s h = Some (calendar ++ cells) /\ List.length calendar = List.length columns /\
    (t <= last_time f \/ (exists i, In i horizons /\ t = last_time f + Z.of_nat i) -> calendar = map (fun g => Some (g t)) columns) /\
    (t <= last_time f -> (c <= ml + h)%nat -> around (first f) (future f) t c cells) /\
    ((ml + h < c)%nat \/ last_time f < t -> cells = repeat None (2 * c)).
Proof.
  intros columns horizons ml c frames s f k h M C N K H t. unfold forecast_extra. destruct (all_some_ok (map (forecast_frame ml) frames)) as (ws & E & E2).
  { intros x X. apply in_map_iff in X as (g & <- & G). destruct (H g G) as (P & j & J & _). destruct (forecast_frame_ok ml g j P M J) as (w & W & _). now rewrite W. }
  rewrite E. destruct (H f (nth_error_In _ _ N)) as (P & _). destruct (forecast_frame_ok ml f k P M K) as (w & W & FW & LW & NW & UW).
  assert (NE : nth_error ws s = Some w).
  { assert (Q : nth_error (map Some ws) s = Some (Some w)) by (rewrite <- E2, nth_error_map, N; cbn; now rewrite W). rewrite nth_error_map in Q. destruct (nth_error ws s); cbn in Q; congruence. }
  rewrite NE. assert (ET : first w + Z.of_nat ml - 1 + Z.of_nat h = t) by (unfold t; lia). rewrite ET. clear ET.
  destruct (extra_ok columns horizons c ws s w t NE C) as (cells & X & A & B).
  { intros g G. assert (Q : In (Some g) (map Some ws)) by (apply in_map; exact G). rewrite <- E2 in Q. apply in_map_iff in Q as (g0 & Q & G0). destruct (H g0 G0) as (P0 & j & J & CJ).
    destruct (forecast_frame_ok ml g0 j P0 M J) as (w0 & W0 & _ & _ & N0 & _). rewrite W0 in Q. injection Q as <-. lia. }
  exists (calendar_at columns (stamps horizons ws) t), cells. split; [exact X|]. split; [unfold calendar_at; now rewrite map_length|]. split; [|split].
  - intros T. apply calendar_known, stamps_in. exists w. split; [apply (nth_error_In _ _ NE)|]. rewrite LW. destruct T as [T|T]; [left; unfold t in *; lia|right; exact T].
  - intros T CC. apply (around_window f w t c cells UW LW); [unfold t; lia|]. apply A. rewrite LW. unfold t in *. lia.
  - intros Q. apply B. rewrite LW. destruct Q as [Q|Q]; [left; unfold t; lia|now right].
Qed.
(** Refuted: that the row of a forecast always has the calendar columns of its time: if the target of a series ends before the series does, and the
    horizons are not contiguous, they can be missing. *)
Theorem C309_gap_refuted : forall columns horizons ml c f k h, (1 <= ml)%nat -> (1 <= c)%nat -> proper f -> last_valid (target f) = Some k ->
  (c <= ml + (List.length (future f) - 1 - k) + 1)%nat -> let t := first f + Z.of_nat k + Z.of_nat h in
  last_time f < t -> ~ In (Z.to_nat (t - last_time f)) horizons ->
  forecast_extra columns horizons ml c [f] 0 h = Some (repeat None (List.length columns) ++ repeat None (2 * c)).
Proof.
  intros columns horizons ml c f k h M C P K CC t T NI. unfold forecast_extra. destruct (forecast_frame_ok ml f k P M K) as (w & W & FW & LW & NW & UW). cbn [map all_some]. rewrite W. cbn [nth_error].
  assert (ET : first w + Z.of_nat ml - 1 + Z.of_nat h = t) by (unfold t; lia). rewrite ET. destruct (extra_ok columns horizons c [w] 0 w t eq_refl C) as (cells & X & _ & B).
  { intros g [<-|[]]. lia. }
  rewrite X, B by (right; lia). rewrite calendar_unknown; [reflexivity|]. intros Q. apply stamps_in in Q as (g & [<-|[]] & [Q|(i & I & Q)]); [lia|]. apply NI. rewrite LW in Q. replace (Z.to_nat (t - last_time f)) with i by lia. exact I.
Qed.
(** Refuted: that a forecast can be made whenever the model could be trained: with a covariate window longer than the rows from max_lags on,
    prediction raises although training did not. *)
Theorem C309_predict_refuted : forall columns horizons ml c f k h, (1 <= ml)%nat -> (1 <= c)%nat -> proper f -> last_valid (target f) = Some k ->
  (ml + (List.length (future f) - 1 - k) + 1 < c)%nat -> (c <= List.length (future f) + 1)%nat ->
  forecast_extra columns horizons ml c [f] 0 h = None /\ forall t, extra columns horizons c [f] 0 t <> None.
Proof.
  intros columns horizons ml c f k h M C1 P K CC C2. split.
  - unfold forecast_extra. destruct (forecast_frame_ok ml f k P M K) as (w & W & FW & LW & NW & UW). cbn [map all_some]. rewrite W. cbn [nth_error].
    unfold extra. cbn [map all_some]. rewrite table_none; [reflexivity|]. right. lia.
  - intros t. destruct (extra_ok columns horizons c [f] 0 f t eq_refl C1) as (cells & X & _); [intros g [<-|[]]; exact C2|]. now rewrite X.
Qed.
(** Refuted: that a forecast sees the covariate as training does: with a window longer than max_lags and the horizon together the cells are NaN, although the
    series has all the values, and the training row of the same time has them. *)
Theorem C309_window_refuted : forall columns horizons ml c f k h, (1 <= ml)%nat -> proper f -> last_valid (target f) = Some k -> (ml + h < c)%nat ->
  (c <= ml + (List.length (future f) - 1 - k) + 1)%nat -> let t := first f + Z.of_nat k + Z.of_nat h in first f + Z.of_nat c - 1 <= t <= last_time f ->
  exists cells, extra columns horizons c [f] 0 t = Some (map (fun g => Some (g t)) columns ++ cells) /\ around (first f) (future f) t c cells /\
    forecast_extra columns horizons ml c [f] 0 h = Some (map (fun g => Some (g t)) columns ++ repeat None (2 * c)).
Proof.
  intros columns horizons ml c f k h M P K H CC t T. pose proof (last_valid_lt _ _ K) as LK. unfold proper in P.
  destruct (C309_training columns horizons c [f] 0 f (first f + Z.of_nat k) h eq_refl ltac:(lia)) as (cells & X & A & _); [intros g [<-|[]]; unfold last_time in T; lia|fold t; lia|].
  exists cells. split; [exact X|]. split; [apply A; fold t; lia|].
  destruct (C309_forecast columns horizons ml c [f] 0 f k h M ltac:(lia) eq_refl K) as (cal & cs & F & _ & A1 & _ & A3); [intros g [<-|[]]; split; [exact P|now exists k]|].
  rewrite F, A3, A1; [reflexivity|left; exact (proj2 T)|now left].
Qed.
(** Refuted: that every accepted window works: 0 is accepted by the parameters (ml_ar.py:354-358), and training raises. *)
Theorem C309_zero_refuted : forall columns horizons frames s t, frames <> [] -> extra columns horizons 0 frames s t = None.
Proof. intros columns horizons [|f frames] s t H; [now destruct H|]. reflexivity. Qed.
(** A series of four rows, its last target in row 2, horizons 1 and 3, one lag, covariate window 1: the forecast of horizon 1 has the calendar
    and the covariate at the times 13 and 14, that of horizon 3 has neither. *)
Example C309_case : let f := Frame 10 [Some 1%R; None; Some 2%R; None] [Some 5%R; Some 6%R; Some 7%R; Some 8%R] in
  forecast_extra [IZR] [1; 3]%nat 1 1 [f] 0 1 = Some [Some 13%R; Some 8%R; None] /\ forecast_extra [IZR] [1; 3]%nat 1 1 [f] 0 3 = Some [None; None; None] /\
  extra [IZR] [1; 3]%nat 1 [f] 0 (10 + 2) = Some [Some 12%R; Some 7%R; Some 8%R].
Proof. cbv zeta. repeat split; reflexivity. Qed.

(** *** C310: the automatic features *)
(** The calendar columns for a frequency that is named in the documentation exist, once each, and there is at least one. *)
Theorem C310_calendar : forall f, In f ["Q"; "M"; "W"; "D"; "H"; "min"; "S"]%string ->
  auto_calendar (Some f) <> [] /\ NoDup (auto_calendar (Some f)) /\ incl (auto_calendar (Some f)) calendar_known_names.
Proof.
  intros f H. cbn in H. repeat (destruct H as [<-|H]; [split; [discriminate|split; [cbn; repeat (constructor; [cbn; intuition discriminate|]); constructor|intros x X; cbn in X; cbn; intuition auto]]|]). destruct H.
Qed.
(** The Fourier features of any frequency can be made; those for weeks repeat after 365 days, those for days after a week and after 365 days, those for
    hours after a day, a week and 365 days, those for minutes after an hour, those for seconds after a minute. *)
Definition seasons (f : string) : list Z :=
  (if String.eqb f "W" then [365 * 86400] else if String.eqb f "D" then [7 * 86400; 365 * 86400]
   else if String.eqb f "H" then [86400; 7 * 86400; 365 * 86400] else if String.eqb f "min" then [3600] else if String.eqb f "S" then [60] else [])%string.
Theorem C310_fourier : forall f, exists g, let '(ps, rs, u) := auto_fourier f in
  TsfFourierModel.fourier_init (map IZR ps) (TsfFourierModel.Many rs) (IZR u) = Some g /\ 0 < u /\ Forall (fun p => 0 < p) ps /\ Forall (fun r => (1 <= r)%nat) rs /\
  map (fun p => p * u) ps = match f with Some f => seasons f | None => [] end.
Proof.
  intros f. destruct (auto_fourier f) as [[ps rs] u] eqn:E. eexists.
  assert (X : List.length ps = List.length rs /\ 0 < u /\ Forall (fun p => 0 < p) ps /\ Forall (fun r => (1 <= r)%nat) rs /\ map (fun p => p * u) ps = match f with Some f => seasons f | None => [] end).
  { destruct f as [f|]; cbn in E; [|injection E as <- <- <-; repeat split; constructor]. unfold seasons.
    repeat match type of E with (if ?b then _ else _) = _ => destruct b eqn:?; [injection E as <- <- <-; repeat split; repeat constructor; lia|] end.
    injection E as <- <- <-. repeat split; constructor. }
  destruct X as (L & U & X). split; [|split; [exact U|exact X]]. unfold TsfFourierModel.fourier_init. rewrite map_length, L, Nat.eqb_refl. cbn [negb].
  destruct (Rlt_dec (IZR u) 0) as [K|K]; [apply lt_IZR in K; lia|]. reflexivity.
Qed.
(** Refuted: that a series gets them when its frequency is inferred: weeks are inferred as W-SUN to W-SAT, minutes as T, quarters as Q-DEC or QS-OCT, and these
    names are not known, so that there are no calendar and no Fourier features. *)
Theorem C310_inferred_refuted : forall infer times name, infer times = Some name ->
  (name = "T" \/ (exists d, name = "W-" ++ d) \/ (exists d, name = "Q-" ++ d) \/ (exists d, name = "QS-" ++ d))%string ->
  auto_calendar (MlarGridModel.infer_freq infer times None) = [] /\ auto_fourier (MlarGridModel.infer_freq infer times None) = ([], [], 1).
Proof.
  intros infer times name E H. unfold MlarGridModel.infer_freq. rewrite E. destruct H as [->|[(d & ->)|[(d & ->)|(d & ->)]]]; split; reflexivity.
Qed.
Example C310_case : auto_calendar (MlarGridModel.infer_freq (fun _ => Some "MS"%string) [] None) = ["year"; "quarter"]%string /\
  auto_calendar (MlarGridModel.infer_freq (fun _ => Some "W-SUN"%string) [] None) = [] /\ auto_calendar (Some "W"%string) <> [].
Proof. repeat split. discriminate. Qed.

(** *** C311: the matrix of all rows *)
Lemma put_ok {A} (pre rows rest : list A) n : List.length rows = n -> forall hole, List.length hole = n -> put (pre ++ hole ++ rest) (List.length pre) rows = Some (pre ++ rows ++ rest).
Proof.
  intros N hole L. unfold put. rewrite !app_length. destruct (Nat.ltb_spec (List.length pre + (List.length hole + List.length rest)) (List.length pre + List.length rows)); [lia|].
  f_equal. rewrite firstn_app, Nat.sub_diag, firstn_all. cbn [firstn]. rewrite app_nil_r. f_equal. f_equal.
  rewrite skipn_app. rewrite (skipn_all2 pre) by lia. cbn [app]. replace (List.length pre + List.length rows - List.length pre)%nat with (List.length hole) by lia.
  rewrite skipn_app, skipn_all, Nat.sub_diag. reflexivity.
Qed.
Lemma block_length {T} more nin (nout : T -> list (Z * (nat -> cell))) v h : List.length (nin v) = List.length (nout v) -> List.length (block more nin nout v h) = List.length (nout v).
Proof. intros E. unfold block. rewrite map_length, combine_length. lia. Qed.
Lemma fill_ok {T} more nin (nout : T -> list (Z * (nat -> cell))) : forall todo pre, (forall q, In q todo -> List.length (nin (fst q)) = List.length (nout (fst q))) ->
  fill more nin nout todo (pre ++ nan_rows (fold_right Nat.add 0%nat (map (fun q => List.length (nout (fst q))) todo))) (List.length pre) =
  Some (pre ++ flat_map (fun q => block more nin nout (fst q) (snd q)) todo).
Proof.
  induction todo as [|[v h] todo IH]; intros pre H; [reflexivity|]. cbn [map fold_right fill flat_map fst snd]. unfold nan_rows. rewrite repeat_app.
  assert (LV : List.length (nin v) = List.length (nout v)) by (apply (H (v, h)); now left).
  rewrite (put_ok pre (block more nin nout v h) _ (List.length (nout v))) by (try apply block_length; try apply repeat_length; exact LV).
  rewrite app_assoc. assert (EL : (List.length pre + List.length (nin v))%nat = List.length (pre ++ block more nin nout v h)) by (rewrite app_length, block_length; [lia|exact LV]).
  rewrite EL. fold (nan_rows (fold_right Nat.add 0%nat (map (fun q => List.length (nout (fst q))) todo))). rewrite IH by (intros q Q; apply H; now right). now rewrite app_assoc.
Qed.
Lemma order_total {T} (nout : T -> list (Z * (nat -> cell))) horizons : forall targets,
  fold_right Nat.add 0%nat (map (fun q => List.length (nout (fst q))) (order targets horizons)) =
  (fold_right Nat.add 0 (map (fun v => List.length (nout v)) targets) * List.length horizons)%nat.
Proof.
  induction targets as [|v targets IH]; [reflexivity|]. unfold order in *. cbn [flat_map map fold_right]. rewrite map_app, fold_right_app, IH, map_map. cbn [fst].
  rewrite Nat.mul_add_distr_r.
  assert (Q : forall (hs : list nat) y, fold_right Nat.add y (map (fun _ => List.length (nout v)) hs) = (List.length (nout v) * List.length hs + y)%nat).
  { induction hs as [|h hs IHs]; intros y; cbn; [lia|]. rewrite IHs. lia. }
  rewrite Q. lia.
Qed.
Lemma merge_ok {T} more nin (nout : T -> list (Z * (nat -> cell))) targets horizons : (forall v, In v targets -> List.length (nin v) = List.length (nout v)) ->
  merge more nin nout targets horizons = Some (flat_map (fun q => block more nin nout (fst q) (snd q)) (order targets horizons), flat_map (fun q => metas nout (fst q) (snd q)) (order targets horizons)).
Proof.
  intros H. unfold merge. rewrite <- order_total. pose proof (fill_ok more nin nout (order targets horizons) []) as F. cbn [app List.length] in F. rewrite F; [reflexivity|].
  intros q Q. apply H. unfold order in Q. apply in_flat_map in Q as (v & V & Q). apply in_map_iff in Q as (h & <- & _). exact V.
Qed.
Lemma order_in {T} (targets : list T) horizons v h : In (v, h) (order targets horizons) <-> In v targets /\ In h horizons.
Proof.
  unfold order. rewrite in_flat_map. split; [intros (w & W & Q); apply in_map_iff in Q as (k & E & K); injection E as <- <-; now split|].
  intros [V H]. exists v. split; [exact V|]. apply in_map_iff. now exists h.
Qed.
Lemma flat_combine {A B C} (f : A -> list B) (g : A -> list C) : forall l, (forall x, In x l -> List.length (f x) = List.length (g x)) ->
  combine (flat_map f l) (flat_map g l) = flat_map (fun x => combine (f x) (g x)) l.
Proof.
  induction l as [|x l IH]; intros H; [reflexivity|]. cbn. rewrite <- IH by (intros y Y; apply H; now right). pose proof (H x (or_introl eq_refl)) as L. clear -L. revert L. generalize (g x) as b. 
  induction (f x) as [|u a IHa]; intros [|w b] L; cbn in *; try discriminate; [reflexivity|]. f_equal. apply IHa. lia.
Qed.
(** What a row and its outcome are about: the same target, horizon and origin. *)
Definition belongs {T} (more : Z -> list cell) nin (nout : T -> list (Z * (nat -> cell))) (v : T) (h j : nat) (row : list cell) (m : meta T) : Prop :=
  exists inputs o outs, nth_error (nin v) j = Some inputs /\ nth_error (nout v) j = Some (o, outs) /\
    row = inputs ++ more (o + Z.of_nat h) ++ [Some (INR h)] /\ m = Meta o (o + Z.of_nat h) v (outs h).
(** The matrix of one series has as many rows as there are outcomes; the row and the outcome at the same position are about the same target, horizon
    and origin; and every target, horizon and origin is there. *)
Theorem C311_rows : forall (T : Type) more nin (nout : T -> list (Z * (nat -> cell))) targets horizons, (forall v, In v targets -> List.length (nin v) = List.length (nout v)) ->
  exists mat ms, merge more nin nout targets horizons = Some (mat, ms) /\ List.length mat = List.length ms /\
    List.length ms = (fold_right Nat.add 0 (map (fun v => List.length (nout v)) targets) * List.length horizons)%nat /\
    (forall row m, In (row, m) (combine mat ms) <-> exists v h j, In v targets /\ In h horizons /\ (j < List.length (nout v))%nat /\ belongs more nin nout v h j row m).
Proof.
  intros T more nin nout targets horizons H. rewrite (merge_ok more nin nout targets horizons H). eexists. eexists. split; [reflexivity|].
  assert (HL : forall q, In q (order targets horizons) -> List.length (block more nin nout (fst q) (snd q)) = List.length (metas nout (fst q) (snd q))).
  { intros [v h] Q. apply order_in in Q as [V _]. cbn [fst snd]. rewrite block_length by (now apply H). unfold metas. now rewrite map_length. }
  assert (FL : forall (A B : Type) (f : T * nat -> list A) (g : T * nat -> list B) l, (forall q, In q l -> List.length (f q) = List.length (g q)) -> List.length (flat_map f l) = List.length (flat_map g l)).
  { intros A B f g l. induction l as [|q l IH]; intros Q; [reflexivity|]. cbn. rewrite !app_length, (Q q (or_introl eq_refl)), IH; [reflexivity|]. intros r R. apply Q. now right. }
  split; [now apply FL|]. split.
  - rewrite <- order_total. generalize (order targets horizons). intros l. induction l as [|q l IH]; [reflexivity|]. cbn. rewrite app_length, IH. unfold metas. now rewrite map_length.
  - intros row m. rewrite flat_combine by exact HL. rewrite in_flat_map. unfold belongs. split.
    + intros ([v h] & Q & I). apply order_in in Q as [V Hh]. cbn [fst snd] in I. apply In_nth_error in I as [j J]. exists v, h, j. unfold block, metas in J.
      assert (N : forall A B (a : list A) (b : list B) k x y, nth_error (combine a b) k = Some (x, y) -> nth_error a k = Some x /\ nth_error b k = Some y).
      { induction a as [|x0 a IH]; intros [|y0 b] [|k] x y; cbn; try discriminate; [injection 1 as -> ->; now split|apply IH]. }
      apply N in J as [J1 J2]. rewrite nth_error_map in J1. rewrite nth_error_map in J2. destruct (nth_error (nout v) j) as [[o outs]|] eqn:EO; [|discriminate]. cbn in J2. injection J2 as <-.
      destruct (nth_error (combine (nin v) (nout v)) j) as [[inp oo]|] eqn:EC; [|discriminate]. apply N in EC as [E1 E2]. rewrite EO in E2. injection E2 as <-. cbn in J1. injection J1 as <-.
      split; [exact V|]. split; [exact Hh|]. split; [apply nth_error_Some; now rewrite EO|]. exists inp, o, outs. now repeat split.
    + intros (v & h & j & V & Hh & J & inp & o & outs & E1 & E2 & -> & ->). exists (v, h). split; [now apply order_in|]. cbn [fst snd].
      assert (N : forall A B (a : list A) (b : list B) k x y, nth_error a k = Some x -> nth_error b k = Some y -> nth_error (combine a b) k = Some (x, y)).
      { induction a as [|x0 a IH]; intros [|y0 b] [|k] x y; cbn; try discriminate; [injection 1 as ->; injection 1 as ->; reflexivity|apply IH]. }
      apply (nth_error_In _ j). apply N; unfold block, metas; rewrite nth_error_map; [rewrite (N _ _ _ _ _ _ _ E1 E2)|rewrite E2]; reflexivity.
Qed.
(** The regressor is trained on exactly the rows whose outcome was observed, with that outcome. *)
Theorem C311_training : forall (T : Type) more nin (nout : T -> list (Z * (nat -> cell))) targets horizons mat ms, (forall v, In v targets -> List.length (nin v) = List.length (nout v)) ->
  merge more nin nout targets horizons = Some (mat, ms) ->
  forall row y, In (row, y) (training mat ms) <-> exists v h j m, In v targets /\ In h horizons /\ (j < List.length (nout v))%nat /\ belongs more nin nout v h j row m /\ output m = Some y.
Proof.
  intros T more nin nout targets horizons mat ms H E row y. destruct (C311_rows T more nin nout targets horizons H) as (mat' & ms' & E' & _ & _ & R). rewrite E in E'. injection E' as <- <-.
  unfold training. rewrite in_flat_map. split.
  - intros ([r m] & Q & I). cbn in I. destruct (output m) as [z|] eqn:O; [|destruct I]. destruct I as [I|[]]. injection I as <- <-. apply R in Q as (v & h & j & V & Hh & J & B). exists v, h, j, m. now repeat split.
  - intros (v & h & j & m & V & Hh & J & B & O). exists (row, m). split; [apply R; exists v, h, j; now repeat split|]. cbn. rewrite O. now left.
Qed.
(** For a series with one target these are the training pairs of C191. *)
Theorem C311_pairs : forall other p s series rows more start, embed (transform p (trim series)) (input_window p) (max_horizon p) (max_lags p) = Some rows ->
  (forall o h, other s o h = more (start + Z.of_nat o + Z.of_nat h)) ->
  let nin := fun _ : unit => map (fun r => fst (fst (normal_row p r)) ++ window_stats p (fst (fst (normal_row p r)))) rows in
  let nout := fun _ : unit => map (fun jr => (start + Z.of_nat (fst jr + (max_lags p - 1)), fun h => nth (h - 1) (snd (fst (normal_row p (snd jr)))) None)) (combine (seq 0 (List.length rows)) rows) in
  exists mat ms, merge more nin nout [tt] (horizons p) = Some (mat, ms) /\ pairs other p s series = Some (training mat ms).
Proof.
  intros other p s series rows more start E O nin nout.
  assert (L : forall v, In v [tt] -> List.length (nin v) = List.length (nout v)) by (intros v _; unfold nin, nout; rewrite !map_length, combine_length, seq_length; lia).
  rewrite (merge_ok more nin nout [tt] (horizons p) L). eexists. eexists. split; [reflexivity|]. unfold pairs. rewrite E. apply (f_equal Some). unfold training.
  rewrite flat_combine by (intros [v h] _; cbn [fst snd]; rewrite block_length by (apply L; destruct v; now left); unfold metas; now rewrite map_length).
  unfold order. cbn [flat_map]. rewrite app_nil_r. clear E L. induction (horizons p) as [|h hs IH]; [reflexivity|]. cbn [map flat_map fst snd]. rewrite flat_map_app, <- IH. f_equal. clear IH.
  unfold block, metas, nin, nout. remember 1%nat as one. generalize 0%nat as k. induction rows as [|r rows IH]; intros k; [reflexivity|]. cbn [List.length seq combine map flat_map fst snd].
  rewrite (IH (S k)). apply (f_equal (fun z => z ++ _)). cbn [output snd fst]. clear IH. destruct (normal_row p r) as [[lags outs] n]. cbn [fst snd].
  destruct (nth (h - one) outs None) as [y|] eqn:EY; rewrite ?EY; [|reflexivity]. unfold features. rewrite O, <- app_assoc. reflexivity.
Qed.
(** The columns of the target are 1 at the target and 0 elsewhere. *)
Theorem C311_one_hot : forall n i j, (j < n)%nat -> List.length (one_hot n i) = n /\ (j = i -> nth j (one_hot n i) None = Some 1%R) /\ (j <> i -> nth j (one_hot n i) None = Some 0%R).
Proof.
  intros n i j J. split; [unfold one_hot; now rewrite map_length, seq_length|]. assert (E : nth j (one_hot n i) None = Some (if (j =? i)%nat then 1%R else 0%R)).
  { unfold one_hot. rewrite (nth_indep _ None (Some (if (0 =? i)%nat then 1%R else 0%R))) by (now rewrite map_length, seq_length).
    rewrite (map_nth (fun k => Some (if (k =? i)%nat then 1%R else 0%R))), seq_nth by exact J. reflexivity. }
  rewrite E. split; intros K; destruct (Nat.eqb_spec j i); congruence.
Qed.
(** What predict returns for a series are the rows of that series with its latest origin, whatever the other series are; a series without rows is not there. *)
Lemma fold_max_spec z : forall l, z <= fold_right Z.max z l /\ (forall x, In x l -> x <= fold_right Z.max z l) /\ (fold_right Z.max z l = z \/ In (fold_right Z.max z l) l).
Proof.
  induction l as [|x l (A & B & C)]; cbn; [repeat split; [lia|now intros|now left]|]. repeat split; [lia|intros y [<-|Y]; [lia|specialize (B y Y); lia]|].
  destruct (Z.max_spec x (fold_right Z.max z l)) as [[_ ->]|[_ ->]]; [destruct C as [C|C]; [now left|right; now right]|right; now left].
Qed.
Theorem C311_latest : forall (T : Type) (rows : list (nat * meta T * R)) s,
  match post_process rows s with
  | None => forall m a, ~ In (s, m, a) rows
  | Some out => out <> [] /\ forall x, In x out <-> exists m a, In (s, m, a) rows /\ (forall m' a', In (s, m', a') rows -> origin m' <= origin m) /\ x = (time m, variable m, a)
  end.
Proof.
  intros T rows s. unfold post_process. destruct (filter (fun r => (fst (fst r) =? s)%nat) rows) as [|r g] eqn:F.
  - intros m a I. assert (X : In (s, m, a) (filter (fun r => (fst (fst r) =? s)%nat) rows)) by (apply filter_In; split; [exact I|apply Nat.eqb_refl]). now rewrite F in X.
  - assert (M : forall m a, In (s, m, a) rows <-> In (s, m, a) (r :: g)).
    { intros m a. rewrite <- F, filter_In. cbn. rewrite Nat.eqb_refl. intuition. }
    assert (SG : forall q, In q (r :: g) -> fst (fst q) = s) by (intros q Q; rewrite <- F in Q; apply filter_In in Q as [_ Q]; now apply Nat.eqb_eq).
    set (last := fold_right Z.max _ _). destruct (fold_max_spec (origin (snd (fst r))) (map (fun r => origin (snd (fst r))) g)) as (A & B & C). fold last in A, B, C.
    assert (UP : forall q, In q (r :: g) -> origin (snd (fst q)) <= last). { intros q [<-|Q]; [exact A|]. apply B. apply in_map_iff. now exists q. }
    assert (EX : exists q, In q (r :: g) /\ origin (snd (fst q)) = last). { destruct C as [C|C]; [exists r; split; [now left|congruence]|]. apply in_map_iff in C as (q & E & Q). exists q. split; [now right|exact E]. }
    split.
    + destruct EX as (q & Q & E). intros X. apply map_eq_nil in X. assert (Y : In q (filter (fun r => origin (snd (fst r)) =? last) (r :: g))) by (apply filter_In; split; [exact Q|now apply Z.eqb_eq]). now rewrite X in Y.
    + intros x. rewrite in_map_iff. split.
      * intros ([[s' m] a] & <- & Q). apply filter_In in Q as [Q E]. apply Z.eqb_eq in E. cbn [fst snd] in E. assert (s' = s) by exact (SG _ Q). subst s'. exists m, a. split; [now apply M|]. split; [|reflexivity].
        intros m' a' I. apply M in I. rewrite E. exact (UP _ I).
      * intros (m & a & I & H & ->). exists (s, m, a). split; [reflexivity|]. apply M in I. apply filter_In. split; [exact I|]. apply Z.eqb_eq. cbn [fst snd]. destruct EX as ([[s' m'] a'] & Q & E).
        assert (s' = s) by exact (SG _ Q). subst s'. cbn in E. pose proof (H m' a' (proj2 (M _ _) Q)). pose proof (UP _ I) as U. cbn in U. lia.
Qed.
(** predict returns for every series one row for every target and horizon, at the time the horizon after the series' own last origin, whatever the
    other series are. *)
Theorem C311_result : forall (T : Type) (targets : list T) horizons n (last : nat -> Z) (outs : nat -> T -> nat -> cell) (answer : nat -> T -> nat -> R) s,
  targets <> [] -> horizons <> [] ->
  post_process (flat_map (fun s => map (fun q => (s, Meta (last s) (last s + Z.of_nat (snd q)) (fst q) (outs s (fst q) (snd q)), answer s (fst q) (snd q))) (order targets horizons)) (seq 0 n)) s =
  if (s <? n)%nat then Some (map (fun q => (last s + Z.of_nat (snd q), fst q, answer s (fst q) (snd q))) (order targets horizons)) else None.
Proof.
  intros T targets horizons n last outs answer s NT NH. unfold post_process.
  set (row := fun (s : nat) (q : T * nat) => (s, Meta (last s) (last s + Z.of_nat (snd q)) (fst q) (outs s (fst q) (snd q)), answer s (fst q) (snd q))).
  assert (F : forall k m, filter (fun r => (fst (fst r) =? s)%nat) (flat_map (fun s => map (row s) (order targets horizons)) (seq k m)) = if ((k <=? s) && (s <? k + m))%nat then map (row s) (order targets horizons) else []).
  { intros k m. revert k. induction m as [|m IH]; intros k; cbn [seq flat_map]; [destruct (Nat.leb_spec k s), (Nat.ltb_spec s (k + 0)); try reflexivity; lia|]. rewrite filter_app, IH.
    destruct (Nat.eq_dec k s) as [->|NE].
    - replace (filter _ (map (row s) (order targets horizons))) with (map (row s) (order targets horizons)).
      + destruct (Nat.leb_spec (S s) s), (Nat.leb_spec s s), (Nat.ltb_spec s (s + S m)); try lia. cbn [andb]. apply app_nil_r.
      + clear IH. induction (order targets horizons) as [|q l IHl]; [reflexivity|]. cbn [map filter row fst]. rewrite Nat.eqb_refl, <- IHl. reflexivity.
    - replace (filter _ (map (row k) (order targets horizons))) with (@nil (nat * meta T * R)).
      + cbn [app]. destruct (Nat.leb_spec (S k) s), (Nat.leb_spec k s), (Nat.ltb_spec s (S k + m)), (Nat.ltb_spec s (k + S m)); cbn [andb]; try reflexivity; lia.
      + clear IH. induction (order targets horizons) as [|q l IHl]; [reflexivity|]. cbn [map filter row fst]. destruct (Nat.eqb_spec k s); [lia|]. exact IHl. }
  rewrite F. cbn [Nat.leb Nat.add andb]. destruct (s <? n)%nat; [|reflexivity].
  assert (NE : order targets horizons <> []) by (destruct targets as [|v t]; [now destruct NT|]; destruct horizons as [|h hs]; [now destruct NH|]; discriminate).
  destruct (order targets horizons) as [|q l]; [now destruct NE|]. cbn [map]. f_equal.
  assert (M : fold_right Z.max (last s) (map (fun r : nat * meta T * R => origin (snd (fst r))) (map (row s) l)) = last s).
  { clear. induction l as [|q l IH]; [reflexivity|]. cbn. rewrite IH. apply Z.max_id. }
  change (origin (snd (fst (row s q)))) with (last s). rewrite M. change (row s q :: map (row s) l) with (map (row s) (q :: l)).
  change ((last s + Z.of_nat (snd q), fst q, answer s (fst q) (snd q)) :: map (fun q => (last s + Z.of_nat (snd q), fst q, answer s (fst q) (snd q))) l) with (map (fun q => (last s + Z.of_nat (snd q), fst q, answer s (fst q) (snd q))) (q :: l)).
  clear. induction (q :: l) as [|x k IH]; [reflexivity|]. cbn [map filter row fst snd origin]. rewrite Z.eqb_refl. cbn [map]. rewrite IH. reflexivity.
Qed.
(** Refuted: that each target is forecast from its own last value: a target that ends before another one is forecast from a row where it is missing. *)
Theorem C311_origin_refuted : forall a b ka kb, last_valid a = Some ka -> last_valid b = Some kb -> (ka < kb)%nat -> last_valid_any [a; b] = Some kb /\ nth kb a None = None.
Proof.
  intros a b ka kb A B L. split; [unfold last_valid_any; cbn; rewrite A, B; f_equal; lia|]. clear B. revert ka kb A L. induction a as [|x a IH]; intros ka kb A L; [destruct kb; reflexivity|].
  destruct kb as [|kb]; [lia|]. cbn in A. cbn. destruct (last_valid a) as [j|] eqn:E; [injection A as <-; apply (IH j); [reflexivity|lia]|]. clear -E.
  revert kb. induction a as [|y a IH]; intros kb; [destruct kb; reflexivity|]. cbn in E. destruct (last_valid a); [discriminate|]. destruct y; [discriminate|]. destruct kb; [reflexivity|]. cbn. now apply IH.
Qed.
(** Two targets, horizons 1 and 2, two origins: eight rows; the sixth is the second target's second origin with horizon 1. *)
Example C311_case : let nin := fun v : nat => [[Some (INR v)]; [Some (INR v + 1)%R]] in let nout := fun v : nat => [(4, fun h => Some (INR h)); (5, fun h => if (h =? 1)%nat then Some 9%R else None)] in
  exists mat ms, merge (fun _ => []) nin nout [7; 8]%nat [1; 2]%nat = Some (mat, ms) /\ List.length mat = 8%nat /\ nth 5 mat [] = [Some (INR 8 + 1)%R; Some (INR 1)] /\
    nth_error ms 5 = Some (Meta 5 6 8%nat (Some 9%R)) /\ List.length (training mat ms) = 6%nat.
Proof. cbv zeta. eexists. eexists. split; [reflexivity|]. repeat split. Qed.

Print Assumptions C309_training.
Print Assumptions C309_forecast.
Print Assumptions C309_gap_refuted.
Print Assumptions C309_predict_refuted.
Print Assumptions C309_window_refuted.
Print Assumptions C309_zero_refuted.
Print Assumptions C310_calendar.
Print Assumptions C310_fourier.
Print Assumptions C310_inferred_refuted.
Print Assumptions C311_rows.
Print Assumptions C311_training.
Print Assumptions C311_pairs.
Print Assumptions C311_one_hot.
Print Assumptions C311_result.
Print Assumptions C311_origin_refuted.

Print Assumptions C311_latest.
