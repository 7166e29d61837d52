(** C320: the expanding window backtest of a global model — specification, proofs and theorems. *)
From Coq Require Import String.
From Verif Require Import Common PySlice BacktestModel BacktestSpec BacktestProofs PartitionProofs CrossModel CrossProps GmBtModel.
From Verif Require GmFillModel GmLossModel GmEnsModel GmEnsProps.
From Coq Require Import List Lia.
Import ListNotations.
Open Scope Z_scope.

(** ** Specification *)
(** the pairs of value and forecast of the fold that is cut at [c]: one for each of the [n] next steps whose value is known *)
Definition compared (data : list trow) (c n : nat) (fcst : list Q) : list (Q * Q) :=
  flat_map (fun t => match snd (nth (c + t) data (0, None)) with Some v => [(v, nth t fcst 0%Q)] | None => [] end) (seq 0 n).
(** [r] compares the forecasts [fcst] with the [n] rows from [c] on, after the known values of the rows before *)
Definition fold_at (data : list trow) (n c : nat) (fcst : list Q) (r : fold_result) : Prop :=
  combine (fr_truth r) (fr_pred r) = compared data c n fcst /\ length (fr_truth r) = length (fr_pred r) /\ fr_truth r <> [] /\
  (forall v, In v (fr_train r) <-> exists i x, (i < c)%nat /\ nth_error data i = Some (x, Some v)) /\ fr_train r <> [].

(** ** Proofs *)
Lemma every_folds (data : list trow) test trs : forall tes, length trs = length tes ->
  (forall i, (i < length trs)%nat -> causal_fold (Z.of_nat (length data)) 0 test (nth i trs (0, 0)) (nth i tes (0, 0)) /\ fst (nth i trs (0, 0)) = 0) ->
  every (map (create_ts data) (combine trs tes)) = Some (map (fun p => (firstn (Z.to_nat (snd p)) data, firstn (Z.to_nat test) (skipn (Z.to_nat (snd p)) data))) trs).
Proof.
  induction trs as [|tr trs IH]; intros [|te tes] L H; try discriminate; [reflexivity|]. cbn [combine map every].
  destruct (H 0%nat ltac:(cbn; lia)) as [C Z0]. cbn [nth] in C, Z0. unfold causal_fold in C. destruct C as (C1 & C2 & _ & C4 & C5 & C6).
  assert (E : create_ts data (tr, te) = Some (firstn (Z.to_nat (snd tr)) data, firstn (Z.to_nat test) (skipn (Z.to_nat (snd tr)) data))).
  { unfold create_ts. cbn [fst snd].
    assert (B : forall q, 0 <= fst q < snd q -> snd q <= Z.of_nat (length data) -> (fst q <? 0) || (Z.of_nat (length data) <? fst q) || (snd q <? 0) || (Z.of_nat (length data) <? snd q) || (snd q <=? fst q) = false).
    { intros q Q1 Q2. rewrite !orb_false_iff, !Z.ltb_ge, Z.leb_gt. lia. }
    rewrite (B tr), (B te) by lia. cbn [orb]. rewrite !py_slice_in by lia. rewrite Z0, Z.sub_0_r. cbn [Z.to_nat skipn]. replace (snd te - fst te) with test by lia. replace (fst te) with (snd tr) by lia. reflexivity. }
  rewrite E, (IH tes). { reflexivity. } { cbn in L. lia. } intros i I. apply (H (S i)). cbn. lia.
Qed.
Lemma percent_unique n p a b : is_percent_of n p a -> is_percent_of n p b -> a = b.
Proof.
  assert (G : forall a b, is_percent_of n p a -> is_percent_of n p b -> a <= b).
  { clear a b. intros a b (A & _) (_ & B). pose proof (Qle_lt_trans _ _ _ A B) as H. assert (X : (inject_Z a < inject_Z (b + 1))%Q) by (apply Qmult_lt_r in H; [exact H | reflexivity]). rewrite <- Zlt_Qlt in X. lia. }
  intros A B. apply Z.le_antisymm; apply G; assumption.
Qed.
(** the known values of a prefix *)
Lemma known_prefix (data : list trow) c v : In (Some v) (map snd (firstn c data)) <-> exists i x, (i < c)%nat /\ nth_error data i = Some (x, Some v).
Proof.
  rewrite in_map_iff. split.
  - intros ([x w] & E & I). cbn in E. subst w. apply In_nth_error in I as [i N]. assert (i < length (firstn c data))%nat as L by (apply nth_error_Some; congruence). rewrite firstn_length in L.
    exists i, x. split; [lia|]. rewrite <- N. clear - L. revert c L. induction data as [|d data IH] in i |- *; intros [|c] L; cbn in *; try lia. destruct i as [|i]; [reflexivity|]. cbn. apply IH. lia.
  - intros (i & x & L & N). exists (x, Some v). split; [reflexivity|]. apply (nth_error_In _ i). rewrite <- N. assert (i < length data)%nat as L' by (apply nth_error_Some; congruence). clear - L L'.
    revert c i L L'. induction data as [|d data IH]; intros [|c] [|i] L L'; cbn in *; try lia; [reflexivity|]. apply IH; lia.
Qed.
Lemma result_fold_at (data : list trow) n c fcst : (c + n <= length data)%nat -> (n <= length fcst)%nat ->
  fold_ok (result (firstn c data, firstn n (skipn c data)) fcst) = true -> fold_at data n c fcst (result (firstn c data, firstn n (skipn c data)) fcst).
Proof.
  intros L F OK. unfold result in *. cbn [fst snd] in *. set (truth := map snd (firstn n (skipn c data))) in *. assert (LT : length truth = n) by (unfold truth; rewrite map_length, firstn_length, skipn_length; lia).
  destruct (GmEnsModel.fold_result (map snd (firstn c data)) truth fcst) as [[a b] k] eqn:E. destruct (GmEnsProps.C225_aligned _ _ _ _ _ _ ltac:(rewrite LT; exact F) E) as (P & LE & TR & _).
  unfold fold_ok in OK. cbn [fr_train fr_truth fr_pred] in *. unfold fold_at. cbn [fr_train fr_truth fr_pred]. split.
  - assert (ZC : forall (x y : list Q), GmLossModel.zip_with pair x y = combine x y) by (induction x as [|q x IH]; intros [|z y]; cbn; try reflexivity; rewrite IH; reflexivity).
    rewrite <- ZC, P, LT. unfold compared. rewrite !flat_map_concat_map. f_equal. apply map_ext_in. intros t T. apply in_seq in T.
    assert (X : nth t truth None = snd (nth (c + t) data (0, None))).
    { unfold truth. change None with (snd (0, @None Q)). rewrite map_nth. f_equal. rewrite <- (firstn_skipn c data) at 2. rewrite app_nth2; rewrite firstn_length_le by lia; [|lia]. replace (c + t - c)%nat with t by lia.
      rewrite <- (firstn_skipn n (skipn c data)) at 2. rewrite app_nth1; [reflexivity|]. rewrite firstn_length, skipn_length. lia. }
    rewrite X. reflexivity.
  - split; [exact LE|]. destruct a as [|a0 a]; [discriminate|]. destruct k as [|k0 k]; [discriminate|]. destruct b as [|b0 b]; [discriminate|]. split; [discriminate|]. split; [|discriminate].
    intros v. rewrite TR. apply known_prefix.
Qed.
Lemma make_spec core names ts found freq s start stop test steps b : make core names ts found freq s start stop test steps = Some b ->
  exists data ms d, b = GB start test steps data ms [] d /\ found = freq /\ GmFillModel.fill_missing ts s freq = Some data /\ data <> [] /\ rolling_ctor start test steps = true /\ prepare core names [] = Some (ms, d).
Proof.
  unfold make. destruct (found =? freq) eqn:E; [|discriminate]. apply Z.eqb_eq in E. cbn [negb]. destruct (GmFillModel.fill_missing ts s freq) as [[|x data]|]; try discriminate. destruct (rolling_ctor start test steps); [|discriminate].
  destruct (prepare core names []) as [[ms d]|]; [|discriminate]. intros H. exists (x :: data), ms, d. repeat (split; [congruence || discriminate|]). reflexivity.
Qed.
Lemma run_spec predict b b' : run predict b = Some b' ->
  exists n_train n_test cuts fcsts, is_percent_of (Z.of_nat (length (g_data b))) (g_start b) (Z.of_nat n_train) /\ is_percent_of (Z.of_nat (length (g_data b))) (g_test b) (Z.of_nat n_test) /\ (0 < n_test)%nat /\
    Z.of_nat (length cuts) = g_steps b /\ nth_error cuts 0 = Some n_train /\ (forall c, In c cuts -> (0 < c)%nat /\ (c + n_test <= length (g_data b))%nat) /\
    predict (map (fun c => firstn c (g_data b)) cuts) n_test = Some fcsts /\ (length cuts <= length fcsts)%nat /\
    let rs := map (fun p => result (firstn (fst p) (g_data b), firstn n_test (skipn (fst p) (g_data b))) (snd p)) (combine cuts fcsts) in
    forallb fold_ok rs = true /\
    b' = GB (g_start b) (g_test b) (g_steps b) (g_data b) (g_methods b) rs (fold_left (score_fold (g_methods b) (total_length rs)) rs (g_errors b)).
Proof.
  unfold run. set (data := g_data b). destruct (rolling_splits _ _ _ _ false) as [[trs tes]|] eqn:SP; [|discriminate]. destruct (rolling_folds _ _ _ _ _ _ _ SP) as (tr & te & P1 & P2 & L1 & L2 & H).
  assert (EV := every_folds data te trs tes ltac:(congruence)). rewrite EV by (intros i I; rewrite L1 in I; destruct (H i I) as (C & Z0 & _); split; assumption). clear EV.
  set (cuts := map (fun p => Z.to_nat (snd p)) trs).
  assert (EC : map (fun p : Z * Z => (firstn (Z.to_nat (snd p)) data, firstn (Z.to_nat te) (skipn (Z.to_nat (snd p)) data))) trs = map (fun c => (firstn c data, firstn (Z.to_nat te) (skipn c data))) cuts) by (unfold cuts; rewrite map_map; reflexivity).
  rewrite EC. destruct cuts as [|c0 cuts'] eqn:CU; [discriminate|]. rewrite <- CU in *.
  assert (NT : (0 < length trs)%nat) by (unfold cuts in CU; destruct trs; [discriminate|cbn; lia]).
  assert (IN : forall c, In c cuts -> (0 < c)%nat /\ (c + Z.to_nat te <= length data)%nat).
  { intros c I. unfold cuts in I. apply in_map_iff in I as (p & <- & I). apply (In_nth _ _ (0, 0)) in I as (i & I & N). rewrite L1 in I. destruct (H i I) as ((C1 & C2 & _ & C4 & C5 & C6) & _). rewrite N in *. lia. }
  destruct (H 0%nat ltac:(lia)) as ((C1 & C2 & _ & C4 & C5 & C6) & Z0 & T0 & _). specialize (T0 eq_refl).
  assert (N0 : nth_error cuts 0 = Some (Z.to_nat tr)).
  { unfold cuts. destruct trs as [|p trs]; [cbn in NT; lia|]. cbn in T0 |- *. rewrite T0. reflexivity. }
  assert (MX : fold_right Nat.max 0%nat (map (fun f : list trow * list trow => length (snd f)) (map (fun c => (firstn c data, firstn (Z.to_nat te) (skipn c data))) cuts)) = Z.to_nat te).
  { rewrite map_map. cbn [snd]. assert (G : forall l, (forall c, In c l -> (0 < c)%nat /\ (c + Z.to_nat te <= length data)%nat) -> l <> [] -> fold_right Nat.max 0%nat (map (fun c => length (firstn (Z.to_nat te) (skipn c data))) l) = Z.to_nat te).
    { induction l as [|c l IH]; intros I NE; [congruence|]. cbn [map fold_right]. assert (X : length (firstn (Z.to_nat te) (skipn c data)) = Z.to_nat te) by (destruct (I c (or_introl eq_refl)); rewrite firstn_length, skipn_length; lia).
      rewrite X. destruct l as [|c' l]; [cbn; lia|]. rewrite IH; [lia | intros z Z'; apply I; right; exact Z' | discriminate]. }
    apply G; [exact IN | rewrite CU; discriminate]. }
  destruct (map (fun c => (firstn c data, firstn (Z.to_nat te) (skipn c data))) cuts) as [|f0 fs] eqn:FS; [rewrite CU in FS; discriminate|]. rewrite <- FS in *. clear FS f0 fs. rewrite MX, map_map. cbn [fst].
  destruct (predict (map (fun c => firstn c data) cuts) (Z.to_nat te)) as [fcsts|] eqn:P; [|discriminate]. rewrite map_length. destruct (length fcsts <? length cuts)%nat eqn:LF; [discriminate|]. apply Nat.ltb_ge in LF.
  assert (RS : map (fun p : list trow * list trow * list Q => result (fst p) (snd p)) (combine (map (fun c => (firstn c data, firstn (Z.to_nat te) (skipn c data))) cuts) fcsts) =
    map (fun p => result (firstn (fst p) data, firstn (Z.to_nat te) (skipn (fst p) data)) (snd p)) (combine cuts fcsts)).
  { clear. generalize cuts as l. intros l. revert fcsts. induction l as [|c l IH]; intros [|f fcsts]; cbn; try reflexivity. rewrite IH. reflexivity. }
  rewrite RS. destruct (forallb fold_ok _) eqn:OK; [|discriminate]. intros E. exists (Z.to_nat tr), (Z.to_nat te), cuts, fcsts. rewrite !Z2Nat.id by lia.
  split; [exact P1|]. split; [exact P2|]. split; [lia|]. split; [unfold cuts; rewrite map_length; lia|]. split; [exact N0|]. split; [exact IN|]. split; [exact P|]. split; [exact LF|]. split; [exact OK | congruence].
Qed.

(** ** Theorems *)
(** C320.  A backtest is accepted exactly if the series has the frequency of the model and a row, the percentages fit and every metric is known. *)
Theorem C320_accepted : forall core names ts found freq s start stop test steps,
  make core names ts found freq s start stop test steps <> None <->
  found = freq /\ (exists data, GmFillModel.fill_missing ts s freq = Some data /\ data <> []) /\
  (0 < start <= 100)%Q /\ (0 < test <= 100)%Q /\ (start + test <= 100)%Q /\ (1 < steps -> ~ (start + test == 100)%Q) /\ 0 <= steps /\
  (forall name, In name names -> core name <> None).
Proof.
  intros core names ts found freq s start stop test steps.
  assert (CV := C292_accepted core names [0%Q] start test steps false false). assert (EQ : make_cv core names [0%Q] start test steps false false <> None <-> rolling_ctor start test steps = true /\ prepare core names [] <> None).
  { unfold make_cv, expanding_window, rolling_origin. unfold rolling_ctor at 1 2. destruct (pct_ok start); cbn [negb andb]; [|split; [congruence | intros [H _]; discriminate]]. destruct (pct_ok test); cbn [negb andb]; [|split; [congruence | intros [H _]; discriminate]].
    cbn [length Nat.eqb]. destruct (steps <? 0) eqn:S0; [apply Z.ltb_lt in S0; split; [congruence|]; intros [H _]; rewrite !andb_true_iff, Z.leb_le in H; lia|].
    destruct (Qle_bool (start + test) 100 && negb (Qeq_bool (start + test) 100 && (1 <? steps)) && (0 <=? steps)) eqn:R; [|split; [congruence | intros [H _]; congruence]].
    destruct (prepare core names []) as [[ms d]|]; [split; [intros _; split; [reflexivity | discriminate] | intros _; discriminate] | split; [intros H; congruence | intros [_ H]; congruence]]. }
  split.
  - intros H. destruct (make core names ts found freq s start stop test steps) as [b|] eqn:E; [|congruence]. apply make_spec in E as (data & ms & d & _ & F & FM & ND & RC & P). split; [exact F|]. split; [exists data; split; assumption|].
    assert (X : make_cv core names [0%Q] start test steps false false <> None) by (apply EQ; split; [exact RC | congruence]). apply CV in X as (A & B & C & D & E' & _ & N). repeat (split; [assumption|]). exact N.
  - intros (F & (data & FM & ND) & A & B & C & D & E' & N). assert (X : make_cv core names [0%Q] start test steps false false <> None) by (apply CV; repeat (split; [assumption|]); split; [discriminate | exact N]). apply EQ in X as [RC P].
    unfold make. rewrite (proj2 (Z.eqb_eq _ _) F), FM. cbn [negb]. destruct data as [|x data]; [congruence|]. rewrite RC. destruct (prepare core names []) as [[ms d]|]; [discriminate | congruence].
Qed.
(** Each fold is forecast from the rows before it, in one call for all folds, and every known value of the rows that follow is compared with the
    forecast for its own step. *)
Theorem C320_folds : forall core names ts found freq s start stop test steps b predict b',
  make core names ts found freq s start stop test steps = Some b -> run predict b = Some b' ->
  (forall l n fcsts f, predict l n = Some fcsts -> In f fcsts -> (n <= length f)%nat) ->
  exists data n_train n_test cuts fcsts, GmFillModel.fill_missing ts s freq = Some data /\
    is_percent_of (Z.of_nat (length data)) start (Z.of_nat n_train) /\ is_percent_of (Z.of_nat (length data)) test (Z.of_nat n_test) /\
    Z.of_nat (length cuts) = steps /\ nth_error cuts 0 = Some n_train /\ (forall c, In c cuts -> (0 < c)%nat /\ (c + n_test <= length data)%nat) /\
    predict (map (fun c => firstn c data) cuts) n_test = Some fcsts /\ length (g_results b') = length cuts /\
    forall i c f r, nth_error cuts i = Some c -> nth_error fcsts i = Some f -> nth_error (g_results b') i = Some r -> fold_at data n_test c f r.
Proof.
  intros core names ts found freq s start stop test steps b predict b' M R FL. apply make_spec in M as (data & ms & d & -> & _ & FM & _). apply run_spec in R as (n_train & n_test & cuts & fcsts & P1 & P2 & _ & L & N0 & IN & P & LF & OK & ->).
  cbn [g_data g_start g_test g_steps g_results] in *. exists data, n_train, n_test, cuts, fcsts. repeat (split; [assumption|]). split; [rewrite map_length, combine_length; lia|].
  intros i c f r Hc Hf Hr. assert (X : nth_error (combine cuts fcsts) i = Some (c, f)).
  { clear - Hc Hf. revert i fcsts Hc Hf. induction cuts as [|x l IH]; intros [|i] [|y k] Hc Hf; cbn in *; try discriminate; [congruence | apply IH; assumption]. }
  rewrite nth_error_map, X in Hr. cbn in Hr. injection Hr as <-. apply result_fold_at.
  - apply IN. apply (nth_error_In _ i). exact Hc.
  - apply (FL _ _ _ _ P). apply (nth_error_In _ i). exact Hf.
  - rewrite forallb_forall in OK. apply OK. apply in_map_iff. exists (c, f). split; [reflexivity|]. apply (nth_error_In _ i). exact X.
Qed.
(** With enough rows, all of them known, every backtest runs if the model forecasts each series as far as asked. *)
Theorem C320_runs : forall core names ts found freq s start stop test steps b predict data,
  make core names ts found freq s start stop test steps = Some b -> GmFillModel.fill_missing ts s freq = Some data -> 1 <= steps ->
  (100 <= inject_Z (Z.of_nat (length data)) * start)%Q -> (100 <= inject_Z (Z.of_nat (length data)) * test)%Q -> (forall r, In r data -> snd r <> None) ->
  (forall l n, exists fcsts, predict l n = Some fcsts /\ length fcsts = length l /\ forall f, In f fcsts -> (n <= length f)%nat) ->
  exists b', run predict b = Some b'.
Proof.
  intros core names ts found freq s start stop test steps b predict data M FM S1 T1 T2 K PR. apply make_spec in M as (data' & ms & d & -> & _ & FM' & _ & RC & _). assert (data' = data) as -> by congruence.
  unfold run. cbn [g_data g_start g_test g_steps g_methods g_errors]. destruct (rolling_succeeds (Z.of_nat (length data)) start test steps false ltac:(lia) RC S1 T1 T2) as ([trs tes] & SP). rewrite SP.
  destruct (rolling_folds _ _ _ _ _ _ _ SP) as (tr & te & _ & _ & L1 & L2 & H). rewrite (every_folds data te trs tes ltac:(congruence)) by (intros i I; rewrite L1 in I; destruct (H i I) as (C & Z0 & _); split; assumption).
  assert (IN : forall p, In p trs -> 0 < snd p /\ 0 < te /\ snd p + te <= Z.of_nat (length data)).
  { intros p I. apply (In_nth _ _ (0, 0)) in I as (i & I & N). rewrite L1 in I. destruct (H i I) as ((C1 & C2 & _ & C4 & C5 & C6) & _). rewrite N in *. lia. }
  set (folds := map _ trs). assert (NE : folds <> []) by (unfold folds; destruct trs; [cbn in L1; lia | discriminate]). destruct folds as [|f0 fs] eqn:FS; [congruence|]. rewrite <- FS in *.
  destruct (PR (map fst folds) (fold_right Nat.max 0%nat (map (fun f => length (snd f)) folds))) as (fcsts & P & LF & FL). rewrite P. rewrite map_length in LF. rewrite LF, Nat.ltb_irrefl.
  destruct (forallb fold_ok _) eqn:OK; [eexists; reflexivity|]. exfalso. apply not_true_iff_false in OK. apply OK. apply forallb_forall. intros r I. apply in_map_iff in I as ([f q] & <- & I). cbn [fst snd].
  pose proof (in_combine_l _ _ _ _ I) as If. pose proof (in_combine_r _ _ _ _ I) as Iq.
  assert (LQ : (length (snd f) <= length q)%nat).
  { apply (Nat.le_trans _ (fold_right Nat.max 0%nat (map (fun f => length (snd f)) folds))); [|apply FL; exact Iq]. clear - If. induction folds as [|g l IH]; [destruct If|]. cbn [map fold_right]. destruct If as [->|If]; [lia | specialize (IH If); lia]. }
  assert (SH : exists a y ya, fst f = a :: ya /\ snd f <> [] /\ y = snd f /\ forall r, In r (fst f) \/ In r (snd f) -> In r data).
  { rewrite FS in If. rewrite <- FS in If. unfold folds in If. apply in_map_iff in If as (p & <- & Ip). destruct (IN p Ip) as (A & B & C). cbn [fst snd].
    destruct (firstn (Z.to_nat (snd p)) data) as [|a ya] eqn:E1; [apply (f_equal (@length _)) in E1; rewrite firstn_length in E1; cbn in E1; lia|].
    exists a, (firstn (Z.to_nat te) (skipn (Z.to_nat (snd p)) data)), ya. split; [reflexivity|]. split; [intros E2; apply (f_equal (@length _)) in E2; rewrite firstn_length, skipn_length in E2; cbn in E2; lia|]. split; [reflexivity|].
    intros r [R|R]; [rewrite <- E1 in R; rewrite <- (firstn_skipn (Z.to_nat (snd p)) data); apply in_or_app; left; exact R|].
    rewrite <- (firstn_skipn (Z.to_nat (snd p)) data). apply in_or_app. right. rewrite <- (firstn_skipn (Z.to_nat te) (skipn (Z.to_nat (snd p)) data)). apply in_or_app. left. exact R. }
  destruct SH as (a & y & ya & E1 & NE2 & _ & SUB). destruct f as [x z]. cbn [fst snd] in *. subst x.
  assert (KN : forall l : list trow, (forall r, In r l -> snd r <> None) -> length (GmEnsModel.known (map snd l)) = length l).
  { clear. induction l as [|[t o] l IH]; intros H; [reflexivity|]. unfold GmEnsModel.known in *. cbn [map flat_map snd]. destruct o as [v|]; [|destruct (H (t, None) (or_introl eq_refl) eq_refl)]. cbn. f_equal. apply IH. intros r I. apply H. right. exact I. }
  unfold fold_ok, result. cbn [fst snd]. destruct (GmEnsModel.fold_result (map snd (a :: ya)) (map snd z) q) as [[u v] w] eqn:E. destruct (GmEnsProps.C225_aligned _ _ _ _ _ _ ltac:(rewrite map_length; exact LQ) E) as (_ & LE & _).
  unfold GmEnsModel.fold_result in E. injection E as Eu Ev _. cbn [fr_train fr_truth fr_pred].
  assert (LU : length u = length (a :: ya)) by (rewrite <- Eu; apply (KN (a :: ya)); intros r R; apply K, SUB; left; exact R). assert (LV : length v = length z) by (rewrite <- Ev; apply KN; intros r R; apply K, SUB; right; exact R).
  destruct u as [|u0 u]; [discriminate|]. destruct z as [|z0 z]; [congruence|]. destruct v as [|v0 v]; [discriminate|]. destruct w as [|w0 w]; [discriminate|]. apply Nat.eqb_eq. symmetry. exact LE.
Qed.
(** After the first run the value of a metric listed once is its mean over the folds, weighted by their numbers of known values. *)
Theorem C320_mean : forall core names ts found freq s start stop test steps b predict b' name F,
  make core names ts found freq s start stop test steps = Some b -> run predict b = Some b' -> NoDup names -> In name names -> core name = Some F ->
  exists v, error_value b' name = Some v /\
    is_weighted_mean v (map (fun r => length (fr_truth r)) (g_results b')) (map (fun r => F (fr_truth r) (fr_pred r)) (g_results b')).
Proof.
  intros core names ts found freq s start stop test steps b predict b' name F M R ND I C. apply make_spec in M as (data & ms & d & -> & _ & _ & _ & _ & PR). apply run_spec in R as (n_train & n_test & cuts & fcsts & _ & _ & _ & L & N0 & _ & _ & LF & OK & ->).
  unfold error_value. cbn [g_data g_start g_test g_steps g_results g_errors g_methods] in *. set (rs := map _ (combine cuts fcsts)) in *.
  assert (NE : rs <> []) by (unfold rs; destruct cuts as [|c cuts]; [discriminate|]; destruct fcsts as [|f fcsts]; [cbn in LF; lia | discriminate]).
  apply prepare_spec in PR as (N & FA & G). destruct (scores_get core ms (total_length rs) rs name F FA C d 0%Q) as (v & GV & E); [rewrite G; destruct (in_dec string_dec name names); [reflexivity | contradiction]|].
  exists v. split; [exact GV|]. rewrite N in E. unfold occurrences in E. rewrite (proj1 (NoDup_count_occ' string_dec names) ND name I) in E. change (inject_Z (Z.of_nat 1)) with 1%Q in E.
  pose proof (wsum_weighted_mean F rs (total_length_pos rs NE OK)) as W. unfold is_weighted_mean in *. rewrite E, Qplus_0_l, Qmult_1_l. exact W.
Qed.
(** A second run replaces the results and adds the errors to those of the first: they double. *)
Theorem C320_again_refuted : forall core names ts found freq s start stop test steps b predict b' b'' name v,
  make core names ts found freq s start stop test steps = Some b -> run predict b = Some b' -> run predict b' = Some b'' -> error_value b' name = Some v ->
  g_results b'' = g_results b' /\ exists w, error_value b'' name = Some w /\ (w == 2 * v)%Q.
Proof.
  intros core names ts found freq s start stop test steps b predict b' b'' name v M R1 R2 V. apply make_spec in M as (data & ms & d & -> & _ & _ & _ & _ & PR).
  assert (SAME : exists rs, forallb fold_ok rs = true /\ b' = GB start test steps data ms rs (fold_left (score_fold ms (total_length rs)) rs d) /\
    b'' = GB start test steps data ms rs (fold_left (score_fold ms (total_length rs)) rs (g_errors b'))).
  { assert (G : forall e e' x x' y y', run predict (GB start test steps data ms e x) = Some y -> run predict (GB start test steps data ms e' x') = Some y' ->
      exists rs, y = GB start test steps data ms rs (fold_left (score_fold ms (total_length rs)) rs x) /\ y' = GB start test steps data ms rs (fold_left (score_fold ms (total_length rs)) rs x')).
    { intros e e' x x' y y'. unfold run. cbn [g_data g_start g_test g_steps g_results g_errors g_methods]. destruct (rolling_splits _ _ _ _ false) as [[trs tes]|]; [|discriminate]. destruct (every _) as [[|f fs]|]; try discriminate.
      destruct (predict _ _) as [fc|]; [|discriminate]. destruct (_ <? _)%nat; [discriminate|]. destruct (forallb fold_ok _); [|discriminate]. intros A B. eexists. split; [injection A as <-; reflexivity | injection B as <-; reflexivity]. }
    destruct (run_spec _ _ _ R1) as (? & ? & ? & ? & _ & _ & _ & _ & _ & _ & _ & _ & OK & EB). cbn [g_data g_start g_test g_steps g_results g_errors g_methods] in *. set (rs := map _ (combine _ _)) in *. exists rs. split; [exact OK|]. split; [exact EB|].
    subst b'. destruct (G _ _ _ _ _ _ R1 R2) as (rs' & A & B). injection A as -> _. exact B. }
  destruct SAME as (rs & OK & -> & ->). split; [reflexivity|]. unfold error_value in *. cbn [g_errors] in *. apply prepare_spec in PR as (N & FA & G). destruct (in_dec string_dec name names) as [I|I].
  - assert (CN : exists F, core name = Some F). { rewrite <- N in I. apply in_map_iff in I as ([k F] & E & I). rewrite Forall_forall in FA. exists F. cbn in E. subst k. exact (FA _ I). } destruct CN as (F & C).
    destruct (scores_get core ms (total_length rs) rs name F FA C d 0%Q) as (v1 & G1 & E1); [rewrite G; destruct (in_dec string_dec name names); [reflexivity | contradiction]|]. assert (v1 = v) as -> by congruence.
    destruct (scores_get core ms (total_length rs) rs name F FA C _ v G1) as (w & G2 & E2). exists w. split; [exact G2|]. rewrite E2. rewrite E1 at 1. rewrite E1. ring.
  - exfalso. rewrite score_unknown in V by (rewrite N; exact I). rewrite G in V. destruct (in_dec string_dec name names); [contradiction | discriminate].
Qed.
(** One fold without a known value makes the whole backtest fail, whatever the other folds hold: here the first one. *)
Theorem C320_hole_refuted : forall core names ts found freq s start stop test steps b predict data n_train n_test,
  make core names ts found freq s start stop test steps = Some b -> GmFillModel.fill_missing ts s freq = Some data ->
  is_percent_of (Z.of_nat (length data)) start (Z.of_nat n_train) -> is_percent_of (Z.of_nat (length data)) test (Z.of_nat n_test) ->
  (forall i x v, (n_train <= i < n_train + n_test)%nat -> nth_error data i <> Some (x, Some v)) -> run predict b = None.
Proof.
  intros core names ts found freq s start stop test steps b predict data n_train n_test M FM P1 P2 H. destruct (run predict b) as [b'|] eqn:R; [exfalso|reflexivity].
  apply make_spec in M as (data' & ms & d & -> & _ & FM' & _). assert (data' = data) as -> by congruence. apply run_spec in R as (a & t & cuts & fcsts & A & T & _ & _ & N0 & IN & _ & LF & OK & _). cbn [g_data g_start g_test g_steps] in *.
  pose proof (percent_unique _ _ _ _ P1 A) as E1. pose proof (percent_unique _ _ _ _ P2 T) as E2. apply Nat2Z.inj in E1. apply Nat2Z.inj in E2. subst a t.
  destruct cuts as [|c cuts]; [discriminate|]. cbn in N0. injection N0 as ->. destruct fcsts as [|f fcsts]; [cbn in LF; lia|]. cbn [combine map forallb fst snd] in OK. apply andb_true_iff in OK as [OK _]. unfold fold_ok, result, GmEnsModel.fold_result in OK. cbn [fst snd fr_train fr_truth fr_pred] in OK.
  assert (K : GmEnsModel.known (map snd (firstn n_test (skipn n_train data))) = []).
  { clear OK. destruct (GmEnsModel.known (map snd (firstn n_test (skipn n_train data)))) as [|v l] eqn:K; [reflexivity|]. exfalso. assert (I : In v (GmEnsModel.known (map snd (firstn n_test (skipn n_train data))))) by (rewrite K; left; reflexivity).
    unfold GmEnsModel.known in I. apply in_flat_map in I as ([w|] & I & J); [|destruct J]. destruct J as [->|[]]. apply in_map_iff in I as ([x w] & E & I). cbn in E. subst w.
    apply In_nth_error in I as [i N]. assert (i < length (firstn n_test (skipn n_train data)))%nat as LI by (apply nth_error_Some; congruence). rewrite firstn_length in LI.
    apply (H (n_train + i)%nat x v); [lia|]. rewrite <- N. destruct (IN n_train (or_introl eq_refl)) as [_ IB]. rewrite <- (firstn_skipn n_train data) at 1. rewrite nth_error_app2; rewrite firstn_length_le by lia; [|lia]. replace (n_train + i - n_train)%nat with i by lia.
    rewrite <- (firstn_skipn n_test (skipn n_train data)) at 1. rewrite nth_error_app1 by (rewrite firstn_length; lia). reflexivity. }
  rewrite K in OK. destruct (GmEnsModel.known (map snd (firstn n_train data))); [discriminate|]. destruct (GmFillModel.keep _ _); discriminate.
Qed.
(** ten rows, one of them missing; the forecast repeats the last value *)
Definition demo_series : list trow := map (fun i => (Z.of_nat i, if Nat.eqb i 6 then None else Some (inject_Z (Z.of_nat i)))) (seq 0 10).
Definition demo_predict (l : list (list trow)) (n : nat) : option (list (list Q)) :=
  Some (map (fun x => repeat (match snd (last x (0, None)) with Some v => v | None => 0%Q end) n) l).
Definition demo_core (name : string) : option metric := if String.eqb name "first" then Some (fun a b => (hd 0 a - hd 0 b)%Q) else None.
Example C320_case :
  (forall l n fcsts f, demo_predict l n = Some fcsts -> In f fcsts -> (n <= length f)%nat) /\
  exists b b', make demo_core ["first"%string] demo_series 1 1 1 50 90 20 2 = Some b /\ run demo_predict b = Some b' /\
    map (fun r => (length (fr_train r), fr_truth r, fr_pred r)) (g_results b') = [(5%nat, [5], [4]); (7%nat, [8; 9], [7; 7])]%Q.
Proof.
  split.
  - intros l n fcsts f H I. injection H as <-. apply in_map_iff in I as (x & <- & _). rewrite repeat_length. lia.
  - eexists _, _. split; [vm_compute; reflexivity|]. split; [vm_compute; reflexivity|]. vm_compute. reflexivity.
Qed.
(** ten rows without a hole *)
Example C320_runs_case : let data := map (fun i => (Z.of_nat i, Some (inject_Z (Z.of_nat i)))) (seq 0 10) in
  (exists b, make demo_core ["first"%string] data 1 1 7 50 90 20 3 = Some b) /\ GmFillModel.fill_missing data 7 1 = Some data /\
  (100 <= inject_Z (Z.of_nat (length data)) * 50)%Q /\ (100 <= inject_Z (Z.of_nat (length data)) * 20)%Q /\ (forall r, In r data -> snd r <> None) /\
  (forall l n, exists fcsts, demo_predict l n = Some fcsts /\ length fcsts = length l /\ forall f, In f fcsts -> (n <= length f)%nat).
Proof.
  cbv zeta. split; [eexists; vm_compute; reflexivity|]. split; [vm_compute; reflexivity|]. split; [vm_compute; discriminate|]. split; [vm_compute; discriminate|]. split; [intros r I; apply in_map_iff in I as (i & <- & _); discriminate|].
  intros l n. eexists. split; [reflexivity|]. split; [apply map_length|]. intros f I. apply in_map_iff in I as (x & <- & _). rewrite repeat_length. lia.
Qed.

Print Assumptions C320_accepted.
Print Assumptions C320_folds.
Print Assumptions C320_mean.
Print Assumptions C320_again_refuted.
Print Assumptions C320_hole_refuted.

Print Assumptions C320_runs.
