(** C43 (boundary), C118, C119, C122, C124: what the scan leaves out and what is reported. *)
From Verif Require Import Common TrendModel TrendSpec TrendProofs TrendProps.
From Coq Require Import String Sorted Permutation.
Open Scope Z_scope.

Section Reports.
Variables (init : list Q -> Q) (tail crit : Q -> Q).

Lemma one_complete data c y : f_cols data = [(c, map Some y)] -> f_cols (dropna data) = [(c, y)].
Proof. intros HC. apply dropna_complete. unfold complete_columns. rewrite HC. cbn [filter map snd fst]. rewrite all_some_forallb, (proj2 (all_some_map _ y) eq_refl). reflexivity. Qed.
Lemma one_length (data : frame (option Q)) c (y : list Q) : regular data -> f_cols data = [(c, map Some y)] -> List.length y = List.length (f_times data).
Proof. intros [_ R] HC. rewrite <- (R (c, map Some y)) by (rewrite HC; left; reflexivity). cbn. rewrite map_length. reflexivity. Qed.
(** The exact condition under which the scan of a complete univariate series raises. *)
Theorem C43_raises : forall threshold alpha w s data c y,
  regular data -> (1 <= w)%nat -> f_cols data = [(c, map Some y)] ->
  (statistics init tail crit false threshold alpha w None s data = None <->
   (List.length y < w)%nat \/ (List.length y <= lost s)%nat \/ (w = 1 /\ lost s + 1 < List.length y)%nat).
Proof.
  intros threshold alpha w s data c y R Hw HC. pose proof (one_complete _ _ _ HC) as CC. pose proof (one_length _ _ _ R HC) as LY.
  unfold statistics. cbv zeta. change (f_times (dropna data)) with (f_times data). rewrite <- LY.
  destruct (List.length y <? w)%nat eqn:E; [apply Nat.ltb_lt in E; split; auto|apply Nat.ltb_ge in E].
  destruct (smoothing init (deseason s (dropna data))) as [sm|] eqn:ES.
  - destruct (smoothing_ok _ _ _ _ (dropna_regular _ R) ES) as (RS & SC & ST & _). rewrite CC in SC, ST. cbn [map fst snd] in SC. destruct (ST ltac:(discriminate)) as [ST1 _]. change (f_times (dropna data)) with (f_times data) in ST1.
    assert (NL : ~ (List.length y <= lost s)%nat).
    { intros C. assert (D : smoothing init (deseason s (dropna data)) = None) by (apply smoothing_none; rewrite CC; split; [discriminate|]; cbn; rewrite <- LY; exact C). congruence. }
    assert (LT : List.length (f_times sm) = (List.length y - lost s)%nat) by (rewrite ST1, skipn_length, LY; reflexivity).
    assert (RUN : forall k, (w <= k < List.length (f_times sm))%nat -> run_detector tail crit false threshold w (upto (nth k (f_times sm) 0) sm) = None <-> w = 1%nat).
    { intros k Hk. rewrite upto_ok by (auto; lia). unfold run_detector. cbn [f_times f_cols]. destruct (rev_firstn (f_times sm) k 0 ltac:(lia)) as (r & ->). rewrite SC. cbn [map fst].
      assert (LC : List.length (cleaned_col init s y) = (List.length y - lost s)%nat) by apply cleaned_length.
      assert (LW : List.length (last_rows w (snd (c, firstn (S k) (snd (c, cleaned_col init s y))))) = w).
      { change (snd (c, cleaned_col init s y)) with (cleaned_col init s y). change (snd (c, firstn (S k) (cleaned_col init s y))) with (firstn (S k) (cleaned_col init s y)).
        unfold last_rows. replace (w =? 0)%nat with false by (symmetry; apply Nat.eqb_neq; lia). rewrite skipn_length, firstn_length. lia. }
      unfold original_test. rewrite LW. destruct (w <? 2)%nat eqn:W; [apply Nat.ltb_lt in W|apply Nat.ltb_ge in W]; cbn [option_map]; split; try discriminate; try lia; reflexivity. }
    rewrite mapM_none'. split.
    + intros (t & I & N). right. right. apply (In_nth _ _ 0) in I as (k & Hk & <-). rewrite skipn_length in Hk. rewrite nth_skipn' in N. apply RUN in N; lia.
    + intros [C|[C|[-> C]]]; [lia|contradiction|]. exists (nth 1 (f_times sm) 0). split.
      * replace (nth 1 (f_times sm) 0) with (nth 0 (skipn 1 (f_times sm)) 0) by (rewrite nth_skipn'; reflexivity). apply nth_In. rewrite skipn_length. lia.
      * apply RUN; [lia|reflexivity].
  - apply smoothing_none in ES. cbn in ES. rewrite <- LY in ES. split; [intros _; right; left; apply ES|reflexivity].
Qed.
(** The window made of the first [w] (cleaned) points is full, but its end is never tested: the
    earliest point at which a trend can be reported is the one after it. *)
Lemma strict_nth_error l i j t : StronglySorted Z.lt l -> nth_error l i = Some t -> nth_error l j = Some t -> i = j.
Proof.
  intros S A B. destruct (nth_error_nth'' _ _ _ 0 A) as [Li Ei]. destruct (nth_error_nth'' _ _ _ 0 B) as [Lj Ej].
  destruct (Nat.lt_trichotomy i j) as [L|[E|L]]; [|exact E|]; [pose proof (strict_nth l i j 0 S (conj L Lj))|pose proof (strict_nth l j i 0 S (conj L Li))]; lia.
Qed.
Theorem C43_first_refuted : forall threshold alpha w s data st c y t,
  regular data -> (1 <= w)%nat -> f_cols data = [(c, map Some y)] ->
  statistics init tail crit false threshold alpha w None s data = Some st ->
  nth_error (f_times data) (lost s + (w - 1)) = Some t ->
  forall row, In row st -> s_ds row <> t.
Proof.
  intros threshold alpha w s data st c y t R Hw HC H Ht row I E. apply In_nth_error in I as (i & I).
  destruct (C43_univariate init tail crit _ _ _ _ _ _ _ _ R Hw HC H) as (sm & _ & _ & A). destruct (A i row I) as (B & _). rewrite E in B.
  pose proof (strict_nth_error _ _ _ _ (proj1 R) Ht B). lia.
Qed.
(** A series of exactly [w] points passes the length check; a univariate one is reported to have no
    trend without any test, a multivariate one makes the detector raise. *)
Theorem C43_short_refuted : forall multi threshold alpha w d data,
  regular data -> List.length (f_times data) = w -> (1 <= w)%nat ->
  detector init tail crit multi threshold alpha w None d None data = if multi then None else Some [].
Proof.
  intros multi threshold alpha w d data R L Hw. unfold detector, statistics. cbv zeta. change (f_times (dropna data)) with (f_times data). rewrite L, Nat.ltb_irrefl.
  destruct (smoothing init (deseason None (dropna data))) as [sm|] eqn:ES.
  - destruct (smoothing_ok _ _ _ _ (dropna_regular _ R) ES) as (_ & _ & A & B). assert (N : skipn w (f_times sm) = []).
    { destruct (f_cols (dropna data)) as [|c cs]; [rewrite B by reflexivity; apply skipn_nil|]. destruct (A ltac:(discriminate)) as [-> _]. cbn. rewrite <- L. apply skipn_all. }
    rewrite N. destruct multi; reflexivity.
  - apply smoothing_none in ES as [_ C]. cbn in C. lia.
Qed.

(** ** C118: the significance level *)
(** the detector's significance level has no effect *)
Theorem C118_level_refuted : forall multi threshold alpha alpha' w tr d s data,
  detector init tail crit multi threshold alpha w tr d s data = detector init tail crit multi threshold alpha' w tr d s data.
Proof. reflexivity. Qed.

(** ** C119: what is reported *)
Lemma tested_tau threshold xs k : tested tail crit (5 # 100) threshold xs k -> (0 <= threshold)%Q ->
  (k_trend k = Increasing -> threshold < k_tau k)%Q /\ (k_trend k = Decreasing -> k_tau k < - threshold)%Q.
Proof.
  intros (T & z & _ & _ & _ & TI & TD) H0.
  assert (B : Z.abs (2 * sumz kendall xs) <= sumz choose2 xs).
  { rewrite !sumz_zsum. clear. induction xs as [|x xs IH]; [reflexivity|]. cbn [map zsum]. pose proof (kendall_bound x). lia. }
  split; intros E.
  - apply TI in E as (S & _ & A). assert (P : (0 < inject_Z (sumz choose2 xs))%Q) by (apply zlt0; lia). assert (P' : (0 < inject_Z (sumz kendall xs))%Q) by (apply zlt0; lia).
    assert (0 < k_tau k)%Q by nra. rewrite Qabs_pos in A by lra. exact A.
  - apply TD in E as (S & _ & A). assert (P : (0 < inject_Z (sumz choose2 xs))%Q) by (apply zlt0; lia). assert (P' : (0 < - inject_Z (sumz kendall xs))%Q) by (rewrite <- inject_Z_opp; apply zlt0; lia).
    assert (k_tau k < 0)%Q by nra. rewrite Qabs_neg in A by lra. lra.
Qed.
Lemma row_tested multi threshold w f row : run_detector tail crit multi threshold w f = Some row -> f_cols f <> [] -> exists xs, tested tail crit (5 # 100) threshold xs (s_all row).
Proof.
  intros H N. destruct multi.
  - destruct (run_multi _ _ _ _ _ _ H) as (_ & _ & T & _). eauto.
  - destruct (run_uni _ _ _ _ _ _ H) as (c & _ & _ & _ & T). eauto.
Qed.
Lemma stat_rows multi threshold alpha w tr s data st row : regular data -> statistics init tail crit multi threshold alpha w tr s data = Some st -> In row st ->
  exists f, run_detector tail crit multi threshold w f = Some row /\ f_cols f <> [].
Proof.
  intros R H I. unfold statistics in H. cbv zeta in H. destruct tr as [d|].
  - destruct (d <? w)%nat; [discriminate|]. destruct (List.length (f_times (dropna data)) <? d)%nat; [discriminate|]. destruct (rev (f_times (dropna data))) as [|last r]; [discriminate|].
    destruct (smoothing init (deseason s (between (last - Z.of_nat d * day) last (dropna data)))) as [sm|] eqn:ES; [|discriminate].
    destruct (run_detector tail crit multi threshold w sm) as [row'|] eqn:E; [|discriminate]. cbn in H. injection H as <-. destruct I as [<-|[]]. exists sm. split; [exact E|].
    intros C. unfold run_detector in E. rewrite C in E. unfold smoothing in ES. destruct (f_cols (deseason s (between (last - Z.of_nat d * day) last (dropna data)))) as [|c cs].
    + injection ES as <-. discriminate.
    + destruct (f_times (deseason s (between (last - Z.of_nat d * day) last (dropna data)))); [discriminate|]. injection ES as <-. discriminate.
  - destruct (List.length (f_times (dropna data)) <? w)%nat; [discriminate|]. destruct (smoothing init (deseason s (dropna data))) as [sm|] eqn:ES; [|discriminate].
    apply mapM_spec in H. apply In_nth_error in I as (i & I). destruct (forall2_nth _ _ _ _ _ H I) as (t & Et & Er). exists (upto t sm). split; [exact Er|].
    destruct (smoothing_ok _ _ _ _ (dropna_regular _ R) ES) as (_ & SC & _ & B). intros C. unfold upto in C. cbn [f_cols] in C. apply map_eq_nil in C. rewrite SC in C. apply map_eq_nil in C.
    rewrite (B C), skipn_nil in Et. destruct i; discriminate.
Qed.
(** The change points are, in order, the tested times with a trend in the requested direction; their
    confidence is one minus the p-value, and their Tau exceeds the threshold in that direction. *)
Theorem C119_reported : forall multi threshold alpha w tr d s data st res,
  regular data -> (0 <= threshold)%Q ->
  statistics init tail crit multi threshold alpha w tr s data = Some st ->
  detector init tail crit multi threshold alpha w tr d s data = Some res ->
  (exists rows, rows = filter (fun r => match k_trend (s_all r), d with
                                        | Increasing, Up | Increasing, Both | Decreasing, Down | Decreasing, Both => true
                                        | _, _ => false end) st /\
     Forall2 (fun r cp => c_time cp = s_ds r /\ (c_confidence cp == 1 - k_p (s_all r))%Q /\ c_trend cp = k_trend (s_all r) /\ c_tau cp = k_tau (s_all r)) rows res) /\
  forall cp, In cp res ->
    (c_trend cp = Increasing /\ d <> Down /\ (threshold < c_tau cp)%Q) \/ (c_trend cp = Decreasing /\ d <> Up /\ (c_tau cp < - threshold)%Q).
Proof.
  intros multi threshold alpha w tr d s data st res R H0 HS HD. unfold detector in HD. rewrite HS in HD. destruct (multi && match st with [] => true | _ => false end); [discriminate|]. injection HD as <-. split.
  - eexists. split; [reflexivity|]. rewrite (filter_ext (fun r => wanted d (k_trend (s_all r))) (fun r => match k_trend (s_all r), d with Increasing, Up | Increasing, Both | Decreasing, Down | Decreasing, Both => true | _, _ => false end)) by (intros r; destruct (k_trend (s_all r)), d; reflexivity).
    generalize (filter (fun r => match k_trend (s_all r), d with Increasing, Up | Increasing, Both | Decreasing, Down | Decreasing, Both => true | _, _ => false end) st).
    induction l as [|r l IH]; constructor; [|exact IH]. cbn. repeat split; reflexivity.
  - intros cp I. apply in_map_iff in I as (r & <- & I). apply filter_In in I as [I W]. cbn [c_trend c_tau].
    destruct (stat_rows _ _ _ _ _ _ _ _ _ R HS I) as (f & RD & N). destruct (row_tested _ _ _ _ _ RD N) as (xs & T). destruct (tested_tau _ _ _ T H0) as [A B].
    unfold wanted in W. destruct d, (k_trend (s_all r)); try discriminate; [left|right|left|right]; repeat split; try discriminate; auto.
Qed.
End Reports.

(** a consistent pair of tail and critical value, and a rising series of 13 points scanned with a
    window of 12: with the level 0.01 requested it is reported at confidence below 0.96 *)
Definition toy_tail (z : Q) : Q := (1 / (1 + z))%Q.
Definition toy_crit (a : Q) : Q := (1 / a - 1)%Q.
Definition rising : frame (option Q) :=
  Frame (map Z.of_nat (seq 0 13)) [("value"%string, map (fun i => Some (inject_Z (Z.of_nat i))) (seq 0 13))].
Definition first_value (l : list Q) : Q := hd 0%Q l.
Theorem C118_reported_refuted :
  (forall a z, 0 < a -> 0 <= z -> (toy_tail z < a <-> toy_crit a < z))%Q /\
  exists cp, detector first_value toy_tail toy_crit false (8 # 10) (1 # 100) 12 None Both None rising = Some [cp] /\
    c_time cp = 12 /\ (c_confidence cp < 96 # 100)%Q /\ (c_tau cp == 1)%Q.
Proof.
  split.
  - intros a z Ha Hz. unfold toy_tail, toy_crit. split; intros H.
    + assert (1 < a * (1 + z))%Q by (apply (Qmult_lt_r _ _ (1 + z)%Q) in H; [|lra]; rewrite (Qmult_comm (1 / (1 + z))), Qmult_div_r in H by lra; exact H).
      assert (E : (1 / a < 1 + z)%Q) by (apply Qlt_shift_div_r; [exact Ha|lra]). lra.
    + assert (E : (1 / a < 1 + z)%Q) by lra. apply Qlt_shift_div_r; [lra|]. apply (Qmult_lt_r _ _ a Ha) in E. rewrite (Qmult_comm (1 / a)), Qmult_div_r in E by lra. lra.
  - eexists. split; [vm_compute; reflexivity|]. repeat split.
Qed.

Print Assumptions C43_raises.
Print Assumptions C43_first_refuted.
Print Assumptions C43_short_refuted.
Print Assumptions C118_level_refuted.
Print Assumptions C119_reported.
Print Assumptions C118_reported_refuted.
