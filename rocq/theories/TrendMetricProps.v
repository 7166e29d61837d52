(** C123 and C124: ranking the metrics of a multivariate series, and which metrics are tested. *)
From Coq Require Import List ZArith QArith Lia Lqa Bool Qabs Permutation Sorted String.
From Verif Require Import Common TrendModel TrendSpec TrendProofs TrendProps TrendScanProps TrendAnchorProps.
Import ListNotations.
Open Scope list_scope.
Open Scope Z_scope.

(** one metric comes before another: smaller Tau for "down", larger for "up", larger magnitude for "both" *)
Definition before (d : direction) (a b : string * mk) : Prop :=
  match d with
  | Down => k_tau (snd a) <= k_tau (snd b)
  | Up => k_tau (snd b) <= k_tau (snd a)
  | Both => Qabs (k_tau (snd b)) <= Qabs (k_tau (snd a))
  end%Q.
Lemma rank_before d a b : (rank d (snd a) <= rank d (snd b))%Q -> before d a b.
Proof. destruct d; cbn; intros; lra. Qed.
Lemma insert_perm {A} (f : A -> Q) x l : Permutation (x :: l) (insert_by f x l).
Proof.
  induction l as [|y l IH]; [reflexivity|]. cbn. destruct (Qle_bool (f x) (f y)); [reflexivity|]. rewrite perm_swap. constructor. exact IH.
Qed.
Lemma sort_perm {A} (f : A -> Q) l : Permutation l (sort_by f l).
Proof. induction l as [|x l IH]; [constructor|]. cbn. rewrite <- insert_perm. constructor. exact IH. Qed.
Lemma insert_sorted {A} (f : A -> Q) x l : StronglySorted (fun a b => f a <= f b)%Q l -> StronglySorted (fun a b => f a <= f b)%Q (insert_by f x l).
Proof.
  induction 1 as [|y l H IH F]; cbn; [repeat constructor|]. destruct (Qle_bool (f x) (f y)) eqn:E.
  - apply Qle_bool_iff in E. constructor; [constructor; assumption|]. constructor; [exact E|]. rewrite Forall_forall in *. intros z Hz. specialize (F z Hz). lra.
  - constructor; [exact IH|]. assert (E' : (f y <= f x)%Q) by (apply Qnot_lt_le; intros C; assert (Qle_bool (f x) (f y) = true) by (apply Qle_bool_iff; lra); congruence).
    rewrite Forall_forall in *. intros z Hz. apply (Permutation_in _ (Permutation_sym (insert_perm f x l))) in Hz. destruct Hz as [<-|Hz]; [exact E'|apply F, Hz].
Qed.
Lemma sort_sorted {A} (f : A -> Q) l : StronglySorted (fun a b => f a <= f b)%Q (sort_by f l).
Proof. induction l as [|x l IH]; [constructor|]. cbn. apply insert_sorted, IH. Qed.
Lemma sorted_imp {A} (R S : A -> A -> Prop) l : (forall a b, R a b -> S a b) -> StronglySorted R l -> StronglySorted S l.
Proof. intros H. induction 1 as [|x l _ IH F]; constructor; [exact IH|]. rewrite Forall_forall in *. intros y Hy. apply H, F, Hy. Qed.
Lemma filter_one {A} (f : A -> Z) (l : list A) x : NoDup (map f l) -> In x l -> filter (fun r => f r =? f x) l = [x].
Proof.
  induction l as [|y l IH]; [intros _ []|]. cbn. intros N I. inversion N as [|? ? NI N']; subst. destruct (f y =? f x) eqn:E.
  - apply Z.eqb_eq in E. assert (y = x) by (destruct I as [I|I]; [exact I|exfalso; apply NI; rewrite E; apply in_map, I]). subst y. f_equal.
    clear - NI. induction l as [|z l IHl]; [reflexivity|]. cbn in *. replace (f z =? f x) with false by (symmetry; apply Z.eqb_neq; intros C; apply NI; left; exact C). apply IHl. intros C. apply NI. right. exact C.
  - destruct I as [<-|I]; [rewrite Z.eqb_refl in E; discriminate|]. apply IH; assumption.
Qed.
Lemma top_ok d training last tp st row : NoDup (map s_ds st) -> In row st -> s_ds row = match training with Some _ => last | None => tp end ->
  Permutation (s_metrics row) (top_metrics d training last tp None st) /\ StronglySorted (before d) (top_metrics d training last tp None st) /\
  forall k, top_metrics d training last tp (Some k) st = firstn k (top_metrics d training last tp None st).
Proof.
  intros N I E. unfold top_metrics. cbv zeta. rewrite <- E, (filter_one s_ds _ _ N I). cbn [flat_map]. rewrite app_nil_r. split; [apply sort_perm|]. split; [|reflexivity].
  apply (sorted_imp (fun a b => rank d (snd a) <= rank d (snd b))%Q); [intros a b; apply rank_before|apply (sort_sorted (fun m => rank d (snd m)))].
Qed.
Section Metrics.
Variable init : list Q -> Q.
Variable tail crit : Q -> Q.

Lemma strict_nodup (l : list Z) : StronglySorted Z.lt l -> NoDup l.
Proof. induction 1 as [|x l _ IH F]; constructor; [|exact IH]. rewrite Forall_forall in F. intros C. apply F in C. lia. Qed.
(** C123: at any tested time, all metrics tested there are listed, strongest first, and [top_k] of them are
    the first [k]. *)
Theorem C123_top : forall threshold alpha w s data st cs d last i row,
  regular data -> (1 <= w)%nat -> complete_columns data cs -> cs <> [] ->
  statistics init tail crit true threshold alpha w None s data = Some st -> nth_error st i = Some row ->
  exists ranked, Permutation (s_metrics row) ranked /\ StronglySorted (before d) ranked /\ map fst (s_metrics row) = map fst cs /\
    top_metrics d None last (s_ds row) None st = ranked /\
    forall k, top_metrics d None last (s_ds row) (Some k) st = firstn k ranked.
Proof.
  intros threshold alpha w s data st cs d last i row R Hw HC NC H Hi. destruct (C43_multivariate _ _ _ _ _ _ _ _ _ _ R Hw HC NC H) as (sms & _ & L & A).
  assert (N : NoDup (map s_ds st)).
  { replace (map s_ds st) with (skipn (lost s + w) (f_times data)).
    - assert (ND : NoDup (f_times data)) by (apply strict_nodup, R). rewrite <- (firstn_skipn (lost s + w) (f_times data)) in ND. revert ND. generalize (firstn (lost s + w) (f_times data)). clear. intros l. induction l as [|x l IH]; [auto|]. cbn. intros N. inversion N; subst. apply IH. assumption.
    - apply (nth_ext _ _ 0 0); [rewrite skipn_length, map_length; lia|]. intros j Hj. rewrite skipn_length in Hj. rewrite nth_skipn'.
      destruct (nth_error st j) as [rj|] eqn:Ej; [|apply nth_error_None in Ej; lia]. destruct (A j rj Ej) as (B & _). rewrite (nth_error_nth _ _ _ B). symmetry.
      apply nth_error_nth. rewrite nth_error_map, Ej. reflexivity. }
  pose proof (nth_error_In _ _ Hi) as I. destruct (top_ok d None last (s_ds row) st row N I eq_refl) as (P & S & K). destruct (A i row Hi) as (_ & _ & M & _). eauto 8.
Qed.
(** in the anchor mode the time asked for does not matter: the metrics of the anchor date are listed *)
Theorem C123_anchor : forall threshold alpha w n s data st d last r tp,
  rev (f_times data) = last :: r -> StronglySorted Z.lt (f_times data) -> (forall c, In c (f_cols data) -> List.length (snd c) = List.length (f_times data)) ->
  statistics init tail crit true threshold alpha w (Some n) s data = Some st ->
  exists row ranked, st = [row] /\ s_ds row = last /\ Permutation (s_metrics row) ranked /\ StronglySorted (before d) ranked /\
    top_metrics d (Some n) last tp None st = ranked /\
    forall k, top_metrics d (Some n) last tp (Some k) st = firstn k ranked.
Proof.
  intros threshold alpha w n s data st d last r tp ER SS RC H. unfold statistics in H. cbv zeta in H. change (f_times (dropna data)) with (f_times data) in H. rewrite ER in H.
  destruct (n <? w)%nat; [discriminate|]. destruct (List.length (f_times data) <? n)%nat; [discriminate|].
  set (a := last - Z.of_nat n * day) in *. destruct (smoothing init (deseason s (between a last (dropna data)))) as [sm|] eqn:ES; [|discriminate].
  destruct (run_detector tail crit true threshold w sm) as [row|] eqn:RD; [|discriminate]. cbn in H. injection H as <-.
  assert (DS : s_ds row = last).
  { unfold smoothing in ES. destruct (f_cols (deseason s (between a last (dropna data)))) as [|c cs]; [injection ES as <-; discriminate RD|].
    destruct (f_times (deseason s (between a last (dropna data)))) as [|t ts] eqn:ET; [discriminate|]. injection ES as <-.
    assert (RR : exists q, rev (t :: ts) = s_ds row :: q).
    { unfold run_detector in RD. cbn [f_times f_cols] in RD. destruct (rev (t :: ts)) as [|z q]; [discriminate|]. exists q. f_equal.
      cbn [map] in RD. destruct (map _ cs) as [|c' cs'] in RD; [discriminate|]. destruct (multivariate_test _ _ _) in RD; [|discriminate]. destruct (mapM _ _) in RD; [|discriminate]. injection RD as <-. reflexivity. }
    destruct RR as (q & RR). rewrite <- ET in RR.
    assert (BT : f_times (between a last (dropna data)) = skipn (List.length (filter (fun t => t <? a) (f_times data))) (f_times data)).
    { unfold between. cbn [f_times]. change (f_times (dropna data)) with (f_times data). apply keep_suffix; auto. apply (last_max _ _ r); assumption. }
    destruct s as [s|]; cbn [deseason f_times] in RR; rewrite BT, ?skipn_add in RR; symmetry; exact (last_skipn _ _ _ _ _ _ ER RR). }
  assert (N : NoDup (map s_ds [row])) by (cbn; repeat constructor; intros []).
  destruct (top_ok d (Some n) last tp [row] row N (or_introl eq_refl) DS) as (P & S & K). exists row. eauto 8.
Qed.

(** C124: a metric with a missing value is dropped without a word. *)
Lemma no_columns data : complete_columns data [] -> dropna data = Frame (f_times data) [].
Proof. intros H. apply dropna_complete in H. unfold dropna in *. cbn [f_cols] in H. rewrite H. reflexivity. Qed.
Lemma univariate_missing data c y : f_cols data = [(c, y)] -> In None y -> complete_columns data [].
Proof.
  intros HC I. unfold complete_columns. rewrite HC. cbn [map filter snd]. replace (forallb _ y) with false; [reflexivity|]. symmetry. apply not_true_is_false. intros C. rewrite forallb_forall in C. specialize (C _ I). discriminate.
Qed.
(** a univariate series with one missing value never shows a trend: no test is made, and in the anchor mode
    the detector raises *)
Theorem C124_univariate_refuted : forall threshold alpha w d s data c y,
  f_cols data = [(c, y)] -> In None y -> (w <= List.length (f_times data))%nat ->
  detector init tail crit false threshold alpha w None d s data = Some [] /\
  forall n, detector init tail crit false threshold alpha w (Some n) d s data = None.
Proof.
  intros threshold alpha w d s data c y HC I L. pose proof (no_columns _ (univariate_missing _ _ _ HC I)) as D. unfold detector, statistics. cbv zeta. rewrite D. cbn [f_times]. apply Nat.ltb_ge in L. rewrite L. split.
  - destruct s; destruct w; reflexivity.
  - intros n. destruct (n <? w)%nat; [reflexivity|]. destruct (List.length (f_times data) <? n)%nat; [reflexivity|]. destruct (rev (f_times data)) as [|last r]; [reflexivity|].
    unfold between. cbn [f_cols map]. destruct s; reflexivity.
Qed.
(** and a multivariate series in which a single metric is complete raises as soon as there is a test to make;
    one in which no metric is complete always raises *)
Theorem C124_multivariate_refuted : forall threshold alpha w d s data cs,
  regular data -> (1 <= w)%nat -> complete_columns data cs ->
  (cs = [] \/ List.length cs = 1%nat /\ (lost s + w < List.length (f_times data))%nat) ->
  detector init tail crit true threshold alpha w None d s data = None.
Proof.
  intros threshold alpha w d s data cs R Hw HC [->|[L1 L]].
  - pose proof (no_columns _ HC) as D. unfold detector, statistics. cbv zeta. rewrite D. cbn [f_times]. destruct (List.length (f_times data) <? w)%nat; [reflexivity|]. destruct s; destruct w; reflexivity.
  - unfold detector. destruct (statistics init tail crit true threshold alpha w None s data) as [st|] eqn:H; [|reflexivity]. exfalso. unfold statistics in H. cbv zeta in H. apply dropna_complete in HC.
    destruct (List.length (f_times (dropna data)) <? w)%nat; [discriminate|]. destruct (smoothing init (deseason s (dropna data))) as [sm|] eqn:ES; [|discriminate].
    destruct (smoothing_ok _ _ _ _ (dropna_regular _ R) ES) as (RS & SC & ST & _). rewrite HC in SC, ST. destruct cs as [|c [|]]; try discriminate. destruct (ST ltac:(discriminate)) as [ST1 _]. change (f_times (dropna data)) with (f_times data) in ST1.
    destruct (scan_rows _ _ _ _ _ _ _ RS Hw H) as [LL A]. rewrite ST1, skipn_length in LL. destruct st as [|row st]; [cbn in LL; lia|]. destruct (A 0%nat row eq_refl) as (_ & _ & B). rewrite SC in B. cbn [map] in B. unfold run_detector in B. cbn [f_times f_cols] in B. destruct (rev _); discriminate.
Qed.
(** what holds: of a multivariate series exactly the metrics without missing values are tested *)
Theorem C124_complete_partial : forall threshold alpha w s data st cs i row name,
  regular data -> (1 <= w)%nat -> complete_columns data cs -> cs <> [] ->
  statistics init tail crit true threshold alpha w None s data = Some st -> nth_error st i = Some row ->
  (In name (map fst (s_metrics row)) <-> exists y, In (name, y) (f_cols data) /\ ~ In None y).
Proof.
  intros threshold alpha w s data st cs i row name R Hw HC NC H Hi. destruct (C43_multivariate _ _ _ _ _ _ _ _ _ _ R Hw HC NC H) as (sms & _ & L & A). destruct (A i row Hi) as (_ & _ & M & _). rewrite M.
  assert (F : map fst cs = map fst (filter (fun c => forallb (fun v => match v with Some _ => true | None => false end) (snd c)) (f_cols data))).
  { unfold complete_columns in HC. rewrite <- HC, map_map. reflexivity. }
  rewrite F, in_map_iff. split.
  - intros ((n & y) & <- & I). apply filter_In in I. destruct I as [I1 I2]. exists y. split; [exact I1|]. intros C. rewrite forallb_forall in I2. specialize (I2 _ C). discriminate.
  - intros (y & I1 & I2). exists (name, y). split; [reflexivity|]. apply filter_In. split; [exact I1|]. apply forallb_forall. intros [v|] Hv; [reflexivity|contradiction].
Qed.
End Metrics.

(** ** Concrete cases *)
Definition two_metrics : frame (option Q) :=
  Frame (map Z.of_nat (seq 0 13))
    [("up"%string, map (fun i => Some (inject_Z (Z.of_nat i))) (seq 0 13)); ("gap"%string, Some 1%Q :: None :: repeat (Some 2%Q) 11);
     ("wave"%string, map (fun i => Some (inject_Z (Z.of_nat (i mod 3)))) (seq 0 13))].
Example C43_case : exists st, statistics first_value toy_tail toy_crit true (8 # 10) (5 # 100) 12 None None two_metrics = Some st /\ List.length st = 1%nat.
Proof. eexists. split; [vm_compute; reflexivity|reflexivity]. Qed.
Example C123_case : exists st, statistics first_value toy_tail toy_crit true (8 # 10) (5 # 100) 12 None None two_metrics = Some st /\
  map fst (top_metrics Up None 0 12 None st) = ["up"%string; "wave"%string] /\ map fst (top_metrics Down None 0 12 (Some 1%nat) st) = ["wave"%string].
Proof. eexists. split; [vm_compute; reflexivity|]. split; vm_compute; reflexivity. Qed.
Example C121_case : regular rising /\ (forall l l' : list Q, firstn 1 l = firstn 1 l' -> first_value l = first_value l') /\
  exists st, statistics first_value toy_tail toy_crit false (8 # 10) (5 # 100) 5 None None rising = Some st /\ List.length st = 8%nat.
Proof.
  split; [|split].
  - split; [cbn; repeat (constructor; [|repeat constructor]); constructor|intros c [<-|[]]; reflexivity].
  - intros [|x l] [|x' l']; cbn; congruence.
  - eexists. split; [vm_compute; reflexivity|reflexivity].
Qed.
Definition weekly : frame (option Q) :=
  Frame (map (fun i => 7 * 86400000000000 * Z.of_nat i) (seq 0 20)) [("value"%string, map (fun i => Some (inject_Z (Z.of_nat i))) (seq 0 20))].
Example C122_case : exists row, statistics first_value toy_tail toy_crit false (8 # 10) (5 # 100) 15 (Some 20%nat) None weekly = Some [row] /\ s_ds row = 7 * 86400000000000 * 19.
Proof. eexists. split; [vm_compute; reflexivity|reflexivity]. Qed.
Example C124_case : complete_columns two_metrics (map (fun c => (fst c, map (fun v => match v with Some v => v | None => 0%Q end) (snd c))) [nth 0 (f_cols two_metrics) (""%string, []); nth 2 (f_cols two_metrics) (""%string, [])]).
Proof. reflexivity. Qed.
Example C119_case : exists cp, detector first_value toy_tail toy_crit false (8 # 10) (5 # 100) 12 None Up None rising = Some [cp] /\
  detector first_value toy_tail toy_crit false (8 # 10) (5 # 100) 12 None Down None rising = Some [].
Proof. eexists. split; vm_compute; reflexivity. Qed.
Example C120_case : exists st, statistics first_value toy_tail toy_crit false (8 # 10) (5 # 100) 12 None None
    (Frame (f_times rising) (map (fun c => (fst c, map (option_map (fun x => (-2) * x + 3)%Q) (snd c))) (f_cols rising))) = Some st /\
  Forall (fun r => (k_tau (s_all r) == -1)%Q) st /\ st <> [].
Proof. eexists. split; [vm_compute; reflexivity|]. split; [repeat constructor|discriminate]. Qed.

Print Assumptions C123_top.
Print Assumptions C123_anchor.
Print Assumptions C124_univariate_refuted.
Print Assumptions C124_multivariate_refuted.
Print Assumptions C124_complete_partial.
