(** C32-C34, C80-C84: forecast metrics. *)
From Verif Require Import Common BacktestModel MetricsModel MetricsSpec MetricsProofs.
From Coq Require Import Lqa Lia String.
Open Scope nat_scope.

(** *** C32 *)
(** the metrics are the named means over the complete pairs *)
Theorem C32_means : forall yt yp, List.length yt = List.length yp ->
  (exists r, mae yt yp = Some r /\ is_mean r (map (fun p => Qabs (fst p - snd p)) (present yt yp)))
  /\ (exists r, mse yt yp = Some r
        /\ is_mean r (map (fun p => (fst p - snd p) * (fst p - snd p))%Q (present yt yp)))
  /\ (exists r, me yt yp = Some r /\ is_mean r (map (fun p => fst p - snd p)%Q (present yt yp)))
  /\ (exists r, scaled_smape yt yp = Some r
        /\ is_mean r (map (fun p => sym_rel (Qabs (fst p - snd p)) (fst p) (snd p)) (present yt yp)))
  /\ (exists r, pinball_loss yt yp (1 # 2) = Some r
        /\ is_mean r (map (fun p => qmax ((fst p - snd p) * (1 # 2)) ((fst p - snd p) * ((1 # 2) - 1))) (present yt yp))).
Proof.
  intros yt yp L. unfold mae, mse, me, error, scaled_smape, pinball_loss. rewrite arrays2_eq by exact L.
  split; [|split; [|split; [|split]]]; cbn [option_map].
  - eexists. split; [reflexivity|]. apply (strict_mean _ (fun x y => Qabs (x - y))). exact abs_err1_strict.
  - destruct yt as [|a yt]; [eexists; split; [reflexivity|reflexivity]|]. cbn [List.length Nat.eqb].
    eexists. split; [reflexivity|]. apply (strict_mean _ (fun x y => (x - y) * (x - y))%Q). exact sq_err1_strict.
  - eexists. split; [reflexivity|]. apply (strict_mean _ Qminus). exact err1_strict.
  - eexists. split; [reflexivity|].
    apply (strict_mean _ (fun x y => sym_rel (Qabs (x - y)) x y)). exact sym_abs_strict.
  - eexists. split; [reflexivity|].
    apply (strict_mean _ (fun x y => qmax ((x - y) * (1 # 2)) ((x - y) * ((1 # 2) - 1)))). apply pinball1_strict.
Qed.
(** zero exactly for perfect predictions, never negative *)
Theorem C32_zero_iff_perfect : forall yt yp v,
  mae yt yp = Some (Some v) \/ mse yt yp = Some (Some v) \/ scaled_smape yt yp = Some (Some v) ->
  (0 <= v)%Q /\ ((v == 0)%Q <-> forall a b, In (a, b) (present yt yp) -> (a == b)%Q).
Proof.
  intros yt yp v H.
  assert (L : List.length yt = List.length yp).
  { destruct (Nat.eq_dec (List.length yt) (List.length yp)) as [E|E]; [exact E|].
    unfold mae, mse, scaled_smape in H. rewrite arrays2_neq in H by exact E.
    destruct (Nat.eqb (List.length yt) 0); destruct H as [H|[H|H]]; discriminate. }
  destruct (C32_means yt yp L) as ((r1 & E1 & M1) & (r2 & E2 & M2) & _ & (r3 & E3 & M3) & _).
  assert (K : forall r (h : Q * Q -> Q), is_mean r (map h (present yt yp)) -> r = Some v ->
    (forall p, 0 <= h p)%Q -> (forall a b, h (a, b) == 0 <-> a == b)%Q ->
    (0 <= v)%Q /\ ((v == 0)%Q <-> forall a b, In (a, b) (present yt yp) -> (a == b)%Q)).
  { intros r h M E P Z.
    assert (N : forall x, In x (map h (present yt yp)) -> (0 <= x)%Q).
    { intros x Hx. apply in_map_iff in Hx as (p & <- & _). apply P. }
    split; [exact (is_mean_nonneg _ _ M N v E)|]. rewrite (is_mean_zero _ _ M N v E). split.
    - intros G a b Hab. apply Z, G, in_map_iff. exists (a, b). auto.
    - intros G x Hx. apply in_map_iff in Hx as ([a b] & <- & Hp). apply Z, G, Hp. }
  destruct H as [H|[H|H]].
  - apply (K r1 _ M1); [congruence|intros; apply Qabs_nonneg|].
    intros a b. cbn [fst snd]. rewrite qabs_zero_iff. split; intros; lra.
  - apply (K r2 _ M2); [congruence|intros; apply sq_nonneg|].
    intros a b. cbn [fst snd]. rewrite sq_zero_iff. split; intros; lra.
  - apply (K r3 _ M3); [congruence|intros [a b]; apply sym_rel_abs_bound|].
    intros a b. cbn [fst snd]. apply sym_rel_zero.
Qed.
Theorem C32_ranges :
  (forall yt yp v, scaled_smape yt yp = Some (Some v) -> (0 <= v <= 1)%Q)
  /\ (forall yt yp v, smape yt yp = Some (Some v) -> (0 <= v <= 2)%Q)
  /\ (forall yt yp v, sbias yt yp = Some (Some v) -> (-(2) <= v <= 2)%Q)
  /\ (forall yt lo up v, coverage yt lo up = Some (Some v) -> (0 <= v <= 1)%Q)
  /\ (forall yt yp t v, exceed yt yp t = Some (Some v) -> (0 <= v <= 1)%Q)
  /\ (forall yt yp t v, freq_exceeds yt yp t = Some (Some v) -> (0 <= v <= 1)%Q)
  /\ (forall yt yp t v, pinball_loss yt yp t = Some (Some v) -> (0 <= v)%Q)
  /\ (forall yt yp v, crps yt yp = Some (Some v) -> (0 <= v <= 1)%Q)
  /\ (forall yt yp v, leps yt yp = Some (Some v) -> (0 <= v <= 1)%Q)
  /\ (forall yt yp v, mase yt yp = Some (Some v) -> (0 <= v)%Q).
Proof.
  assert (S1 : forall yt yp v, scaled_smape yt yp = Some (Some v) -> (0 <= v <= 1)%Q).
  { intros yt yp v H. unfold scaled_smape, arrays2 in H. destruct (Nat.eqb _ _); [|discriminate].
    cbn [option_map] in H. injection H as H.
    eapply is_mean_bounds; [apply (strict_mean _ _ yt yp sym_abs_strict)| |exact H].
    intros x Hx. apply in_map_iff in Hx as (p & <- & _). apply sym_rel_abs_bound. }
  assert (B : forall A (f : A -> bool) l v, nanmean (map (fun x => Some (b2q (f x))) l) = Some v -> (0 <= v <= 1)%Q).
  { intros A f l v H. eapply is_mean_bounds; [apply (nanmean_some_map (fun x => b2q (f x)))| |exact H].
    intros x Hx. apply in_map_iff in Hx as (p & <- & _). apply b2q_range. }
  split; [exact S1|]. split; [|split; [|split; [|split; [|split; [|split; [|split; [|split]]]]]]].
  - intros yt yp v H. unfold smape in H. destruct (scaled_smape yt yp) as [[w|]|] eqn:E; try discriminate.
    cbn in H. injection H as <-. specialize (S1 _ _ _ E). lra.
  - intros yt yp v H. unfold sbias, arrays2 in H. destruct (Nat.eqb _ _); [|discriminate].
    cbn [option_map] in H. injection H as H.
    destruct (nanmean _) as [w|] eqn:E; [|discriminate]. cbn in H. injection H as <-.
    assert (X : (-(1) <= w <= 1)%Q).
    { eapply is_mean_bounds; [apply (strict_mean _ _ yt yp sym_err_strict)| |exact E].
      intros x Hx. apply in_map_iff in Hx as (p & <- & _). apply sym_rel_bound. }
    lra.
  - intros yt lo up v H. unfold coverage, arrays3 in H. destruct (_ && _); [|discriminate].
    cbn [option_map] in H. injection H as H. exact (B _ covers1 _ _ H).
  - intros yt yp t v H. unfold exceed, arrays2 in H. destruct (Nat.eqb _ _); [|discriminate].
    cbn [option_map] in H. injection H as H. exact (B _ (exceeds1 t) _ _ H).
  - intros yt yp t v H. unfold freq_exceeds, arrays2 in H. destruct (Nat.eqb _ _); [|discriminate].
    cbn [option_map] in H. injection H as H.
    exact (B _ (fun p => cmp (fun t0 q => Qle_bool (t * q) t0) (fst p) (snd p)) _ _ H).
  - intros yt yp t v H. unfold pinball_loss, arrays2 in H. destruct (Nat.eqb _ _); [|discriminate].
    destruct (qlt t 0 || qlt 1 t) eqn:T; [discriminate|]. injection H as H.
    apply orb_false_iff in T as [T0 T1]. apply qlt_false in T0. apply qlt_false in T1.
    eapply is_mean_nonneg; [apply (strict_mean _ _ yt yp (pinball1_strict t))| |exact H].
    intros x Hx. apply in_map_iff in Hx as (p & <- & _). rewrite pinball_eq by assumption. apply pinball_nonneg; assumption.
  - intros yt yp v H. unfold crps, prob_score, arrays2 in H. destruct (Nat.eqb _ _); [|discriminate].
    cbn [option_map] in H. cbv zeta in H. injection H as H.
    eapply is_mean_bounds; [apply (nanmean_some_map (fun p : Q * Q => let d := (ecdf (map fst (predicted yt yp)) (snd p) - ecdf (map fst (predicted yt yp)) (fst p))%Q in (d * d)%Q))| |exact H].
    intros x Hx. apply in_map_iff in Hx as (p & <- & _). cbv zeta.
    pose proof (ecdf_range (map fst (predicted yt yp)) (snd p)) as R1. pose proof (ecdf_range (map fst (predicted yt yp)) (fst p)) as R2.
    set (a := ecdf _ (snd p)) in *. set (b := ecdf _ (fst p)) in *. clearbody a b.
    assert (Z : (-(1) <= a - b <= 1)%Q) by lra. set (z := (a - b)%Q) in *. clearbody z. split; [apply sq_nonneg|].
    assert ((0 <= (1 - z) * (1 + z))%Q) by (apply Qmult_le_0_compat; lra). lra.
  - intros yt yp v H. unfold leps, prob_score, arrays2 in H. destruct (Nat.eqb _ _); [|discriminate].
    cbn [option_map] in H. cbv zeta in H. injection H as H.
    eapply is_mean_bounds; [apply (nanmean_some_map (fun p : Q * Q => Qabs (ecdf (map fst (predicted yt yp)) (snd p) - ecdf (map fst (predicted yt yp)) (fst p))%Q))| |exact H].
    intros x Hx. apply in_map_iff in Hx as (p & <- & _).
    pose proof (ecdf_range (map fst (predicted yt yp)) (snd p)) as R1. pose proof (ecdf_range (map fst (predicted yt yp)) (fst p)) as R2.
    apply Qabs_case; intros; lra.
  - intros yt yp v H. unfold mase, arrays2 in H. destruct (Nat.eqb _ _); [|discriminate].
    cbn [option_map] in H. injection H as H.
    destruct (nanmean (map (lift1 Qabs) (diffs yt))) as [d|] eqn:D; [|discriminate].
    destruct (Qle_bool (Qabs d) tiny) eqn:T; [discriminate|]. apply qle_false in T.
    destruct (nanmean (map abs_err1 (combine yt yp))) as [e|] eqn:E; [|discriminate]. cbn in H. injection H as <-.
    assert (E0 : (0 <= e)%Q).
    { eapply is_mean_nonneg; [apply (strict_mean _ _ yt yp abs_err1_strict)| |exact E].
      intros x Hx. apply in_map_iff in Hx as (p & <- & _). apply Qabs_nonneg. }
    assert (D0 : (0 <= d)%Q).
    { eapply is_mean_nonneg; [apply nanmean_is_mean| |exact D].
      intros x Hx. unfold non_nan in Hx. apply in_flat_map in Hx as (o & Ho & Hx).
      apply in_map_iff in Ho as (o' & <- & _). destruct o' as [z|]; [|contradiction].
      destruct Hx as [<-|[]]. apply Qabs_nonneg. }
    apply Qmult_le_0_compat; [exact E0|]. apply Qinv_le_0_compat. exact D0.
Qed.
(** complete data: the tracking signal lies between -n and n *)
Theorem C32_tracking_signal : forall a b v, List.length a = List.length b ->
  tracking_signal (full a) (full b) = Some (Some v) ->
  (- inject_Z (Z.of_nat (List.length a)) <= v <= inject_Z (Z.of_nat (List.length a)))%Q
  /\ exists m, is_mean (Some m) (map (fun p => Qabs (fst p - snd p)) (combine a b))
       /\ (v * m == qsum (map (fun p => fst p - snd p) (combine a b)))%Q.
Proof.
  intros a b v L H. unfold tracking_signal in H.
  rewrite arrays2_eq in H by (unfold full; rewrite !map_length; exact L).
  pose proof (strict_mean _ _ (full a) (full b) abs_err1_strict) as M. rewrite present_full in M.
  destruct (nanmean (map abs_err1 (combine (full a) (full b)))) as [e|] eqn:E; [|discriminate].
  destruct (Qeq_bool e 0) eqn:Z; [discriminate|]. apply qeq_false in Z. injection H as H.
  assert (S : exists s, np_sum (map err1 (combine (full a) (full b))) = Some s
                /\ (s == qsum (map (fun p => fst p - snd p) (combine a b)))%Q).
  { clear. revert b. unfold full. induction a as [|x t IH]; intros [|y u]; try (eexists; split; reflexivity).
    destruct (IH u) as (s & Es & Q1). cbn [map combine np_sum qsum]. rewrite Es. cbn. eexists. split; [reflexivity|].
    rewrite Q1. reflexivity. }
  destruct S as (s & Es & Q1). rewrite Es in H. cbn in H. injection H as <-.
  assert (E0 : (0 <= e)%Q).
  { eapply is_mean_nonneg; [exact M| |reflexivity]. intros x Hx. apply in_map_iff in Hx as (p & <- & _). apply Qabs_nonneg. }
  assert (P : (0 < e)%Q) by (destruct (Qlt_le_dec 0 e); [assumption|exfalso; apply Z; lra]).
  split.
  - destruct M as [N M]. rewrite map_length, combine_length, <- L, Nat.min_id in M.
    assert (Bd : (- qsum (map (fun p => Qabs (fst p - snd p)) (combine a b)) <= s
                  <= qsum (map (fun p => Qabs (fst p - snd p)) (combine a b)))%Q).
    { rewrite Q1. clear. induction (combine a b) as [|p t IH]; cbn [map qsum]; [lra|].
      pose proof (Qabs_Qle_condition (fst p - snd p) (Qabs (fst p - snd p))) as [C _]. specialize (C (Qle_refl _)). lra. }
    rewrite <- M in Bd. split.
    + apply Qle_shift_div_l; [exact P|]. lra.
    + apply Qle_shift_div_r; [exact P|]. lra.
  - exists e. split; [exact M|]. rewrite <- Q1, Qmult_comm, Qmult_div_r by exact Z. reflexivity.
Qed.
Theorem C32_lengths_checked : forall yt yp, List.length yt <> List.length yp -> yt <> [] ->
  mae yt yp = None /\ mse yt yp = None /\ me yt yp = None /\ smape yt yp = None /\ mape yt yp = None
  /\ mase yt yp = None /\ tracking_signal yt yp = None
  /\ (forall t, pinball_loss yt yp t = None) /\ (forall t, exceed yt yp t = None)
  /\ (forall up, coverage yt yp up = None /\ coverage yt up yp = None).
Proof.
  intros yt yp L N. unfold mae, mse, me, smape, scaled_smape, mape, mase, tracking_signal, pinball_loss, exceed, error.
  rewrite arrays2_neq by exact L. destruct yt as [|x t]; [congruence|]. cbn [List.length Nat.eqb option_map].
  repeat (split; [reflexivity|]). intros up. unfold coverage, arrays3. apply Nat.eqb_neq in L.
  cbn [List.length] in L |- *. rewrite L, andb_false_r. split; reflexivity.
Qed.
Example C32_case : mae [Some 1%Q; None; Some 4%Q] [Some 2%Q; Some 1%Q; Some 2%Q] = Some (Some (3 # 2)%Q)
  /\ present [Some 1%Q; None; Some 4%Q] [Some 2%Q; Some 1%Q; Some 2%Q] = [(1%Q, 2%Q); (4%Q, 2%Q)]
  /\ tracking_signal (full [1; 4]%Q) (full [2; 2]%Q) <> Some None.
Proof. vm_compute. repeat split. discriminate. Qed.

(** *** C33 *)
Definition within (b : bounds) (v : Q) : Prop :=
  match lower b with Some l => (l <= v)%Q | None => True end
  /\ match upper b with Some u => (v <= u)%Q | None => True end.
Open Scope string_scope.
Lemma unbounded_within v : within unbounded_b v.
Proof. split; exact I. Qed.
(** every bound holds except those of sMAPE, MAPE and MdAPE (under any of their names) *)
Theorem C33_bounds_partial : forall name f b yt yp v,
  find_metric name = Some f -> inspect name = Some b ->
  ~ In name ["smape"; "symmetric_mean_absolute_percentage_error"; "mape"; "mean_absolute_percentage_error";
             "mdape"; "median_absolute_percentage_error"] ->
  f yt yp = Some (Some v) -> within b v.
Proof.
  intros name f b yt yp v F B N H.
  unfold find_metric, inspect, resolve, canonical, metadata_canonical, aliases in F, B. cbn [assoc] in F, B.
  repeat match type of F with context [String.eqb name ?s] => destruct (String.eqb_spec name s); [subst name; cbn in F, B; try discriminate; injection F as <-; injection B as <-; try apply unbounded_within; try (exfalso; apply N; cbn; tauto)|] end.
  all: try discriminate.
  all: try (split; [|exact I]; cbn [lower nonneg_b]).
  all: try (apply (proj1 (C32_zero_iff_perfect yt yp v ltac:(tauto)))).
  all: try (apply (proj2 (proj2 (proj2 (proj2 (proj2 (proj2 (proj2 (proj2 (proj2 C32_ranges)))))))) yt yp v H)).
Qed.
Theorem C33_smape_refuted : exists f b yt yp v, find_metric "smape" = Some f /\ inspect "smape" = Some b
  /\ f yt yp = Some (Some v) /\ ~ within b v.
Proof.
  exists smape, rate_b, (full [1%Q]), (full [0%Q]), 2%Q. repeat split. intros [_ H]. cbn in H. lra.
Qed.
Theorem C33_mape_refuted : exists f b yt yp v, find_metric "mape" = Some f /\ inspect "mape" = Some b
  /\ f yt yp = Some (Some v) /\ ~ within b v.
Proof.
  exists mape, nonneg_b, (full [(-(1))%Q]), (full [0%Q]), (-(1))%Q. repeat split. intros [H _]. cbn in H. lra.
Qed.
(** public metrics without metadata *)
Theorem C33_names_refuted : In "frequency_exceeds_relative_threshold" all_metrics
  /\ inspect "frequency_exceeds_relative_threshold" = None
  /\ In "residual" core_metrics /\ inspect "residual" = None
  /\ In "pinball_loss" core_metrics /\ inspect "pinball_loss" = None.
Proof. repeat split; try reflexivity; cbn; tauto. Qed.
Theorem C33_core_names_partial : forall n, In n core_metrics ->
  ~ In n ["residual"; "pinball_loss"; "exceed"; "mult_exceed"] -> exists b, inspect n = Some b.
Proof.
  intros n H N. unfold core_metrics in H. cbn in H.
  repeat (destruct H as [<-|H]; [first [eexists; reflexivity|exfalso; apply N; cbn; tauto]|]).
  contradiction.
Qed.
Example C33_case : exists f b, find_metric "mase" = Some f /\ inspect "mase" = Some b
  /\ f (full [1; 2; 4]%Q) (full [1; 2; 2]%Q) <> Some None /\ within b (4 # 9).
Proof. exists mase, nonneg_b. split; [reflexivity|]. split; [reflexivity|]. split; [vm_compute; discriminate|]. split; [cbn; lra|exact I]. Qed.
Close Scope string_scope.

(** *** C34 *)
Theorem C34_coverage_is_share : forall y lo up, List.length y = List.length lo -> List.length y = List.length up ->
  exists r, coverage (full y) (full lo) (full up) = Some r
    /\ is_mean r (map (fun t => b2q (inside (fst (fst t)) (snd (fst t)) (snd t))) (combine (combine y lo) up)).
Proof.
  intros y lo up L1 L2. unfold coverage. rewrite arrays3_eq by (unfold full; rewrite !map_length; assumption).
  cbn [option_map]. eexists. split; [reflexivity|].
  pose proof (nanmean_some_map (fun t => b2q (covers1 t)) (combine (combine (full y) (full lo)) (full up))) as M.
  replace (map (fun t => b2q (inside (fst (fst t)) (snd (fst t)) (snd t))) (combine (combine y lo) up))
    with (map (fun t => b2q (covers1 t)) (combine (combine (full y) (full lo)) (full up))); [exact M|].
  clear. revert lo up. unfold full. induction y as [|a y IH]; intros [|b lo] [|c up]; try reflexivity.
  cbn [map combine]. rewrite IH. reflexivity.
Qed.
Theorem C34_wider_covers_more : forall y lo up lo' up' v v',
  List.length y = List.length lo -> List.length y = List.length up ->
  List.length y = List.length lo' -> List.length y = List.length up' ->
  wider lo up lo' up' ->
  coverage (full y) (full lo) (full up) = Some (Some v) ->
  coverage (full y) (full lo') (full up') = Some (Some v') -> (v <= v')%Q.
Proof.
  intros y lo up lo' up' v v' L1 L2 L3 L4 W H H'.
  destruct (C34_coverage_is_share y lo up L1 L2) as (r & E & M).
  destruct (C34_coverage_is_share y lo' up' L3 L4) as (r' & E' & M').
  eapply is_mean_le; [exact M|exact M'| | |congruence|congruence].
  - rewrite !map_length, !combine_length. lia.
  - clear - L1 L2 L3 L4 W. unfold wider in W. revert lo up lo' up' L1 L2 L3 L4 W.
    induction y as [|a y IH]; intros [|b lo] [|c up] [|b' lo'] [|c' up'] L1 L2 L3 L4 W; try discriminate.
    cbn [combine map qsum fst snd] in *. inversion W as [|? ? ? ? [W1 W2] W3]; subst. cbn [fst snd] in W1, W2.
    assert (G : (b2q (inside a b c) <= b2q (inside a b' c'))%Q).
    { unfold inside. destruct (Qle_bool b a) eqn:A1; [|cbn [andb]; apply b2q_range].
      destruct (Qle_bool a c) eqn:A2; [|cbn [andb]; apply b2q_range].
      apply qle_true in A1, A2.
      assert (B1 : Qle_bool b' a = true) by (apply Qle_bool_iff; lra).
      assert (B2 : Qle_bool a c' = true) by (apply Qle_bool_iff; lra).
      rewrite B1, B2. cbn. lra. }
    specialize (IH lo up lo' up' ltac:(cbn in *; lia) ltac:(cbn in *; lia) ltac:(cbn in *; lia) ltac:(cbn in *; lia) W3). lra.
Qed.
(** no constant forecast beats a quantile *)
Theorem C34_quantile_minimises_pinball : forall ys t q c v v', (0 <= t)%Q -> (t <= 1)%Q -> is_quantile t q ys ->
  pinball_loss (full ys) (full (repeat q (List.length ys))) t = Some (Some v) ->
  pinball_loss (full ys) (full (repeat c (List.length ys))) t = Some (Some v') -> (v <= v')%Q.
Proof.
  intros ys t q c v v' H0 H1 Hq H H'.
  assert (K : forall d w, pinball_loss (full ys) (full (repeat d (List.length ys))) t = Some (Some w) ->
    is_mean (Some w) (map (fun y => qmax ((y - d) * t) ((y - d) * (t - 1))) ys)).
  { intros d w E. unfold pinball_loss in E.
    rewrite arrays2_eq in E by (unfold full; rewrite !map_length, repeat_length; reflexivity).
    destruct (qlt t 0 || qlt 1 t); [discriminate|]. injection E as <-.
    pose proof (strict_mean _ _ (full ys) (full (repeat d (List.length ys))) (pinball1_strict t)) as M.
    rewrite present_full in M.
    replace (map (fun p => qmax ((fst p - snd p) * t) ((fst p - snd p) * (t - 1))) (combine ys (repeat d (List.length ys))))
      with (map (fun y => qmax ((y - d) * t) ((y - d) * (t - 1))) ys) in M; [exact M|].
    clear. induction ys as [|y ys IH]; [reflexivity|]. cbn [List.length repeat combine map fst snd]. rewrite <- IH. reflexivity. }
  eapply is_mean_le; [exact (K q v H)|exact (K c v' H')|rewrite !map_length; reflexivity| |reflexivity|reflexivity].
  pose proof (pinball_quantile_sum t q c ys H0 H1 Hq) as S.
  pose proof (qsum_ext (fun y => qmax ((y - q) * t) ((y - q) * (t - 1))) (fun y => pinball_of t y q) ys
                (fun y _ => pinball_eq t y q H0 H1)) as E1.
  pose proof (qsum_ext (fun y => qmax ((y - c) * t) ((y - c) * (t - 1))) (fun y => pinball_of t y c) ys
                (fun y _ => pinball_eq t y c H0 H1)) as E2.
  rewrite E1, E2. exact S.
Qed.
(** the score is the width inside the interval, larger by 2/alpha times the miss outside *)
Theorem C34_interval_score : forall y lo up alpha, (0 < alpha)%Q ->
  List.length y = List.length lo -> List.length y = List.length up ->
  exists r l, interval_score (full y) (full lo) (full up) alpha = Some r /\ is_mean r l
    /\ List.length l = List.length y
    /\ forall i, i < List.length y ->
         let yi := nth i y 0%Q in let li := nth i lo 0%Q in let ui := nth i up 0%Q in
         ((li <= yi <= ui -> nth i l 0 == ui - li)
          /\ (yi < li -> yi <= ui -> nth i l 0 == ui - li + 2 / alpha * (li - yi))
          /\ (ui < yi -> li <= yi -> nth i l 0 == ui - li + 2 / alpha * (yi - ui))
          (* the two quantile losses it is made of *)
          /\ nth i l 0 == 2 / alpha * (pinball_of (alpha / 2) yi li + pinball_of (1 - alpha / 2) yi ui))%Q.
Proof.
  intros y lo up alpha Ha L1 L2. unfold interval_score.
  rewrite arrays3_eq by (unfold full; rewrite !map_length; assumption). cbn [option_map].
  set (g := fun t : Q * Q * Q => let '(y, l, u) := t in
        (u - l + (if qlt y l then (l - y) * 2 / alpha else 0) + (if qlt u y then (y - u) * 2 / alpha else 0))%Q).
  exists (nanmean (map (interval1 alpha) (combine (combine (full y) (full lo)) (full up)))), (map g (combine (combine y lo) up)).
  split; [reflexivity|]. split; [|split].
  - replace (map (interval1 alpha) (combine (combine (full y) (full lo)) (full up)))
      with (map (fun t => Some (g t)) (combine (combine y lo) up)); [apply nanmean_some_map|].
    clear. revert lo up. unfold full. induction y as [|a y IH]; intros [|b lo] [|c up]; try reflexivity.
    cbn [map combine]. rewrite IH. reflexivity.
  - rewrite map_length, !combine_length. lia.
  - intros i Hi. cbv zeta.
    assert (E : nth i (map g (combine (combine y lo) up)) 0%Q = g (nth i y 0%Q, nth i lo 0%Q, nth i up 0%Q)).
    { rewrite (nth_indep _ 0%Q (g (0, 0, 0)%Q)) by (rewrite map_length, !combine_length; lia).
      rewrite (map_nth g). f_equal. rewrite combine_nth by (rewrite combine_length; lia). rewrite combine_nth by exact L1. reflexivity. }
    rewrite E. set (a := nth i y 0%Q). set (l := nth i lo 0%Q). set (u := nth i up 0%Q). clearbody a l u. unfold g.
    assert (Az : ~ (alpha == 0)%Q) by lra.
    assert (F : forall z, (z * 2 / alpha == 2 / alpha * z)%Q) by (intros; field; exact Az).
    split; [|split; [|split]].
    + intros [H1 H2]. rewrite (proj2 (qlt_false a l) H1), (proj2 (qlt_false u a) H2). ring.
    + intros H1 H2. rewrite (proj2 (qlt_true a l) H1), (proj2 (qlt_false u a) H2), F. ring.
    + intros H1 H2. rewrite (proj2 (qlt_false a l) H2), (proj2 (qlt_true u a) H1), F. ring.
    + unfold pinball_of, qlt.
      destruct (Qle_bool l a) eqn:A1; destruct (Qle_bool u a) eqn:A2; cbn [negb];
        destruct (Qle_bool a u) eqn:A3; cbn [negb];
        try (exfalso; apply qle_false in A2; apply qle_false in A3; lra).
      all: try (field; exact Az).
      all: apply qle_true in A2, A3; setoid_replace u with a by lra; field; exact Az.
Qed.
Example C34_case : is_quantile (1 # 2) 2 [1; 2; 7]%Q
  /\ wider [1; 1]%Q [2; 2]%Q [0; 1]%Q [2; 3]%Q
  /\ coverage (full [0; 2]%Q) (full [1; 1]%Q) (full [2; 2]%Q) = Some (Some (1 # 2)%Q)
  /\ coverage (full [0; 2]%Q) (full [0; 1]%Q) (full [2; 3]%Q) = Some (Some (2 # 2)%Q).
Proof.
  split; [split; vm_compute; discriminate|]. split; [repeat constructor; cbn; lra|]. split; vm_compute; reflexivity.
Qed.

Print Assumptions C32_means.
Print Assumptions C32_zero_iff_perfect.
Print Assumptions C32_ranges.
Print Assumptions C32_tracking_signal.
Print Assumptions C32_lengths_checked.
Print Assumptions C33_bounds_partial.
Print Assumptions C33_smape_refuted.
Print Assumptions C33_mape_refuted.
Print Assumptions C33_names_refuted.
Print Assumptions C33_core_names_partial.
Print Assumptions C34_coverage_is_share.
Print Assumptions C34_wider_covers_more.
Print Assumptions C34_quantile_minimises_pinball.
Print Assumptions C34_interval_score.
