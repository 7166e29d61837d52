(** C47, C48, C94, C97: aggregation in the decomposition based ensemble. *)
From Verif Require Import Common MedianSpec MedianProofs EnsembleModel EnsembleSpec EnsembleProofs EnsembleProps EnsembleKatsProps.
From Verif Require MetricsModel.
From Coq Require Import String Ascii Permutation Sorted.
Open Scope nat_scope.

Lemma nodup_app_r {A} (l l' : list A) : NoDup (l ++ l') -> NoDup l'.
Proof. induction l as [|x l IH]; cbn; intros N; [exact N|]. inversion N; auto. Qed.
Definition lo_col (fr : frame) : list oQ := match ci fr with Some (lo, _) => lo | None => [] end.
Definition hi_col (fr : frame) : list oQ := match ci fr with Some (_, hi) => hi | None => [] end.
Lemma columns_spec ps a b c : columns ps = Some (a, (b, c)) ->
  a = map fc ps /\ b = map lo_col ps /\ c = map hi_col ps /\ forall fr, In fr ps -> ci fr <> None.
Proof.
  revert a b c; induction ps as [|f r IH]; cbn; intros a b c H; [inversion H; subst; repeat split; intros ? []|].
  destruct (ci f) as [[lo hi]|] eqn:E; [|discriminate]. destruct (columns r) as [[a' [b' c']]|]; [|discriminate].
  inversion H; subst. destruct (IH _ _ _ eq_refl) as (-> & -> & -> & Hn).
  assert (El : lo_col f = lo) by (unfold lo_col; rewrite E; reflexivity).
  assert (Eh : hi_col f = hi) by (unfold hi_col; rewrite E; reflexivity).
  rewrite El, Eh. repeat split. intros fr [<-|I]; [congruence|apply Hn, I].
Qed.
Lemma combine_at {A B} (x : list A) : forall (y : list B) j a b, j < List.length x -> j < List.length y ->
  nth j (combine x y) (a, b) = (nth j x a, nth j y b).
Proof. induction x as [|x0 x IH]; intros [|y0 y] [|j] a b G1 G2; cbn in *; try lia; [reflexivity|]. apply IH; lia. Qed.
Lemma triple_at (ds : list Z) (ra rb rc : list oQ) j : j < List.length ds -> j < List.length ra -> j < List.length rb -> j < List.length rc ->
  nth_error (combine ds (combine ra (combine rb rc))) j = Some (nth j ds 0%Z, (nth j ra None, (nth j rb None, nth j rc None))).
Proof.
  intros H1 H2 H3 H4. rewrite (nth_error_nth' _ (0%Z, (None, (None, None)))) by (rewrite !combine_length; lia).
  rewrite !combine_at by (rewrite ?combine_length; lia). reflexivity.
Qed.

(** ** C47: the weights of the decomposition based ensemble belong to the forecasts of the same name *)
Section K.
Variables (P F M : Type).
Variable train : string -> P -> list oQ -> option F.
Variable predict : F -> nat -> option frame.
Variable backtest : string -> P -> list oQ -> M -> option Q.
Variable detect : list oQ -> bool.
Variable seasonal : bool -> list oQ -> list oQ.

Lemma executor_keys mape orig data ms steps p e :
  forecast_executor P F M train predict backtest mape orig data ms steps true = Some (p, e) ->
  exists err, e = Some err /\ errors_all P M backtest kats_class ms orig mape = Some err /\ keys p = keys err.
Proof.
  unfold forecast_executor. destruct (fit_all P F train kats_class ms data) as [f|] eqn:Ef; [|discriminate].
  destruct (predict_all F predict f steps) as [q|] eqn:Eq; [|discriminate].
  destruct (errors_all P M backtest kats_class ms orig mape) as [err|] eqn:Ee; [|discriminate].
  intros H; inversion H; subst. exists err. split; [reflexivity|]. split; [reflexivity|].
  rewrite (dmap_keys _ _ _ Eq). eapply fit_errors_keys; eassumption.
Qed.
Lemma dummy_keys (p : dict frame) : keys (map (fun kv => (fst kv, add_dummy (snd kv))) p) = keys p.
Proof. unfold keys. rewrite map_map. apply map_ext. reflexivity. Qed.
Lemma dupdate_nodup {A} (e : dict A) : forall d, NoDup (keys d) -> NoDup (keys (dupdate d e)).
Proof. induction e as [|[k v] r IH]; intros d N; [exact N|]. cbn. apply IH, dset_nodup, N. Qed.
Lemma dupdate_in {A} (e : dict A) : forall d n v, In (n, v) (dupdate d e) -> In (n, v) d \/ In (n, v) e.
Proof.
  induction e as [|[k x] r IH]; intros d n v H; [auto|]. cbn in H. apply IH in H as [H|H]; [|right; right; exact H].
  apply dset_in in H as [[-> ->]|H]; [right; left; reflexivity|auto].
Qed.

(** what forecast returns: predictions and weights under the same names, in the same order; the
    weights are those of non-negative errors *)
Lemma forecast_weights mape k data steps p w :
  kats_forecast P F M train predict backtest detect seasonal mape k data steps = Some (p, Some w) ->
  keys p = keys w /\ exists err, weights_of err = Some w /\ NoDup (keys err) /\
    (forall n e, In (n, e) err -> exists c q, backtest c q data mape = Some e).
Proof.
  intros H. unfold kats_forecast in H.
  assert (Hmed : k_median P k = false).
  { destruct (k_median P k); [|reflexivity]. exfalso. cbn [negb] in H. destruct (detect data).
    - destruct (k_len P k); [|discriminate]. destruct (deseasonalize seasonal (k_mult P k) data) as [s d].
      destruct (forecast_executor P F M train predict backtest mape data d (k_models P k) steps false) as [[dp de]|]; [|discriminate].
      destruct (reseasonalize (k_mult P k) n steps s dp); [|discriminate].
      destruct (forecast_executor P F M train predict backtest mape data data (extra P (k_models P k)) steps false) as [[? ?]|]; discriminate.
    - destruct (forecast_executor P F M train predict backtest mape data data (k_models P k) steps false) as [[? ?]|]; discriminate. }
  rewrite Hmed in H. cbn [negb] in H.
  assert (B : forall ms err, errors_all P M backtest kats_class ms data mape = Some err ->
    forall n e, In (n, e) err -> exists c q, backtest c q data mape = Some e).
  { intros ms err E n e I. unfold errors_all in E. destruct (submit P kats_class ms []); [|discriminate].
    destruct (dmap_entry _ _ _ _ _ E I) as (j & _ & Ej). eauto. }
  destruct (detect data).
  - destruct (k_len P k) as [L|]; [|discriminate]. destruct (deseasonalize seasonal (k_mult P k) data) as [s d].
    destruct (forecast_executor P F M train predict backtest mape data d (k_models P k) steps true) as [[dp de]|] eqn:E1; [|discriminate].
    destruct (reseasonalize (k_mult P k) L steps s dp) as [p1|] eqn:E2; [|discriminate].
    destruct (forecast_executor P F M train predict backtest mape data data (extra P (k_models P k)) steps true) as [[ep ee]|] eqn:E3; [|discriminate].
    apply executor_keys in E1 as (er1 & -> & R1 & K1). apply executor_keys in E3 as (er2 & -> & R2 & K2). cbn [merge_errors] in H.
    destruct (weights_of (dupdate er1 er2)) as [w'|] eqn:W; [|discriminate]. inversion H; subst. split.
    + rewrite (weights_keys _ _ W). apply dupdate_keys_same; [|exact K2]. rewrite <- K1.
      unfold reseasonalize in E2. destruct L; [discriminate|]. apply (dmap_keys _ _ _ E2).
    + exists (dupdate er1 er2). split; [exact W|]. split; [apply dupdate_nodup; eapply errors_all_nodup; exact R1|].
      intros n e I. apply dupdate_in in I as [I|I]; [eapply (B _ _ R1); exact I|eapply (B _ _ R2); exact I].
  - destruct (forecast_executor P F M train predict backtest mape data data (k_models P k) steps true) as [[q e]|] eqn:E1; [|discriminate].
    apply executor_keys in E1 as (er & -> & R1 & K1). destruct (weights_of er) as [w'|] eqn:W; [|discriminate].
    inversion H; subst. rewrite dummy_keys, (weights_keys _ _ W). split; [exact K1|]. exists er. split; [exact W|].
    split; [eapply errors_all_nodup; exact R1|]. apply (B _ _ R1).
Qed.

(** forecast followed by aggregate: with non-negative back-test errors the weights are positive,
    sum to one, and in every row each of the three columns is the weighted mean in which a weight
    multiplies the value of the learner it was computed for. *)
Theorem C47_kats_forecast : forall mape k data steps p w last freq t wt f lo hi j,
  kats_forecast P F M train predict backtest detect seasonal mape k data steps = Some (p, Some w) ->
  kats_aggregate P k p (Some w) steps last freq = Some t -> k_median P k = false -> j < List.length t ->
  (forall c q e, backtest c q data mape = Some e -> 0 <= e)%Q ->
  (forall n v, entry n v w -> v == wt n)%Q ->
  (forall n fr, entry n fr p -> holds (nth j (fc fr) None) (f n) /\
     exists l h, ci fr = Some (l, h) /\ holds (nth j l None) (lo n) /\ holds (nth j h None) (hi n)) ->
  names p = names w /\ normalised (names p) wt /\
  exists d a b c, nth_error t j = Some (d, (a, (b, c))) /\ holds a (combination (names p) wt f) /\
    holds b (combination (names p) wt lo) /\ holds c (combination (names p) wt hi).
Proof.
  intros mape k data steps p w last freq t wt f lo hi j Hf Ha Hmed J Hpos Hwt Hfr.
  destruct (forecast_weights _ _ _ _ _ _ Hf) as (K & err & W & Nd & Herr).
  unfold kats_aggregate in Ha. rewrite Hmed in Ha.
  destruct (columns (values p)) as [[a0 [b0 c0]]|] eqn:Ec; [|discriminate].
  apply columns_spec in Ec as (-> & -> & -> & Hci).
  destruct (future last steps freq) as [ds|]; [|discriminate].
  destruct (rows (map lo_col (values p))) as [rb|]; [|discriminate]. destruct (rows (map hi_col (values p))) as [rc|]; [|discriminate].
  destruct (any_nan rb || any_nan rc); [discriminate|].
  destruct (dot (map fc (values p)) (values w)) as [ra|] eqn:D1; [|discriminate].
  destruct (dot (map lo_col (values p)) (values w)) as [rl|] eqn:D2; [|discriminate].
  destruct (dot (map hi_col (values p)) (values w)) as [rh|] eqn:D3; [|discriminate].
  apply table_nth in Ha as [L ->]. rewrite !combine_length in *.
  assert (J1 : j < List.length ra) by lia. assert (J2 : j < List.length rl) by lia. assert (J3 : j < List.length rh) by lia.
  split; [exact K|]. split.
  { destruct (weights_of_spec err) as (w' & wt' & W' & K' & Hw' & Hn' & _).
    - intros ->. cbn in W. inversion W; subst. cbn in K. destruct p; [discriminate D1|discriminate K].
    - intros n e I. destruct (Herr n e I) as (c & q & E). apply (Hpos c q e E).
    - exact Nd.
    - rewrite W in W'. inversion W'; subst w'. clear W'. change (names p) with (keys p). rewrite K. destruct Hn' as [A B].
      assert (Q : forall n, In n (keys w) -> (wt n == wt' n)%Q).
      { intros n I. apply keys_entry in I as (v & I). rewrite <- (Hwt n v I). apply Hw', I. }
      split.
      + intros n I. rewrite (Q n I). apply A, I.
      + rewrite <- B. apply qsum_ext. exact Q. }
  destruct (dot_row p fc w wt f ra j K D1 J1 Hwt) as (va & Ea & Va).
  { intros n x I. destruct (Hfr n x I) as [(y & E & V) _]. exists y; auto. }
  destruct (dot_row p lo_col w wt lo rl j K D2 J2 Hwt) as (vl & El & Vl).
  { intros n x I. destruct (Hfr n x I) as [_ (l & h & C & (y & E & V) & _)]. exists y. unfold lo_col. rewrite C. auto. }
  destruct (dot_row p hi_col w wt hi rh j K D3 J3 Hwt) as (vh & Eh & Vh).
  { intros n x I. destruct (Hfr n x I) as [_ (l & h & C & _ & (y & E & V))]. exists y. unfold hi_col. rewrite C. auto. }
  exists (nth j ds 0%Z), (Some va), (Some vl), (Some vh). split.
  - rewrite triple_at by lia. rewrite Ea, El, Eh. reflexivity.
  - split; [exists va; auto|]. split; [exists vl; auto|exists vh; auto].
Qed.

(** fit followed by predict: the forecasts and the weights carry the same names in the same order,
    provided no learner is given a name that contains the reserved mark. *)
Theorem C47_kats_fit_partial : forall mape k data m st w steps p,
  (forall s, In s (k_models P k) -> contains "_smodel" (sname P s) = false) ->
  kats_fit P F M train backtest detect seasonal mape k data m = Some st -> st_weights F st = Some w ->
  kats_predict P F predict k st steps = Some p -> names p = names w.
Proof.
  intros mape k data m st w steps p Hm Hf Hw Hp. change (keys p = keys w). unfold kats_fit in Hf.
  assert (G : forall ms d f auto mm, fit_executor P F M train backtest data d ms auto mm = Some (f, Some w) ->
    fit_all P F train kats_class ms d = Some f /\ keys f = keys w).
  { intros ms d f auto mm E. unfold fit_executor in E. destruct (fit_all P F train kats_class ms d) as [f0|] eqn:Ef; [|discriminate].
    destruct auto; [|discriminate]. destruct (errors_all P M backtest kats_class ms data mm) as [e|] eqn:Ee; [|discriminate].
    destruct (weights_of e) eqn:We; [|discriminate]. inversion E; subst. split; [reflexivity|].
    rewrite (weights_keys _ _ We). eapply fit_errors_keys; eassumption. }
  destruct (detect data).
  - destruct (k_len P k) as [L|] eqn:EL; [|discriminate]. destruct (deseasonalize seasonal (k_mult P k) data) as [s d].
    destruct (fit_executor P F M train backtest data d (k_models P k ++ extra P (k_models P k)) _ mape) as [[f w0]|] eqn:E; [|discriminate].
    inversion Hf; subst st. cbn in Hw. subst w0. destruct (G _ _ _ _ _ E) as [Ef Kf]. rewrite <- Kf. clear E G Kf.
    (* fitted = unmarked ++ marked *)
    unfold fit_all in Ef. rewrite submit_app in Ef.
    destruct (submit P kats_class (k_models P k) []) as [j1|] eqn:S1; [|discriminate].
    destruct (submit P kats_class (extra P (k_models P k)) j1) as [j2|] eqn:S2; [|discriminate].
    assert (Hk1 : forall n, In n (keys j1) -> contains "_smodel" n = false).
    { intros n I. apply keys_entry in I as (v & I). destruct (submit_entry _ _ _ _ _ _ S1 I) as [[]|(s0 & I0 & <- & _)]. apply Hm, I0. }
    assert (N2 : NoDup (keys j2)) by (eapply submit_nodup; [|exact S2]; eapply submit_nodup; [|exact S1]; constructor).
    assert (SP : exists j3, j2 = j1 ++ j3 /\ forall n, In n (keys j3) -> contains "_smodel" n = true).
    { clear -Hk1 S2. assert (X : forall ms a b c, (forall m0, In m0 ms -> contains "_smodel" (sname P m0) = true) ->
        (forall n, In n (keys a) -> contains "_smodel" n = false) -> (forall n, In n (keys b) -> contains "_smodel" n = true) ->
        submit P kats_class ms (a ++ b) = Some c -> exists b', c = a ++ b' /\ forall n, In n (keys b') -> contains "_smodel" n = true).
      { induction ms as [|m0 r IH]; intros a b c H1 H2 H3 H4.
        - cbn in H4. inversion H4; subst. exists b; auto.
        - cbn [submit] in H4. destruct (kats_class (sname P m0)) as [cl|]; [|discriminate].
          assert (D : forall v : job P, dset (sname P m0) v (a ++ b) = a ++ dset (sname P m0) v b).
          { intros v. pose proof (H1 m0 (or_introl eq_refl)) as Hmk. clear -H2 Hmk.
            induction a as [|[k0 v0] a IH]; [reflexivity|]. cbn [app dset].
            destruct (String.eqb (sname P m0) k0) eqn:Eq.
            - apply String.eqb_eq in Eq. subst. rewrite (H2 (sname P m0)) in Hmk; [discriminate|left; reflexivity].
            - rewrite IH; [reflexivity|]. intros n I. apply H2. right; exact I. }
          rewrite D in H4. apply IH in H4; [exact H4| |exact H2|].
          + intros m1 I. apply H1. right; exact I.
          + intros n I. rewrite dset_keys in I. destruct (existsb _ _); [apply H3, I|]. apply in_app_iff in I as [I|[<-|[]]]; [apply H3, I|]. apply H1. left; reflexivity. }
      apply (X (extra P (k_models P k)) j1 [] j2); [intros m0 I; eapply extra_marked, I|exact Hk1|intros n []|rewrite app_nil_r; exact S2]. }
    destruct SP as (j3 & -> & Hk3).
    assert (KF : keys f = keys j1 ++ keys j3) by (rewrite (dmap_keys _ _ _ Ef); unfold keys; apply map_app).
    assert (FS : exists f1 f3, f = f1 ++ f3 /\ keys f1 = keys j1 /\ keys f3 = keys j3).
    { exists (firstn (List.length j1) f), (skipn (List.length j1) f). split; [symmetry; apply firstn_skipn|].
      unfold keys in *. rewrite <- firstn_map, <- skipn_map, KF.
      rewrite firstn_app, skipn_app, !map_length, Nat.sub_diag. cbn [firstn skipn].
      rewrite firstn_all2 by (rewrite map_length; lia). rewrite skipn_all2 by (rewrite map_length; lia). rewrite app_nil_r. auto. }
    destruct FS as (f1 & f3 & -> & K1 & K3). clear Ef KF.
    assert (D1 : dfilter (fun n => negb (has_suffix_mark n)) (f1 ++ f3) = f1).
    { unfold dfilter. rewrite filter_app. rewrite filter_id.
      - rewrite filter_all_false; [apply app_nil_r|]. intros [n v] I. cbn. apply negb_false_iff, Hk3. rewrite <- K3. eapply entry_keys, I.
      - intros [n v] I. cbn. apply negb_true_iff, Hk1. rewrite <- K1. eapply entry_keys, I. }
    assert (D3 : dfilter has_suffix_mark (f1 ++ f3) = f3).
    { unfold dfilter. rewrite filter_app. rewrite filter_all_false.
      - cbn. apply filter_id. intros [n v] I. cbn. apply Hk3. rewrite <- K3. eapply entry_keys, I.
      - intros [n v] I. cbn. apply Hk1. rewrite <- K1. eapply entry_keys, I. }
    unfold kats_predict in Hp. cbn [st_seasonal st_fitted st_sea] in Hp. rewrite D1, D3, EL in Hp.
    destruct (predict_all F predict f1 steps) as [q1|] eqn:P1; [|discriminate].
    destruct (reseasonalize (k_mult P k) L steps s q1) as [q1'|] eqn:R1; [|discriminate].
    destruct (predict_all F predict f3 steps) as [q3|] eqn:P3; [|discriminate]. inversion Hp; subst p.
    assert (Q1 : keys q1' = keys j1).
    { unfold reseasonalize in R1. destruct L; [discriminate|]. rewrite (dmap_keys _ _ _ R1), (dmap_keys _ _ _ P1). exact K1. }
    assert (Q3 : keys q3 = keys j3) by (rewrite (dmap_keys _ _ _ P3); exact K3).
    rewrite dupdate_new.
    + unfold keys in *. rewrite !map_app, Q1, Q3, K1, K3. reflexivity.
    + rewrite Q3. unfold keys in *. rewrite map_app in N2. apply nodup_app_r in N2. exact N2.
    + intros n I C. rewrite Q3 in I. rewrite Q1 in C. specialize (Hk1 n C). specialize (Hk3 n I). congruence.
  - destruct (fit_executor P F M train backtest data data (k_models P k) _ m) as [[f w0]|] eqn:E; [|discriminate].
    inversion Hf; subst st. cbn in Hw. subst w0. destruct (G _ _ _ _ _ E) as [_ Kf]. rewrite <- Kf.
    unfold kats_predict in Hp. cbn [st_seasonal st_fitted] in Hp. destruct (predict_all F predict f steps) as [q|] eqn:Eq; [|discriminate].
    inversion Hp; subst. rewrite dummy_keys. apply (dmap_keys _ _ _ Eq).
Qed.

(** ** C97: the requested error metric *)
Theorem C97_metric_partial : forall mape k data m st w, detect data = false ->
  kats_fit P F M train backtest detect seasonal mape k data m = Some st -> st_weights F st = Some w ->
  exists err, errors_all P M backtest kats_class (k_models P k) data m = Some err /\ weights_of err = Some w.
Proof.
  intros mape k data m st w D H Hw. unfold kats_fit in H. rewrite D in H. unfold fit_executor in H.
  destruct (fit_all P F train kats_class (k_models P k) data); [|discriminate].
  destruct (negb (k_median P k)).
  - destruct (errors_all P M backtest kats_class (k_models P k) data m) as [e|]; [|discriminate].
    destruct (weights_of e) as [w'|] eqn:E; [|discriminate]. inversion H; subst. cbn in Hw. exists e. split; [reflexivity|congruence].
  - inversion H; subst. discriminate.
Qed.
(** with seasonality the requested metric has no influence at all *)
Theorem C97_seasonal_refuted : forall mape k data m m', detect data = true ->
  kats_fit P F M train backtest detect seasonal mape k data m = kats_fit P F M train backtest detect seasonal mape k data m'.
Proof. intros mape k data m m' D. unfold kats_fit. rewrite D. reflexivity. Qed.
End K.

(** ** C48 and C94: medians of the three columns, and whether the interval contains the forecast *)
Lemma median_rows (P : Type) k p w steps last freq t j : k_median P k = true ->
  kats_aggregate P k p w steps last freq = Some t -> j < List.length t ->
  (forall n fr, entry n fr p -> List.length (fc fr) = steps /\ exists l h, ci fr = Some (l, h) /\ List.length l = steps /\ List.length h = steps) ->
  j < steps /\ (forall n fr, entry n fr p -> exists l h, ci fr = Some (l, h)) /\
  exists d, nth_error t j = Some (d, (row_median (map (fun fr => nth j (fc fr) None) (values p)),
    (row_median (map (fun fr => clean (nth j (lo_col fr) None)) (values p)),
     row_median (map (fun fr => clean (nth j (hi_col fr) None)) (values p))))).
Proof.
  intros Hm H J Hl. unfold kats_aggregate in H. rewrite Hm in H.
  destruct (columns (values p)) as [[a0 [b0 c0]]|] eqn:Ec; [|discriminate].
  apply columns_spec in Ec as (-> & -> & -> & Hci).
  destruct (future last steps freq) as [ds|]; [|discriminate].
  destruct (rows (map fc (values p))) as [ra|] eqn:Ra; [|discriminate].
  destruct (rows (map lo_col (values p))) as [rb|] eqn:Rb; [|discriminate].
  destruct (rows (map hi_col (values p))) as [rc|] eqn:Rc; [|discriminate].
  assert (V : forall fr, In fr (values p) -> exists n, entry n fr p).
  { intros fr I. apply in_map_iff in I as ([n fr'] & <- & I). exists n. exact I. }
  assert (La : List.length ra = steps).
  { apply (rows_length _ _ _ Ra). intros c I. apply in_map_iff in I as (fr & <- & I). destruct (V fr I) as (n & I'). apply (Hl n fr I'). }
  assert (Lb : List.length rb = steps).
  { apply (rows_length _ _ _ Rb). intros c I. apply in_map_iff in I as (fr & <- & I). destruct (V fr I) as (n & I').
    destruct (Hl n fr I') as (_ & l & h & E & X & _). unfold lo_col. rewrite E. exact X. }
  assert (Lc : List.length rc = steps).
  { apply (rows_length _ _ _ Rc). intros c I. apply in_map_iff in I as (fr & <- & I). destruct (V fr I) as (n & I').
    destruct (Hl n fr I') as (_ & l & h & E & _ & X). unfold hi_col. rewrite E. exact X. }
  apply table_nth in H as [L ->]. rewrite !combine_length, !map_length in *. 
  split; [lia|]. split; [intros n fr I; destruct (Hl n fr I) as (_ & l & h & E & _); eauto|].
  exists (nth j ds 0%Z). rewrite triple_at by (rewrite ?map_length; lia).
  set (g := fun r => row_median (map clean r)).
  rewrite (nth_indep (map row_median ra) None (row_median [])) by (rewrite map_length; lia).
  rewrite (nth_indep (map g rb) None (g [])) by (rewrite map_length; lia).
  rewrite (nth_indep (map g rc) None (g [])) by (rewrite map_length; lia).
  rewrite !map_nth, (rows_nth _ _ _ Ra), (rows_nth _ _ _ Rb), (rows_nth _ _ _ Rc) by lia. unfold g. rewrite !map_map. reflexivity.
Qed.

(** the numbers that take part in the median of a bound: the non-zero ones *)
Definition nonzero (c : oQ) : oQ := match c with Some v => if Qeq_bool v 0 then None else Some v | None => None end.
Definition lower_at (j : nat) (fr : frame) : oQ := match ci fr with Some (l, _) => nth j l None | None => None end.
Definition upper_at (j : nat) (fr : frame) : oQ := match ci fr with Some (_, h) => nth j h None | None => None end.
Definition median_cell (xs : list Q) (c : oQ) : Prop := match c with Some v => median_of xs v /\ xs <> [] | None => xs = [] end.
Lemma row_median_cell r : median_cell (numbers r) (row_median r).
Proof. pose proof (row_median_spec r) as H. destruct (row_median r); cbn; [destruct H; auto|exact H]. Qed.

(** The median aggregation: the three columns are the medians of the base columns, zero bounds
    being treated as missing. *)
Theorem C48_kats_aggregate : forall (P : Type) k p w steps last freq t j, k_median P k = true ->
  kats_aggregate P k p w steps last freq = Some t -> j < List.length t ->
  (forall n fr, entry n fr p -> List.length (fc fr) = steps /\ exists l h, ci fr = Some (l, h) /\ List.length l = steps /\ List.length h = steps) ->
  exists d a b c, nth_error t j = Some (d, (a, (b, c))) /\
    median_cell (numbers (map (fun e => nth j (fc (snd e)) None) p)) a /\
    median_cell (numbers (map (fun e => nonzero (lower_at j (snd e))) p)) b /\
    median_cell (numbers (map (fun e => nonzero (upper_at j (snd e))) p)) c.
Proof.
  intros P k p w steps last freq t j Hm H J Hl. destruct (median_rows P k p w steps last freq t j Hm H J Hl) as (Js & Hci & d & E).
  exists d. do 3 eexists. split; [exact E|].
  assert (Z : forall (u : frame -> oQ), map u (values p) = map (fun e => u (snd e)) p) by (intros u; unfold values; apply map_map).
  rewrite <- (Z (fun fr => nth j (fc fr) None)), <- (Z (fun fr => nonzero (lower_at j fr))), <- (Z (fun fr => nonzero (upper_at j fr))).
  assert (EL : map (fun fr => nonzero (lower_at j fr)) (values p) = map (fun fr => clean (nth j (lo_col fr) None)) (values p)).
  { apply map_ext_in. intros fr I. apply in_map_iff in I as ([n fr'] & <- & I). destruct (Hci n fr' I) as (l & h & C).
    unfold lower_at, lo_col. cbn. rewrite C. reflexivity. }
  assert (EH : map (fun fr => nonzero (upper_at j fr)) (values p) = map (fun fr => clean (nth j (hi_col fr) None)) (values p)).
  { apply map_ext_in. intros fr I. apply in_map_iff in I as ([n fr'] & <- & I). destruct (Hci n fr' I) as (l & h & C).
    unfold upper_at, hi_col. cbn. rewrite C. reflexivity. }
  rewrite EL, EH. split; [apply row_median_cell|]. split; apply row_median_cell.
Qed.

(** order statistics are monotone *)
Lemma above_ge s v i : StronglySorted Qle s -> i < List.length s -> (v < nth i s 0)%Q -> List.length s - i <= above v s.
Proof.
  intros Hs Hi Hv. unfold above. rewrite <- (firstn_skipn i s) at 2. rewrite filter_app, app_length.
  rewrite (filter_id _ (skipn i s)); [rewrite skipn_length; lia|]. intros x Hx. apply negb_true_iff.
  destruct (Qle_bool x v) eqn:E; [|reflexivity]. apply Qle_bool_iff in E. exfalso.
  apply (In_nth _ _ 0%Q) in Hx as (q & Hq & <-). rewrite skipn_length in Hq.
  rewrite nth_skip in E. pose proof (sorted_nth_mono s i (i + q) Hs ltac:(lia) ltac:(lia)). lra.
Qed.
Lemma above_mono v l l' : Forall2 Qle l l' -> above v l <= above v l'.
Proof.
  intros H. unfold above. induction H as [|x y l l' Hxy H IH]; [cbn; lia|]. cbn [filter].
  destruct (Qle_bool x v) eqn:E1, (Qle_bool y v) eqn:E2; cbn; try lia.
  apply Qle_bool_iff in E2. assert (Qle_bool x v = true) by (apply Qle_bool_iff; lra). congruence.
Qed.
Lemma median_mono l l' u v : Forall2 Qle l l' -> median_of l u -> median_of l' v -> (u <= v)%Q.
Proof.
  intros H (s & P1 & S1 & E1) (s' & P2 & S2 & E2). assert (L : List.length l = List.length l') by (clear -H; induction H; cbn; congruence).
  pose proof (Permutation_length P1) as L1. pose proof (Permutation_length P2) as L2.
  assert (G : forall i, (nth i s 0 <= nth i s' 0)%Q).
  { intros i. destruct (Nat.lt_ge_cases i (List.length s)) as [Hi|Hi]; [|rewrite !nth_overflow by lia; lra].
    apply Qnot_lt_le. intros C. pose proof (above_ge s (nth i s' 0%Q) i S1 Hi C) as A1.
    pose proof (above_sorted s' (nth i s' 0%Q) i S2 ltac:(lia) (Qle_refl _)) as A2.
    pose proof (above_mono (nth i s' 0%Q) l l' H) as A3. unfold above in *.
    rewrite (filter_perm_length _ _ _ P1), (filter_perm_length _ _ _ P2) in A3. lia. }
  rewrite E1, E2, <- L. pose proof (G ((List.length l - 1) / 2)). pose proof (G (List.length l / 2)).
  apply Qle_shift_div_l; [reflexivity|].
  setoid_replace ((nth ((List.length l - 1) / 2) s 0 + nth (List.length l / 2) s 0) / 2 * 2)%Q
    with (nth ((List.length l - 1) / 2) s 0 + nth (List.length l / 2) s 0)%Q by (field; discriminate). lra.
Qed.
Lemma median_le_cells {A} (l : list A) (u v : A -> oQ) : l <> [] ->
  (forall x, In x l -> exists a b, u x = Some a /\ v x = Some b /\ (a <= b)%Q) ->
  exists a b, row_median (map u l) = Some a /\ row_median (map v l) = Some b /\ (a <= b)%Q.
Proof.
  intros Hne H. assert (N : exists xs ys, numbers (map u l) = xs /\ numbers (map v l) = ys /\ Forall2 Qle xs ys /\ (l <> [] -> xs <> [] /\ ys <> [])).
  { clear Hne. induction l as [|x t IH]; [exists [], []; repeat split; try constructor; contradiction|].
    destruct IH as (xs & ys & E1 & E2 & F & _); [intros y I; apply H; right; exact I|].
    destruct (H x (or_introl eq_refl)) as (a & b & Ea & Eb & Hab). cbn [map]. rewrite Ea, Eb. cbn [numbers]. rewrite E1, E2.
    exists (a :: xs), (b :: ys). repeat split; try discriminate. constructor; assumption. }
  destruct N as (xs & ys & E1 & E2 & F & Hn). destruct (Hn Hne) as [N1 N2].
  pose proof (row_median_spec (map u l)) as M1. pose proof (row_median_spec (map v l)) as M2. rewrite E1 in M1. rewrite E2 in M2.
  destruct (row_median (map u l)) as [a|]; [|contradiction]. destruct (row_median (map v l)) as [b|]; [|contradiction].
  exists a, b. split; [reflexivity|]. split; [reflexivity|]. destruct M1 as [_ M1], M2 as [_ M2]. eapply median_mono; eassumption.
Qed.

(** If every base interval is given, has non-zero bounds and contains the base forecast, the median
    interval contains the median forecast. *)
Theorem C94_median_partial : forall (P : Type) k p w steps last freq t j, k_median P k = true ->
  kats_aggregate P k p w steps last freq = Some t -> j < List.length t -> p <> [] ->
  (forall n fr, entry n fr p -> List.length (fc fr) = steps /\ exists l h, ci fr = Some (l, h) /\ List.length l = steps /\ List.length h = steps /\
     exists x a b, nth j (fc fr) None = Some x /\ nth j l None = Some a /\ nth j h None = Some b /\
       (a <= x <= b)%Q /\ ~ (a == 0)%Q /\ ~ (b == 0)%Q) ->
  exists d x a b, nth_error t j = Some (d, (Some x, (Some a, Some b))) /\ (a <= x <= b)%Q.
Proof.
  intros P k p w steps last freq t j Hm H J Hne Hl.
  destruct (median_rows P k p w steps last freq t j Hm H J) as (Js & Hci & d & E).
  { intros n fr I. destruct (Hl n fr I) as (A & l & h & B & C & D & _). split; [exact A|]. exists l, h. auto. }
  assert (Hv : values p <> []) by (destruct p; [contradiction|discriminate]).
  assert (X : forall fr, In fr (values p) -> exists x a b, nth j (fc fr) None = Some x /\ clean (nth j (lo_col fr) None) = Some a /\
    clean (nth j (hi_col fr) None) = Some b /\ (a <= x <= b)%Q).
  { intros fr I. apply in_map_iff in I as ([n fr'] & <- & I). destruct (Hl n fr' I) as (_ & l & h & C & _ & _ & x & a & b & E1 & E2 & E3 & B & Za & Zb).
    exists x, a, b. unfold lo_col, hi_col. cbn [snd]. rewrite C, E1, E2, E3. unfold clean. rewrite !qeq_false by assumption. auto. }
  destruct (median_le_cells (values p) (fun fr => clean (nth j (lo_col fr) None)) (fun fr => nth j (fc fr) None) Hv) as (a & x & Ea & Ex & L1).
  { intros fr I. destruct (X fr I) as (x & a & b & E1 & E2 & E3 & B). exists a, x. repeat split; [exact E2|exact E1|apply B]. }
  destruct (median_le_cells (values p) (fun fr => nth j (fc fr) None) (fun fr => clean (nth j (hi_col fr) None)) Hv) as (x' & b & Ex' & Eb & L2).
  { intros fr I. destruct (X fr I) as (x0 & a0 & b0 & E1 & E2 & E3 & B). exists x0, b0. repeat split; [exact E1|exact E3|apply B]. }
  rewrite Ex in Ex'. inversion Ex'; subst x'. exists d, x, a, b. rewrite E, Ea, Ex, Eb. auto.
Qed.
(** Weighted averages preserve containment, whatever the positive weights. *)
Theorem C94_weighted_partial : forall (P : Type) k p w steps last freq t j, k_median P k = false ->
  kats_aggregate P k p (Some w) steps last freq = Some t -> j < List.length t ->
  names p = names w -> NoDup (names w) -> (forall n v, entry n v w -> 0 < v)%Q ->
  (forall n fr, entry n fr p -> exists l h x a b, ci fr = Some (l, h) /\
     nth j (fc fr) None = Some x /\ nth j l None = Some a /\ nth j h None = Some b /\ (a <= x <= b)%Q) ->
  exists d x a b, nth_error t j = Some (d, (Some x, (Some a, Some b))) /\ (a <= x <= b)%Q.
Proof.
  intros P k p w steps last freq t j Hm Ha J K N Hpos Hl. change (keys p = keys w) in K. change (NoDup (keys w)) in N.
  unfold kats_aggregate in Ha. rewrite Hm in Ha.
  destruct (columns (values p)) as [[a0 [b0 c0]]|] eqn:Ec; [|discriminate].
  apply columns_spec in Ec as (-> & -> & -> & Hci).
  destruct (future last steps freq) as [ds|]; [|discriminate].
  destruct (rows (map lo_col (values p))) as [rb|]; [|discriminate]. destruct (rows (map hi_col (values p))) as [rc|]; [|discriminate].
  destruct (any_nan rb || any_nan rc); [discriminate|].
  destruct (dot (map fc (values p)) (values w)) as [ra|] eqn:D1; [|discriminate].
  destruct (dot (map lo_col (values p)) (values w)) as [rl|] eqn:D2; [|discriminate].
  destruct (dot (map hi_col (values p)) (values w)) as [rh|] eqn:D3; [|discriminate].
  apply table_nth in Ha as [L ->]. rewrite !combine_length in *.
  set (wt := fun n => match dget n w with Some v => v | None => 1%Q end).
  assert (Hwt : forall n v, In (n, v) w -> (v == wt n)%Q).
  { intros n v I. unfold wt. apply (dget_in n v w N) in I. rewrite I. reflexivity. }
  assert (Hwp : forall n, In n (keys p) -> (0 < wt n)%Q).
  { intros n I. rewrite K in I. apply keys_entry in I as (v & I). rewrite <- (Hwt n v I). apply (Hpos n v I). }
  assert (Np : NoDup (keys p)) by (rewrite K; exact N).
  set (val := fun (u : frame -> oQ) n => match dget n p with Some fr => match u fr with Some x => x | None => 0%Q end | None => 0%Q end).
  assert (Hval : forall u n fr x, In (n, fr) p -> u fr = Some x -> val u n = x).
  { intros u n fr x I E. unfold val. apply (dget_in n fr p Np) in I. rewrite I, E. reflexivity. }
  set (F0 := fun fr => nth j (fc fr) None). set (FL := fun fr => nth j (lo_col fr) None). set (FH := fun fr => nth j (hi_col fr) None).
  assert (X : forall n fr, In (n, fr) p -> exists x a b, F0 fr = Some x /\ FL fr = Some a /\ FH fr = Some b /\ (a <= x <= b)%Q).
  { intros n fr I. destruct (Hl n fr I) as (l & h & x & a & b & C & E1 & E2 & E3 & B). exists x, a, b.
    unfold F0, FL, FH, lo_col, hi_col. rewrite C. auto. }
  destruct (dot_row p fc w wt (val F0) ra j K D1 ltac:(lia) Hwt) as (va & Ea & Va).
  { intros n fr I. destruct (X n fr I) as (x & a & b & E1 & E2 & E3 & _). exists x. split; [exact E1|]. rewrite (Hval F0 n fr x I E1). reflexivity. }
  destruct (dot_row p lo_col w wt (val FL) rl j K D2 ltac:(lia) Hwt) as (vl & El & Vl).
  { intros n fr I. destruct (X n fr I) as (x & a & b & E1 & E2 & E3 & _). exists a. split; [exact E2|]. rewrite (Hval FL n fr a I E2). reflexivity. }
  destruct (dot_row p hi_col w wt (val FH) rh j K D3 ltac:(lia) Hwt) as (vh & Eh & Vh).
  { intros n fr I. destruct (X n fr I) as (x & a & b & E1 & E2 & E3 & _). exists b. split; [exact E3|]. rewrite (Hval FH n fr b I E3). reflexivity. }
  exists (nth j ds 0%Z), va, vl, vh. rewrite triple_at by lia. rewrite Ea, El, Eh. split; [reflexivity|].
  rewrite Va, Vl, Vh. split; apply combination_le; try exact Hwp; intros n I; apply keys_entry in I as (fr & I);
    destruct (X n fr I) as (x & a & b & E1 & E2 & E3 & B); rewrite (Hval F0 n fr x I E1).
  - rewrite (Hval FL n fr a I E2). apply B.
  - rewrite (Hval FH n fr b I E3). apply B.
Qed.

(** ** concrete instances *)
Definition flat (x : Q) (b : option (Q * Q)) (steps : nat) : frame :=
  Frame (repeat (Some x) steps) (option_map (fun q => (repeat (Some (fst q)) steps, repeat (Some (snd q)) steps)) b).
Definition kp (median mult : bool) (ms : list (spec Q)) := KParams Q median mult (Some 2) ms.
Definition reduced (t : option (list (Z * (oQ * (oQ * oQ))))) :=
  option_map (map (fun r => (fst r, (option_map Qred (fst (snd r)), (option_map Qred (fst (snd (snd r))), option_map Qred (snd (snd (snd r)))))))) t.

(** two learners with the genuine lower bound 0: the median interval [4, 2] of forecast 1 *)
Theorem C94_median_refuted : exists p t,
  (forall n fr, entry n fr p -> exists l h x a b, ci fr = Some (l, h) /\
     nth 0 (fc fr) None = Some x /\ nth 0 l None = Some a /\ nth 0 h None = Some b /\ (a <= x <= b)%Q) /\
  kats_aggregate Q (kp true false []) p None 1 10 (Some toy_daily) = Some t /\
  exists x a b, nth_error t 0 = Some (11%Z, (Some x, (Some a, Some b))) /\ (x < a)%Q /\ (b < a)%Q.
Proof.
  exists [("a"%string, flat 1 (Some (0, 2)%Q) 1); ("b"%string, flat 1 (Some (0, 2)%Q) 1); ("c"%string, flat 5 (Some (4, 6)%Q) 1)].
  eexists. split; [|split; [vm_compute; reflexivity|]].
  - intros n fr H. unfold entry in H. cbn [In] in H.
    destruct H as [H|[H|[H|[]]]]; inversion H; do 5 eexists; (split; [reflexivity|]); (split; [reflexivity|]); (split; [reflexivity|]); (split; [reflexivity|]); split; vm_compute; discriminate.
  - do 3 eexists. split; [reflexivity|]. split; reflexivity.
Qed.
(** a learner without interval under the multiplicative decomposition: the zero placeholders are
    averaged as if they were bounds *)
Theorem C94_multiplicative_refuted : exists p t,
  reseasonalize true 1 1 [Some 2%Q] [("a"%string, flat 3 None 1)] = Some p /\
  kats_aggregate Q (kp false true []) p (Some [("a"%string, 1%Q)]) 1 10 (Some toy_daily) = Some t /\
  exists x a b, nth_error t 0 = Some (11%Z, (Some x, (Some a, Some b))) /\ (x == 6)%Q /\ (a == 0)%Q /\ (b == 0)%Q.
Proof.
  do 2 eexists. split; [reflexivity|]. split; [vm_compute; reflexivity|]. do 3 eexists. split; [reflexivity|].
  repeat split; reflexivity.
Qed.
(** a learner named with the reserved mark: weights and forecasts no longer line up *)
Theorem C47_kats_fit_refuted : exists st w p,
  kats_fit Q toy_F unit toy_train toy_backtest (fun _ => true) toy_sea tt
    (kp false false [Spec Q "theta_smodel" 1%Q; Spec Q "linear" 3%Q]) toy_season_data tt = Some st /\
  st_weights toy_F st = Some w /\
  kats_predict Q toy_F naive_predict (kp false false [Spec Q "theta_smodel" 1%Q; Spec Q "linear" 3%Q]) st 2 = Some p /\
  names w = ["theta_smodel"; "linear"]%string /\ names p = ["linear"; "theta_smodel"]%string.
Proof. do 3 eexists. repeat split; vm_compute; reflexivity. Qed.

Example C94_case : reduced (kats_aggregate Q (kp true false [])
    [("a"%string, flat 1 (Some (-1, 2)%Q) 1); ("b"%string, flat 2 (Some (1, 4)%Q) 1); ("c"%string, flat 5 (Some (4, 6)%Q) 1)]
    None 1 10 (Some toy_daily)) = Some [(11%Z, (Some 2, (Some 1, Some 4)))]%Q.
Proof. vm_compute. reflexivity. Qed.
Example C47_kats_case : exists p w, kats_forecast Q toy_F unit toy_train naive_predict
    (fun _ q _ _ => Some q) (fun _ => true) toy_sea tt (kp false false [Spec Q "linear" (1 - eps)%Q; Spec Q "theta" (2 - eps)%Q]) toy_season_data 2 = Some (p, Some w) /\
  map (fun e => (fst e, Qred (snd e))) w = [("linear", 1 # 2); ("theta", 1 # 4); ("theta_smodel", 1 # 4)]%string /\
  names p = ["linear"; "theta"; "theta_smodel"]%string /\
  reduced (kats_aggregate Q (kp false false []) p (Some w) 2 10 (Some toy_daily)) =
    Some [(11%Z, (Some (11 # 2), (Some (11 # 2), Some (11 # 2)))); (12%Z, (Some 4, (Some 4, Some 4)))]%Q.
Proof. do 2 eexists. split; [vm_compute; reflexivity|]. split; [vm_compute; reflexivity|]. split; vm_compute; reflexivity. Qed.
Example C96_case : option_map (map (fun e => (fst e, map (option_map Qred) (fc (snd e)))))
    (reseasonalize false 3 5 [Some 9; Some 1; Some 2; Some 3]%Q [("a"%string, flat 10 None 5)])
    = Some [("a"%string, [Some 11; Some 12; Some 13; Some 11; Some 12]%Q)].
Proof. vm_compute. reflexivity. Qed.
(** the metric matters for the weights, and is ignored when the series is seasonal *)
Definition metric_backtest (c : string) (p : Q) (d : list oQ) (m : bool) : option Q :=
  Some (if m then (1 - eps)%Q else (p - eps)%Q).
Definition metric_weights (season m : bool) : option (list (string * Q)) :=
  match kats_fit Q toy_F bool toy_train metric_backtest (fun _ => season) toy_sea true
          (kp false false [Spec Q "linear" 1%Q; Spec Q "arima" 3%Q]) toy_season_data m with
  | Some st => option_map (map (fun e => (fst e, Qred (snd e)))) (st_weights toy_F st)
  | None => None
  end.
Example C97_case :
  metric_weights false true = Some [("linear", 1 # 2); ("arima", 1 # 2)]%string /\
  metric_weights false false = Some [("linear", 3 # 4); ("arima", 1 # 4)]%string /\
  metric_weights true true = metric_weights true false.
Proof. repeat split; vm_compute; reflexivity. Qed.
Example C49_case : exists p, kats_forecast Q toy_F unit toy_train naive_predict toy_backtest (fun _ => true) toy_sea tt (toy_k true) toy_season_data 2 = Some (p, None) /\
  map (fun e => (fst e, map (option_map Qred) (fc (snd e)))) p
  = [("theta", [Some 6; Some 4]%Q); ("theta_smodel", [Some 4; Some 4]%Q)]%string.
Proof. eexists. split; [vm_compute; reflexivity|]. vm_compute. reflexivity. Qed.

Print Assumptions C47_kats_forecast.
Print Assumptions C47_kats_fit_partial.
Print Assumptions C97_metric_partial.
Print Assumptions C97_seasonal_refuted.
Print Assumptions C48_kats_aggregate.
Print Assumptions C94_median_partial.
Print Assumptions C94_weighted_partial.
Print Assumptions C94_median_refuted.
Print Assumptions C94_multiplicative_refuted.
Print Assumptions C47_kats_fit_refuted.
