(** C47, C48, C94, C95: weighted average and median ensembles. *)
From Verif Require Import Common MedianSpec MedianProofs EnsembleModel EnsembleSpec EnsembleProofs.
From Verif Require MetricsModel.
From Coq Require Import String Ascii Permutation Sorted.
Open Scope nat_scope.

(** ** shared facts *)
Lemma mem_in s l : mem s l = true <-> In s l.
Proof. apply existsb_in. Qed.
Lemma base_class_supported n : In (lower n) base_models -> base_class n = Some (lower n).
Proof. intros H. unfold base_class. apply mem_in in H. rewrite H. reflexivity. Qed.
Lemma base_class_some n c : base_class n = Some c -> c = lower n /\ In (lower n) base_models.
Proof.
  unfold base_class. destruct (mem (lower n) base_models) eqn:E; [|discriminate].
  intros H; inversion H; subst. split; [reflexivity|apply mem_in, E].
Qed.

Section Any.
Variables (P F M : Type).
Variable train : string -> P -> list oQ -> option F.
Variable predict : F -> nat -> option frame.
Variable backtest : string -> P -> list oQ -> M -> option Q.

Lemma errors_distinct cls (ms : list (spec P)) data m err : NoDup (map (sname P) ms) ->
  (forall s, In s ms -> exists c, cls (sname P s) = Some c /\ backtest c (sparams P s) data m = Some (err (sname P s))) ->
  errors_all P M backtest cls ms data m = Some (map (fun s => (sname P s, err (sname P s))) ms).
Proof.
  intros N H. unfold errors_all. rewrite submit_distinct.
  - cbn [app]. induction ms as [|s r IH]; [reflexivity|]. cbn. inversion N; subst.
    destruct (H s (or_introl eq_refl)) as (c & E1 & E2). rewrite E1, E2. rewrite IH; [reflexivity|assumption|].
    intros s' I. apply H. right; exact I.
  - exact N.
  - intros s _ [].
  - intros s I. destruct (H s I) as (c & E & _). congruence.
Qed.
Lemma fit_all_nodup cls (ms : list (spec P)) data f : fit_all P F train cls ms data = Some f -> NoDup (keys f).
Proof.
  unfold fit_all. destruct (submit P cls ms []) as [js|] eqn:E; [|discriminate]. intros H.
  rewrite (dmap_keys _ _ _ H). eapply submit_nodup; [|exact E]. constructor.
Qed.
Lemma errors_all_nodup cls (ms : list (spec P)) data m e : errors_all P M backtest cls ms data m = Some e -> NoDup (keys e).
Proof.
  unfold errors_all. destruct (submit P cls ms []) as [js|] eqn:E; [|discriminate]. intros H.
  rewrite (dmap_keys _ _ _ H). eapply submit_nodup; [|exact E]. constructor.
Qed.
Lemma fit_errors_keys cls (ms : list (spec P)) d1 d2 m f e :
  fit_all P F train cls ms d1 = Some f -> errors_all P M backtest cls ms d2 m = Some e -> keys f = keys e.
Proof.
  unfold fit_all, errors_all. destruct (submit P cls ms []) as [js|]; [|discriminate]. intros H1 H2.
  rewrite (dmap_keys _ _ _ H1), (dmap_keys _ _ _ H2). reflexivity.
Qed.
End Any.
Lemma weights_keys e w : weights_of e = Some w -> keys w = keys e.
Proof.
  unfold weights_of. destruct (dmap _ e) as [o|] eqn:E; [|discriminate]. cbv zeta. intros H.
  rewrite (dmap_keys _ _ _ H). apply (dmap_keys _ _ _ E).
Qed.

(** the weights of a dict of non-negative errors *)
Lemma weights_of_spec (errors : dict Q) : errors <> [] -> (forall n e, In (n, e) errors -> 0 <= e)%Q ->
  NoDup (keys errors) -> exists w wt, weights_of errors = Some w /\ keys w = keys errors /\
  (forall n v, In (n, v) w -> v == wt n)%Q /\ normalised (keys w) wt /\
  (forall a b ea eb, In (a, ea) errors -> In (b, eb) errors ->
     wt a * (ea + eps) == wt b * (eb + eps) /\ (ea <= eb -> wt b <= wt a) /\ (ea < eb -> wt b < wt a))%Q.
Proof.
  intros Hne Hp N. destruct (weights_formula errors Hne Hp) as [Hs0 E]. cbv zeta in E.
  remember (qsum (map (fun kv : string * Q => 1 / (snd kv + eps))%Q errors)) as s eqn:Es.
  set (wt := fun n => match dget n errors with Some e => 1 / (e + eps) / s | None => 1 end%Q).
  assert (Hwt : forall n e, In (n, e) errors -> wt n = (1 / (e + eps) / s)%Q).
  { intros n e I. unfold wt. apply (dget_in n e errors N) in I. rewrite I. reflexivity. }
  assert (Hpos : forall n e, In (n, e) errors -> (0 < e + eps)%Q).
  { intros n e I. specialize (Hp n e I). pose proof eps_pos. lra. }
  assert (K : keys (map (fun kv : string * Q => (fst kv, (1 / (snd kv + eps) / s)%Q)) errors) = keys errors).
  { unfold keys. rewrite map_map. apply map_ext. reflexivity. }
  exists (map (fun kv => (fst kv, 1 / (snd kv + eps) / s)%Q) errors), wt.
  split; [exact E|]. split; [exact K|]. split; [|split].
  - intros n v I. apply in_map_iff in I as ([k e] & H & I). cbn in H. inversion H; subst. rewrite (Hwt _ _ I). reflexivity.
  - rewrite K. split.
    + intros n I. apply keys_entry in I as (e & I). rewrite (Hwt _ _ I). specialize (Hpos _ _ I).
      apply Qlt_shift_div_l; [exact Hs0|]. rewrite Qmult_0_l. apply Qlt_shift_div_l; lra.
    + assert (X : (qsum (map wt (keys errors)) == qsum (map (fun kv => 1 / (snd kv + eps) / s) errors))%Q).
      { unfold keys. rewrite map_map. apply qsum_ext. intros [k e] I. cbn [fst snd]. rewrite (Hwt _ _ I). reflexivity. }
      rewrite X, qsum_div. rewrite <- Es. field. lra.
  - intros a b ea eb Ia Ib. rewrite (Hwt _ _ Ia), (Hwt _ _ Ib). pose proof (Hpos _ _ Ia). pose proof (Hpos _ _ Ib).
    split; [field; split; lra|].
    assert (Y : forall x, (1 / x / s == / s * / x)%Q) by (intros x; unfold Qdiv; ring).
    rewrite !Y. assert (0 < / s)%Q by (apply Qinv_lt_0_compat; exact Hs0).
    split; intros L.
    + assert (/ (eb + eps) <= / (ea + eps))%Q.
      { apply (Qmult_le_l _ _ (eb + eps)); [assumption|]. rewrite Qmult_inv_r by lra.
        apply (Qmult_le_l _ _ (ea + eps)); [assumption|].
        setoid_replace ((ea + eps) * ((eb + eps) * / (ea + eps)))%Q with (eb + eps)%Q by (field; lra). lra. }
      nra.
    + assert (/ (eb + eps) < / (ea + eps))%Q.
      { apply (Qmult_lt_l _ _ (eb + eps)); [assumption|]. rewrite Qmult_inv_r by lra.
        apply (Qmult_lt_l _ _ (ea + eps)); [assumption|].
        setoid_replace ((ea + eps) * ((eb + eps) * / (ea + eps)))%Q with (eb + eps)%Q by (field; lra). lra. }
      nra.
Qed.

(** ** C47: the weights *)

(** Distinct supported learners with non-negative back-test errors: the weighted average ensemble
    gives each a positive weight, the weights sum to one and are inversely proportional to the
    error plus machine epsilon, so a larger error never gets a larger weight. *)
Theorem C47_weights : forall (P M : Type) (backtest : string -> P -> list oQ -> M -> option Q)
    (ms : list (spec P)) data m (err : string -> Q),
  ms <> [] -> NoDup (map (sname P) ms) ->
  (forall s, In s ms -> In (lower (sname P s)) base_models) ->
  (forall s, In s ms -> backtest (lower (sname P s)) (sparams P s) data m = Some (err (sname P s))) ->
  (forall s, In s ms -> 0 <= err (sname P s))%Q ->
  exists w wt, wavg_weights P M backtest ms data m = Some w /\ names w = map (sname P) ms /\
    (forall n v, entry n v w -> v == wt n)%Q /\ normalised (map (sname P) ms) wt /\
    (forall a b, In a (map (sname P) ms) -> In b (map (sname P) ms) ->
       wt a * (err a + (1 # 4503599627370496)) == wt b * (err b + (1 # 4503599627370496)) /\
       (err a <= err b -> wt b <= wt a) /\ (err a < err b -> wt b < wt a))%Q.
Proof.
  intros P M backtest ms data m err Hne N Hsup Hbt Hpos.
  assert (E : errors_all P M backtest base_class ms data m = Some (map (fun s => (sname P s, err (sname P s))) ms)).
  { apply errors_distinct; [exact N|]. intros s I. exists (lower (sname P s)). split; [apply base_class_supported, Hsup, I|apply Hbt, I]. }
  set (errors := map (fun s => (sname P s, err (sname P s))) ms) in *.
  assert (K : keys errors = map (sname P) ms) by (unfold keys, errors; rewrite map_map; apply map_ext; reflexivity).
  destruct (weights_of_spec errors) as (w & wt & Ew & Kw & Hw & Hn & Hc).
  - unfold errors. destruct ms; [contradiction|discriminate].
  - intros n e I. apply in_map_iff in I as (s & H & I). inversion H; subst. apply Hpos, I.
  - rewrite K. exact N.
  - exists w, wt. unfold wavg_weights. rewrite E. split; [exact Ew|]. split; [change (names w) with (keys w); rewrite Kw; exact K|].
    split; [exact Hw|]. rewrite Kw, K in Hn. split; [exact Hn|].
    intros a b Ia Ib. apply in_map_iff in Ia as (sa & <- & Ia). apply in_map_iff in Ib as (sb & <- & Ib).
    apply Hc; apply in_map_iff; [exists sa|exists sb]; auto.
Qed.

Lemma forall2_names {A} (d : dict A) (R : string -> A -> Prop) : (forall n v, In (n, v) d -> R n v) ->
  Forall2 R (keys d) (values d).
Proof.
  induction d as [|[k v] r IH]; intros H; [constructor|]. cbn. constructor; [apply H; left; reflexivity|].
  apply IH. intros n v' I. apply H. right; exact I.
Qed.
Lemma forall2_map {A B C} (R : A -> C -> Prop) (g : B -> C) l l' : Forall2 (fun a b => R a (g b)) l l' -> Forall2 R l (map g l').
Proof. intros H. induction H; cbn; constructor; assumption. Qed.

(** a row of the product of a table of forecasts with the weights of the same names *)
Lemma dot_row {A} (p : dict A) (col : A -> list oQ) (w : dict Q) wt f r j : keys p = keys w ->
  dot (map col (values p)) (values w) = Some r -> j < List.length r ->
  (forall n v, In (n, v) w -> v == wt n)%Q ->
  (forall n x, In (n, x) p -> exists y, nth j (col x) None = Some y /\ y == f n)%Q ->
  exists v, nth j r None = Some v /\ (v == combination (keys p) wt f)%Q.
Proof.
  intros K D J Hw Hf. unfold dot in D. destruct (_ =? _); [|discriminate].
  destruct (rows (map col (values p))) as [rr|] eqn:R; [|discriminate]. cbn in D. inversion D; subst; clear D.
  rewrite map_length in J. set (g := fun r0 => row_dot r0 (values w)).
  rewrite (nth_indep (map g rr) None (g [])) by (rewrite map_length; exact J). rewrite map_nth.
  rewrite (rows_nth _ _ _ R J), map_map. unfold g.
  apply row_dot_spec.
  - apply forall2_map, forall2_names. exact Hf.
  - rewrite K. apply forall2_names. exact Hw.
Qed.

(** Every row of the weighted average forecast pairs each weight with the forecast of the learner
    of the same name, and lies between any bounds that hold for all the base forecasts. *)
Theorem C47_forecast : forall (P F M : Type) train predict backtest (ms : list (spec P)) data (m : M)
    (fitted : dict F) w steps last freq t wt f j,
  base_fit P F train ms data = Some fitted -> wavg_weights P M backtest ms data m = Some w ->
  wavg_predict P F M predict backtest ms data m fitted steps last freq = Some t -> j < List.length t ->
  (forall n v, entry n v w -> v == wt n)%Q ->
  (forall n g, entry n g fitted -> exists fr y, predict g steps = Some fr /\ nth j (fc fr) None = Some y /\ y == f n)%Q ->
  exists d v, nth_error t j = Some (d, Some v) /\ (v == combination (names fitted) wt f)%Q /\
    (normalised (names fitted) wt -> forall lo hi, (forall n, In n (names fitted) -> lo <= f n <= hi) -> lo <= v <= hi)%Q.
Proof.
  intros P F M train predict backtest ms data m fitted w steps last freq t wt f j Hfit Hw Hp J Hwt Hf.
  unfold wavg_predict in Hp. rewrite Hw in Hp. destruct (predict_all F predict fitted steps) as [p|] eqn:Ep; [|discriminate].
  destruct (dot (map fc (values p)) (values w)) as [r|] eqn:D; [|discriminate].
  destruct (future last steps freq) as [ds|]; [|discriminate]. apply table_nth in Hp as [L ->].
  rewrite combine_length, <- L, Nat.min_id in J.
  assert (Kp : keys p = keys fitted) by (apply (dmap_keys _ _ _ Ep)).
  assert (Kw : keys p = keys w).
  { rewrite Kp. unfold wavg_weights in Hw. destruct (errors_all P M backtest base_class ms data m) as [e|] eqn:Ee; [|discriminate].
    rewrite (weights_keys _ _ Hw). eapply fit_errors_keys; [exact Hfit|exact Ee]. }
  destruct (dot_row p fc w wt f r j Kw D) as (v & Ev & Vv).
  - lia.
  - exact Hwt.
  - intros n x I. destruct (dmap_entry _ _ _ _ _ Ep I) as (g & Ig & Eg). destruct (Hf n g Ig) as (fr & y & E1 & E2 & E3).
    rewrite E1 in Eg. inversion Eg; subst. exists y; auto.
  - exists (nth j ds 0%Z), v. split; [|split].
    + rewrite (nth_error_nth' _ (0%Z, None)) by (rewrite combine_length; lia). rewrite combine_nth by exact L. rewrite Ev. reflexivity.
    + rewrite Vv, Kp. reflexivity.
    + intros Hn lo hi Hb. rewrite Vv, Kp. apply combination_between; assumption.
Qed.

(** ** C48: the median *)

(** The median of a forecast row: at least half of the base forecasts on either side, between
    the extremes; NaN forecasts do not count, and a row without numbers has no median. *)
Theorem C48_median : forall (F : Type) predict (fitted : dict F) steps last freq t j,
  median_predict F predict fitted steps last freq = Some t -> j < List.length t ->
  exists frs d c, dmap (fun g => predict g steps) fitted = Some frs /\ nth_error t j = Some (d, c) /\
    let xs := numbers (map (fun fr => nth j (fc fr) None) (map snd frs)) in
    match c with
    | Some v => median_of xs v /\ halves xs v /\
                (forall lo hi, (forall x, In x xs -> lo <= x <= hi) -> lo <= v <= hi)%Q
    | None => xs = []
    end.
Proof.
  intros F predict fitted steps last freq t j H J. unfold median_predict, predict_all in H.
  destruct (dmap _ fitted) as [p|] eqn:Ep; [|discriminate].
  destruct (rows (map fc (values p))) as [r|] eqn:R; [|discriminate].
  destruct (future last steps freq) as [ds|]; [|discriminate]. apply table_nth in H as [L ->].
  rewrite combine_length, map_length in J. rewrite map_length in L.
  exists p, (nth j ds 0%Z), (row_median (nth j r [])). split; [reflexivity|]. split.
  - rewrite (nth_error_nth' _ (0%Z, row_median [])) by (rewrite combine_length, map_length; lia).
    rewrite combine_nth by (rewrite map_length; exact L). rewrite map_nth. reflexivity.
  - cbv zeta. rewrite (rows_nth _ _ _ R) by lia. rewrite map_map.
    pose proof (row_median_spec (map (fun x => nth j (fc x) None) (values p))) as S0.
    unfold values in *. destruct (row_median _) as [v|]; [|exact S0]. destruct S0 as [S1 S2].
    split; [exact S2|]. split; [apply median_halves, S2|]. intros lo hi B. eapply median_between; eassumption.
Qed.

Lemma numbers_perm l l' : Permutation l l' -> Permutation (numbers l) (numbers l').
Proof.
  intros H. induction H as [|[x|] l l' H IH|[x|] [y|] l|l1 l2 l3 H1 IH1 H2 IH2]; cbn;
    try solve [apply Permutation_refl | exact IH | apply perm_skip, IH | apply perm_swap].
  eapply perm_trans; eassumption.
Qed.
Lemma row_median_perm l l' : Permutation l l' ->
  match row_median l, row_median l' with Some a, Some b => (a == b)%Q | None, None => True | _, _ => False end.
Proof.
  intros H. apply numbers_perm in H. pose proof (row_median_spec l) as S1. pose proof (row_median_spec l') as S2.
  destruct (row_median l) as [a|], (row_median l') as [b|]; [| | |exact I].
  - destruct S1 as [_ S1], S2 as [_ S2]. apply (median_unique (numbers l')); [eapply median_perm; [exact H|exact S1]|exact S2].
  - destruct S1 as [S1 _]. rewrite S2 in H. apply Permutation_sym, Permutation_nil in H. contradiction.
  - destruct S2 as [S2 _]. rewrite S1 in H. apply Permutation_nil in H. contradiction.
Qed.
Lemma dmap_perm {A B} (f : A -> option B) d d' e : Permutation d d' -> dmap f d = Some e ->
  exists e', dmap f d' = Some e' /\ Permutation e e'.
Proof.
  intros H. revert e. induction H as [|[k v] d d' H IH|[k v] [k' v'] d|d1 d2 d3 H1 IH1 H2 IH2]; cbn; intros e E.
  - exists e. split; [exact E|apply Permutation_refl].
  - destruct (f v) as [y|]; [|discriminate]. destruct (dmap f d) as [e0|]; [|discriminate]. cbn in E. inversion E; subst.
    destruct (IH e0 eq_refl) as (e' & -> & Hp). exists ((k, y) :: e'). split; [reflexivity|]. constructor; exact Hp.
  - destruct (f v') as [y'|]; [|discriminate]. destruct (f v) as [y|]; [|discriminate].
    destruct (dmap f d) as [e0|]; [|discriminate]. cbn in E. inversion E; subst. eexists; split; [reflexivity|]. constructor.
  - destruct (IH1 e E) as (e2 & E2 & P2). destruct (IH2 e2 E2) as (e3 & E3 & P3). exists e3. split; [exact E3|].
    eapply perm_trans; eassumption.
Qed.
Lemma max_perm l l' : Permutation l l' -> fold_right Nat.max 0 l = fold_right Nat.max 0 l'.
Proof. intros H. induction H; cbn; lia. Qed.

(** The order in which the learners are listed does not matter. *)
Theorem C48_order : forall (P F : Type) train predict (ms ms' : list (spec P)) data (fitted : dict F) steps last freq t,
  NoDup (map (sname P) ms) -> Permutation ms ms' -> base_fit P F train ms data = Some fitted ->
  median_predict F predict fitted steps last freq = Some t ->
  exists fitted' t', base_fit P F train ms' data = Some fitted' /\
    median_predict F predict fitted' steps last freq = Some t' /\
    map fst t = map fst t' /\
    forall j, match nth j (map snd t) None, nth j (map snd t') None with
              | Some a, Some b => (a == b)%Q | None, None => True | _, _ => False end.
Proof.
  intros P F train predict ms ms' data fitted steps last freq t N Hp Hfit Hm.
  unfold base_fit, fit_all in *.
  destruct (submit P base_class ms []) as [js|] eqn:S1; [|discriminate].
  assert (Hc : forall s, In s ms -> base_class (sname P s) <> None).
  { clear -S1. revert S1. generalize (@nil (string * job P)). induction ms as [|s r IH]; intros d S1 s' I; [destruct I|].
    cbn in S1. destruct (base_class (sname P s)) as [c|] eqn:E; [|discriminate].
    destruct I as [<-|I]; [congruence|]. eapply IH; [exact S1|exact I]. }
  rewrite submit_distinct in S1; [|exact N|intros ? ? []|exact Hc]. cbn [app] in S1. inversion S1; subst js; clear S1.
  assert (N' : NoDup (map (sname P) ms')) by (eapply Permutation_NoDup; [apply Permutation_map, Hp|exact N]).
  rewrite (submit_distinct base_class ms' []); [|exact N'|intros ? ? []|intros s I; apply Hc; eapply Permutation_in; [apply Permutation_sym, Hp|exact I]].
  cbn [app]. match type of Hfit with dmap _ (map ?h ms) = _ => set (g := h) in * end.
  destruct (dmap_perm _ _ (map g ms') _ (Permutation_map g Hp) Hfit) as (fitted' & -> & Pf).
  exists fitted'. unfold median_predict, predict_all in *.
  destruct (dmap (fun f => predict f steps) fitted) as [p|] eqn:Ep; [|discriminate].
  destruct (dmap_perm _ _ fitted' _ Pf Ep) as (p' & -> & Pp).
  assert (Pv : Permutation (map fc (values p)) (map fc (values p'))) by (apply Permutation_map, Permutation_map, Pp).
  destruct (rows (map fc (values p))) as [r|] eqn:R; [|discriminate].
  destruct (rows (map fc (values p'))) as [r'|] eqn:R'.
  2:{ destruct (map fc (values p')) eqn:E'; [|discriminate R']. apply Permutation_sym, Permutation_nil in Pv. rewrite Pv in R. discriminate. }
  assert (L : List.length r = List.length r').
  { clear -R R' Pv. destruct (map fc (values p)) as [|c cs] eqn:E; [discriminate|]. destruct (map fc (values p')) as [|c' cs'] eqn:E'; [discriminate|].
    unfold rows in *. inversion R; subst. inversion R'; subst. rewrite !map_length, !seq_length.
    apply (max_perm _ _ (Permutation_map (@List.length oQ) Pv)). }
  destruct (future last steps freq) as [ds|]; [|discriminate]. apply table_nth in Hm as [L0 ->]. rewrite map_length in L0.
  unfold table. rewrite map_length, <- L, L0, Nat.eqb_refl. eexists. split; [reflexivity|]. split; [reflexivity|].
  assert (Q1 : forall (l : list Z) (l' : list oQ), List.length l = List.length l' -> map fst (combine l l') = l /\ map snd (combine l l') = l').
  { induction l as [|x l IH]; intros [|y l'] E; try discriminate; [split; reflexivity|]. cbn. inversion E as [E1]. destruct (IH l' E1) as [-> ->]. split; reflexivity. }
  destruct (Q1 ds (map row_median r)) as [-> ->]; [rewrite map_length; exact L0|].
  destruct (Q1 ds (map row_median r')) as [-> ->]; [rewrite map_length; lia|]. split; [reflexivity|].
  intros j. destruct (Nat.lt_ge_cases j (List.length r)) as [J|J].
  - rewrite (nth_indep (map row_median r) None (row_median [])) by (rewrite map_length; lia).
    rewrite (nth_indep (map row_median r') None (row_median [])) by (rewrite map_length; lia). rewrite !map_nth.
    rewrite (rows_nth _ _ _ R) by exact J. rewrite (rows_nth _ _ _ R') by lia. apply row_median_perm, Permutation_map, Pv.
  - rewrite !nth_overflow by (rewrite map_length; lia). exact I.
Qed.

(** ** C95: the forecast dates *)

(** When the last observation falls on the requested calendar, the ensemble forecasts are dated
    with exactly the requested number of following calendar dates. *)
Theorem C95_dates : forall (F : Type) predict (fitted : dict F) steps last o t,
  (forall z, z < next o z)%Z -> roll o last = last ->
  median_predict F predict fitted steps last (Some o) = Some t -> forecast_dates (next o) last steps (map fst t).
Proof.
  intros F predict fitted steps last o t Hn Hr H. unfold median_predict in H.
  destruct (predict_all F predict fitted steps) as [p|]; [|discriminate].
  destruct (rows (map fc (values p))) as [r|]; [|discriminate]. rewrite future_on in H by assumption.
  apply table_nth in H as [L ->].
  assert (Q1 : forall (l : list Z) (l' : list oQ), List.length l = List.length l' -> map fst (combine l l') = l).
  { induction l as [|x l IH]; intros [|y l'] E; try discriminate; [reflexivity|]. cbn. inversion E as [E1]. rewrite (IH l' E1). reflexivity. }
  rewrite Q1 by exact L. split; [apply iterate_length|]. intros j J. rewrite iterate_nth by exact J. apply steps_after_comm.
Qed.
Theorem C95_weighted_dates : forall (P F M : Type) predict backtest (ms : list (spec P)) data (m : M) (fitted : dict F) steps last o t,
  (forall z, z < next o z)%Z -> roll o last = last ->
  wavg_predict P F M predict backtest ms data m fitted steps last (Some o) = Some t -> forecast_dates (next o) last steps (map fst t).
Proof.
  intros P F M predict backtest ms data m fitted steps last o t Hn Hr H. unfold wavg_predict in H.
  destruct (wavg_weights P M backtest ms data m) as [w|]; [|discriminate].
  destruct (predict_all F predict fitted steps) as [p|]; [|discriminate].
  destruct (dot (map fc (values p)) (values w)) as [r|]; [|discriminate]. rewrite future_on in H by assumption.
  apply table_nth in H as [L ->].
  assert (Q1 : forall (l : list Z) (l' : list oQ), List.length l = List.length l' -> map fst (combine l l') = l).
  { induction l as [|x l IH]; intros [|y l'] E; try discriminate; [reflexivity|]. cbn. inversion E as [E1]. rewrite (IH l' E1). reflexivity. }
  rewrite Q1 by exact L. split; [apply iterate_length|]. intros j J. rewrite iterate_nth by exact J. apply steps_after_comm.
Qed.
(** Otherwise one date too many is generated, the table cannot be assembled, and no forecast of
    the requested number of steps comes out. *)
Theorem C95_off_calendar_refuted : forall (F : Type) predict (fitted : dict F) steps last o,
  (forall z, z < next o z)%Z -> (last < roll o last)%Z ->
  (forall g fr, predict g steps = Some fr -> List.length (fc fr) = steps) ->
  median_predict F predict fitted steps last (Some o) = None.
Proof.
  intros F predict fitted steps last o Hn Hr Hl. unfold median_predict, predict_all.
  destruct (dmap _ fitted) as [p|] eqn:Ep; [|reflexivity].
  destruct (rows (map fc (values p))) as [r|] eqn:R; [|reflexivity]. rewrite future_off by assumption.
  assert (L : List.length r = steps).
  { apply (rows_length _ _ _ R). intros c I. apply in_map_iff in I as (fr & <- & I). apply in_map_iff in I as ([n fr'] & E & I). cbn in E. subst fr'.
    destruct (dmap_entry _ _ _ _ _ Ep I) as (g & _ & Eg). apply (Hl g fr Eg). }
  unfold table. rewrite iterate_length, map_length, L.
  destruct (S steps =? steps) eqn:E; [apply Nat.eqb_eq in E; lia|reflexivity].
Qed.

(** ** concrete instances *)
(** learner "linear" continues the last value plus its parameter per step, any other learner
    repeats its parameter; the back-test error of a learner is its parameter *)
Definition toy_F := (string * Q * list oQ)%type.
Definition toy_train (c : string) (p : Q) (d : list oQ) : option toy_F := Some (c, p, d).
Definition toy_predict (g : toy_F) (steps : nat) : option frame :=
  let '(c, p, d) := g in
  Some (Frame (map (fun i => if String.eqb c "linear"
                             then option_map (fun x => Qred (x + inject_Z (Z.of_nat (S i)) * p)%Q) (List.last d None)
                             else Some p) (seq 0 steps)) None).
Definition toy_backtest (c : string) (p : Q) (d : list oQ) (m : unit) : option Q := Some p.
Definition toy_daily := Offset (fun z => z) (fun z => z + 1)%Z.
(** week ends on day 6 of 7 *)
Definition toy_weekly := Offset (fun z => z + (6 - z) mod 7)%Z (fun z => z + 7)%Z.
Definition toy_ms : list (spec Q) := [Spec Q "linear" 1%Q; Spec Q "Prophet" 2%Q; Spec Q "arima" 4%Q].
Definition toy_data : list oQ := [Some 1; Some 2; Some 3]%Q.

Example C47_case :
  (exists a b, wavg_weights Q unit toy_backtest [Spec Q "linear" (1 - eps)%Q; Spec Q "arima" (3 - eps)%Q] toy_data tt
     = Some [("linear", a); ("arima", b)]%string /\ a == 3 # 4 /\ b == 1 # 4)%Q.
Proof. do 2 eexists. split; [vm_compute; reflexivity|]. split; reflexivity. Qed.
Example C48_case : exists fitted, base_fit Q toy_F toy_train toy_ms toy_data = Some fitted /\
  option_map (map (fun r => (fst r, option_map Qred (snd r)))) (median_predict toy_F toy_predict fitted 3 10 (Some toy_daily))
    = Some [(11%Z, Some 4); (12%Z, Some 4); (13%Z, Some 4)]%Q.
Proof. eexists. split; [reflexivity|]. vm_compute. reflexivity. Qed.
Example C95_case :
  median_predict toy_F toy_predict [("a"%string, ("arima"%string, 2%Q, []))] 2 3 (Some toy_weekly) = None /\
  option_map (map (fun r => (fst r, option_map Qred (snd r)))) (median_predict toy_F toy_predict [("a"%string, ("arima"%string, 2%Q, []))] 2 6 (Some toy_weekly)) = Some [(13%Z, Some 2); (20%Z, Some 2)]%Q.
Proof. split; vm_compute; reflexivity. Qed.

Print Assumptions C47_weights.
Print Assumptions C47_forecast.
Print Assumptions C48_median.
Print Assumptions C48_order.
Print Assumptions C95_dates.
Print Assumptions C95_weighted_dates.
Print Assumptions C95_off_calendar_refuted.
