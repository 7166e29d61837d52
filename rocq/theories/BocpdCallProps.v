(** C281 (a whole call of BOCPD) and C282 (its empirical priors). *)
From Verif Require Import Common BocpdModel BocpdProofs BocpdProps BocpdCallModel.
Require Import String Lqa.
Require Import List. Import ListNotations.
Open Scope nat_scope.

(** ** Specification *)
(** the rows with a probability above the threshold, in order *)
Definition rows_above (thr : Q) (l : list Q) : list nat :=
  filter (fun i => if Qlt_le_dec thr (nth i l 0%Q) then true else false) (seq 0 (List.length l)).
(** the values tried: the prior and, for the normal model, the multiplier *)
Definition tried_multiplier (p : params) (a : arm) : Q :=
  match kind p, lookup "known_prec_multiplier" a with NormalKnown, Some v => v | _, _ => multiplier p end.
(** [q] is the posterior predictive of the data for the values [a] *)
Definition score (build : builder) (d : series) (p : params) (a : arm) (q : Q) : Prop :=
  exists h pred, lookup "cp_prior" a = Some h /\ build (kind p) (tried_multiplier p a) false = Some pred /\
    q = fold_right (fun c acc => (posterior_predictive h (pred c) (List.length (times d)) * acc)%Q) 1%Q (seq 0 (List.length (names d))).

(** ** Lemmas *)
Lemma above_where thr l : where_above thr l = rows_above thr l.
Proof.
  unfold where_above, rows_above. apply filter_ext. intros i. destruct (Qlt_le_dec thr (nth i l 0%Q)) as [H|H].
  - destruct (Qle_bool (nth i l 0%Q) thr) eqn:E; [|reflexivity]. apply Qle_bool_iff in E. lra.
  - assert (E : Qle_bool (nth i l 0%Q) thr = true) by (apply Qle_bool_iff; exact H). rewrite E. reflexivity.
Qed.
Lemma detector_shape agg thr h lag pred T o : detector agg thr h lag pred T = Some o ->
  List.length (change_prob o) = T /\ change_points o = rows_above thr (change_prob o).
Proof.
  intros E. rewrite <- above_where. destruct agg.
  - destruct (C45_aggregated thr h lag pred T) as (o' & E' & L & _). rewrite E in E'. injection E' as <-. split; [exact L|].
    unfold detector, construct_output in E. destruct (agg_cppprob T (rt_posterior h pred T)) as (cp, M). injection E as <-. reflexivity.
  - destruct (C45_lagged thr h lag pred T) as [N A].
    destruct (Nat.lt_ge_cases lag T) as [HL|HL]; [|rewrite (N HL) in E; discriminate].
    destruct (A HL) as (o' & E' & L & _). rewrite E in E'. injection E' as <-. split; [exact L|].
    unfold detector, construct_output in E. destruct (Nat.ltb lag T); [|discriminate]. injection E as <-. reflexivity.
Qed.
Lemma all_some_spec {A} (l : list (option A)) r : all_some l = Some r -> l = map Some r.
Proof.
  revert r. induction l as [|[x|] l IH]; intros r E; cbn in E; [injection E as <-; reflexivity| |discriminate].
  destruct (all_some l) as [r'|]; [|discriminate]. injection E as <-. cbn. f_equal. apply IH. reflexivity.
Qed.
Lemma filter_all {A} (f : A -> bool) l : (forall x, In x l -> f x = true) -> filter f l = l.
Proof. induction l as [|x l IH]; intros H; [reflexivity|]. cbn. rewrite H by (left; reflexivity). f_equal. apply IH. intros y I. apply H. right. exact I. Qed.
Lemma filter_none {A} (f : A -> bool) l : (forall x, In x l -> f x = false) -> filter f l = [].
Proof. induction l as [|x l IH]; intros H; [reflexivity|]. cbn. rewrite H by (left; reflexivity). apply IH. intros y I. apply H. right. exact I. Qed.
Lemma concat_by_name d m (l : list (string * output)) n o : NoDup (map fst l) -> In (n, o) l ->
  filter (fun c => String.eqb (series_name c) n) (concat (map (fun no => changes_of d m (fst no) (snd no)) l)) = changes_of d m n o.
Proof.
  assert (NM : forall n' o' c, In c (changes_of d m n' o') -> series_name c = n').
  { intros n' o' c I. unfold changes_of in I. apply in_map_iff in I as (i & <- & _). reflexivity. }
  induction l as [|(n', o') l IH]; intros ND I; [destruct I|]. cbn [map concat fst snd] in *. inversion ND as [|? ? NI ND']; subst.
  rewrite filter_app. destruct I as [E|I].
  - injection E as -> ->. rewrite filter_all by (intros c J; rewrite (NM _ _ _ J); apply String.eqb_refl).
    rewrite filter_none, app_nil_r; [reflexivity|]. intros c J. apply in_concat in J as (k & K & J). apply in_map_iff in K as ((n2, o2) & <- & K).
    cbn in J. rewrite (NM _ _ _ J). apply String.eqb_neq. intros ->. apply NI. apply in_map_iff. exists (n, o2). split; [reflexivity|exact K].
  - rewrite filter_none; [apply IH; assumption|]. intros c J. rewrite (NM _ _ _ J). apply String.eqb_neq. intros ->. apply NI.
    apply in_map_iff. exists (n, o). split; [reflexivity|exact I].
Qed.
Lemma scores_spec f l s : scores f l = Some s -> map fst s = l /\ forall a q, In (a, q) s -> f a = Some q.
Proof.
  revert s. induction l as [|a l IH]; intros s E; cbn in E; [injection E as <-; split; [reflexivity|intros a q []]|].
  destruct (f a) as [q|] eqn:F; [|discriminate]. destruct (scores f l) as [s'|]; [|discriminate]. injection E as <-.
  destruct (IH s' eq_refl) as (M & I). split; [cbn; f_equal; exact M|]. intros b r [J|J]; [injection J as <- <-; exact F|apply I; exact J].
Qed.
Lemma best_spec l x : best l = Some x -> In x l /\ forall y, In y l -> (snd y <= snd x)%Q.
Proof.
  revert x. induction l as [|z l IH]; intros x E; cbn in E; [discriminate|]. destruct (best l) as [y|] eqn:B.
  - destruct (IH y eq_refl) as (I & MX). destruct (Qle_bool (snd y) (snd z)) eqn:C; injection E as <-.
    + apply Qle_bool_iff in C. split; [left; reflexivity|]. intros w [<-|W]; [lra|]. specialize (MX w W). lra.
    + split; [right; exact I|]. intros w [<-|W]; [|apply MX; exact W].
      destruct (Qlt_le_dec (snd z) (snd y)) as [H|H]; [lra|]. apply Qle_bool_iff in H. rewrite H in C. discriminate.
  - injection E as <-. destruct l as [|u l]; [|cbn in B; destruct (best l) as [v|]; [destruct (Qle_bool (snd v) (snd u))|]; discriminate].
    split; [left; reflexivity|]. intros w [<-|[]]. lra.
Qed.
Lemma eval_score build d p a q : eval_fn build d p a = Some q -> score build d p a q /\ 3 < List.length (times d).
Proof.
  unfold eval_fn. destruct (lookup "cp_prior" a) as [h|] eqn:H; [|discriminate]. cbn [kind multiplier set_prior].
  set (k := match kind p with NormalKnown => _ | _ => _ end).
  assert (K : k = tried_multiplier p a) by (unfold k, tried_multiplier, or_else; destruct (kind p); [destruct (lookup _ a)| |]; reflexivity).
  rewrite K. destruct (build (kind p) (tried_multiplier p a) false) as [pred|] eqn:B; [|discriminate].
  destruct (Nat.ltb_spec 3 (List.length (times d))) as [LT|]; [|discriminate]. intros E. injection E as <-. split; [|exact LT].
  exists h, pred. split; [exact H|]. split; [exact B|]. generalize (seq 0 (List.length (names d))). intros s.
  induction s as [|c s IH]; [reflexivity|]. cbn. rewrite IH. reflexivity.
Qed.
Lemma eqb_type_spec a b : eqb_type a b = true -> a = b.
Proof. destruct a, b; cbn; intros; congruence. Qed.

(** ** C281 *)
(** Every series has its probabilities, one per row, and its change points are exactly the rows above
    the threshold, in order, with the time, the probability and the name. *)
Theorem C281_reported : forall build d arms m p lag choose prior thr agg r, NoDup (names d) ->
  call build d arms m p lag choose prior thr agg = Some r ->
  map fst (probs r) = names d /\
  (forall name l, In (name, l) (probs r) -> List.length l = List.length (times d) /\
     filter (fun c => String.eqb (series_name c) name) (changes r) =
     map (fun i => {| at_time := nth i (times d) 0%Z; to_time := nth i (times d) 0%Z; confidence := nth i l 0%Q;
                      by_model := m; series_name := name |}) (rows_above thr l)) /\
  (forall c, In c (changes r) -> In (series_name c) (names d)).
Proof.
  intros build d arms m p lag choose prior thr agg r ND. unfold call.
  destruct (eqb_type (kind p) m); [|discriminate]. cbn [negb].
  destruct (if choose then choose_priors build d arms p else Some (prior, p)) as [(h, p')|]; [|discriminate].
  destruct (negb (univariate d) && negb (is_multivariate m)); [discriminate|].
  destruct (build m (multiplier p') true) as [pred|]; [|discriminate].
  destruct (all_some _) as [os|] eqn:AS; [|discriminate]. intros E. injection E as <-. cbn [probs changes].
  apply all_some_spec in AS.
  assert (LO : List.length os = List.length (names d)) by (apply (f_equal (@List.length _)) in AS; rewrite !map_length, seq_length in AS; lia).
  assert (CF : map fst (combine (names d) os) = names d).
  { clear - LO. revert os LO. induction (names d) as [|n l IH]; intros os LO; destruct os; cbn in *; try discriminate; [reflexivity|]. f_equal. apply IH. lia. }
  assert (ND' : NoDup (map fst (combine (names d) os))) by (rewrite CF; exact ND).
  split; [rewrite map_map; exact CF|]. split.
  - intros name l I. apply in_map_iff in I as ((n, o) & E & I). cbn in E. injection E as <- <-.
    assert (OS : In (Some o) (map Some os)) by (apply in_map; eapply in_combine_r; exact I).
    rewrite <- AS in OS. apply in_map_iff in OS as (c & DE & _). apply detector_shape in DE as (L & CP).
    split; [exact L|]. rewrite (concat_by_name d m _ n o ND' I). unfold changes_of. rewrite CP. reflexivity.
  - intros c I. apply in_concat in I as (k & K & J). apply in_map_iff in K as ((n, o) & <- & K). cbn in J.
    unfold changes_of in J. apply in_map_iff in J as (i & <- & _). cbn. eapply in_combine_l. exact K.
Qed.
(** The probabilities of a series are those of its own column under the run length posterior with the
    prior and the parameters chosen: with aggregation the largest one, over the later rows, that the run
    started at the row; without, the one [lag] rows later. *)
Theorem C281_probabilities : forall build d arms m p lag choose prior thr agg r c n l,
  call build d arms m p lag choose prior thr agg = Some r -> nth_error (probs r) c = Some (n, l) ->
  exists pred, build m (multiplier (after r)) true = Some pred /\
  let T := List.length (times d) in
  let h := if choose then cp_prior (after r) else prior in
  let P := rt_posterior h (pred c) T in
  (agg = false -> lag < T /\ forall i, i < T -> nth i l 0%Q = if Nat.eqb i 0 then 0%Q else if Nat.ltb (i + lag) T then entry P (i + lag) lag else 0%Q) /\
  (agg = true -> (0 < T -> nth 0 l 0%Q = 0%Q) /\ forall i, 1 <= i < T ->
     (forall j, i <= j < T -> (entry P j (j - i) <= nth i l 0)%Q) /\ exists j, i <= j < T /\ nth i l 0%Q = entry P j (j - i)).
Proof.
  intros build d arms m p lag choose prior thr agg r c n l E. unfold call in E.
  destruct (eqb_type (kind p) m); [|discriminate]. cbn [negb] in E.
  destruct (if choose then choose_priors build d arms p else Some (prior, p)) as [(h, p')|] eqn:CP; [|discriminate].
  destruct (negb (univariate d) && negb (is_multivariate m)); [discriminate|].
  destruct (build m (multiplier p') true) as [pred|] eqn:B; [|discriminate].
  destruct (all_some _) as [os|] eqn:AS; [|discriminate]. injection E as <-. cbn [probs after]. intros N. exists pred. split; [exact B|]. cbv zeta.
  assert (H : (if choose then cp_prior p' else prior) = h).
  { destruct choose; [|injection CP as -> _; reflexivity]. unfold choose_priors in CP.
    destruct (scores _ arms) as [s|]; [|destruct (method p); discriminate]. destruct (best s) as [(a, q)|]; [|destruct (method p); discriminate].
    destruct (lookup "cp_prior" a) as [h'|] eqn:LK; [|destruct (method p); discriminate].
    assert (EQ : h' = h /\ set_prior p a = p') by (destruct (method p); [injection CP as -> <-; split; reflexivity|injection CP as -> <-; split; reflexivity|discriminate]).
    destruct EQ as (<- & <-). cbn. rewrite LK. reflexivity. }
  rewrite H. clear H CP. apply all_some_spec in AS.
  rewrite nth_error_map in N. destruct (nth_error (combine (names d) os) c) as [(n', o)|] eqn:NC; [|discriminate]. cbn in N. injection N as <- <-.
  assert (NO : nth_error os c = Some o).
  { clear - NC. revert os c NC. induction (names d) as [|x ns IH]; intros os c NC; destruct os as [|y os], c as [|c]; cbn in NC; try discriminate.
    - injection NC as _ <-. reflexivity.
    - cbn. apply (IH _ _ NC). }
  assert (DE : detector agg thr h lag (pred c) (List.length (times d)) = Some o).
  { assert (M : nth_error (map (fun c => detector agg thr h lag (pred c) (List.length (times d))) (seq 0 (List.length (names d)))) c = Some (Some o)).
    { rewrite AS, nth_error_map, NO. reflexivity. }
    rewrite nth_error_map in M. destruct (nth_error (seq 0 (List.length (names d))) c) as [c'|] eqn:SQ; [|discriminate]. cbn in M.
    assert (c' = c). { assert (c < List.length (seq 0 (List.length (names d)))) by (apply nth_error_Some; congruence). rewrite seq_length in *. apply nth_error_nth with (d := 0) in SQ. rewrite seq_nth in SQ by assumption. lia. }
    subst c'. injection M as M. exact M. }
  split; intros ->.
  - destruct (C45_lagged thr h lag (pred c) (List.length (times d))) as [NN A].
    destruct (Nat.lt_ge_cases lag (List.length (times d))) as [HL|HL]; [|rewrite (NN HL) in DE; discriminate].
    destruct (A HL) as (o' & E' & _ & _ & V). rewrite DE in E'. injection E' as <-. split; [exact HL|exact V].
  - destruct (C45_aggregated thr h lag (pred c) (List.length (times d))) as (o' & E' & _ & _ & Z & V). rewrite DE in E'. injection E' as <-.
    split; [intros P; apply Z; [exact P|reflexivity]|]. intros i (I1 & I2). apply V; assumption.
Qed.
(** With [choose_priors] the call is the one with the best values tried: the values whose posterior
    predictive of the data is largest are put into the caller's parameter object and used. *)
Theorem C281_best : forall build d arms m p lag prior thr agg r,
  call build d arms m p lag true prior thr agg = Some r ->
  exists a h q, In a arms /\ lookup "cp_prior" a = Some h /\ score build d p a q /\
    (forall b, In b arms -> exists q', score build d p b q' /\ (q' <= q)%Q) /\
    kind (after r) = m /\ cp_prior (after r) = h /\ multiplier (after r) = tried_multiplier p a /\
    call build d arms m (after r) lag false h thr agg = Some r.
Proof.
  intros build d arms m p lag prior thr agg r E. unfold call in E.
  destruct (eqb_type (kind p) m) eqn:K; [|discriminate]. cbn [negb] in E.
  destruct (choose_priors build d arms p) as [(h, p')|] eqn:CP; [|discriminate].
  assert (AF : after r = p').
  { destruct (_ && _); [discriminate|]. destruct (build m _ true) as [pred|]; [|discriminate]. destruct (all_some _); [|discriminate]. injection E as <-. reflexivity. }
  unfold choose_priors in CP. destruct (scores _ arms) as [s|] eqn:SC; [|destruct (method p); discriminate].
  destruct (best s) as [(a, q)|] eqn:B; [|destruct (method p); discriminate].
  destruct (lookup "cp_prior" a) as [h'|] eqn:LK; [|destruct (method p); discriminate].
  assert (EQ : h' = h /\ set_prior p a = p') by (destruct (method p); [injection CP as -> <-; split; reflexivity|injection CP as -> <-; split; reflexivity|discriminate]).
  destruct EQ as (-> & SP). apply scores_spec in SC as (MS & SC). apply best_spec in B as (IB & MX).
  exists a, h, q. split; [rewrite <- MS; apply in_map_iff; exists (a, q); split; [reflexivity|exact IB]|]. split; [exact LK|].
  split; [exact (proj1 (eval_score _ _ _ _ _ (SC a q IB)))|]. split.
  - intros b I. rewrite <- MS in I. apply in_map_iff in I as ((b', q') & <- & I). exists q'. split; [exact (proj1 (eval_score _ _ _ _ _ (SC _ _ I)))|exact (MX _ I)].
  - rewrite AF. clear AF. rewrite <- SP in *. clear SP CP. split; [apply eqb_type_spec; exact K|]. split; [cbn; rewrite LK; reflexivity|].
    split; [cbn; unfold tried_multiplier, or_else; destruct (kind p); [destruct (lookup _ a)| |]; reflexivity|].
    unfold call. replace (eqb_type (kind (set_prior p a)) m) with true. exact E.
Qed.
(** By default [changepoint_prior] has no effect; without the search the parameter object's
    [cp_prior] has none. *)
Theorem C281_prior_refuted : forall build d arms m p lag prior prior' thr agg,
  call build d arms m p lag true prior thr agg = call build d arms m p lag true prior' thr agg.
Proof. reflexivity. Qed.
Theorem C281_field_refuted : forall build d arms m p lag prior thr agg c r,
  call build d arms m p lag false prior thr agg = Some r ->
  exists r', call build d arms m {| kind := kind p; cp_prior := c; multiplier := multiplier p; method := method p |} lag false prior thr agg = Some r' /\
    changes r' = changes r /\ probs r' = probs r /\ matrices r' = matrices r.
Proof.
  intros build d arms m p lag prior thr agg c r E. unfold call in *. cbn [kind multiplier].
  destruct (eqb_type (kind p) m); [|discriminate]. cbn [negb] in *. destruct (_ && _); [discriminate|].
  destruct (build m (multiplier p) true) as [pred|]; [|discriminate]. destruct (all_some _) as [os|]; [|discriminate].
  injection E as <-. eexists. split; [reflexivity|]. cbn. repeat split; reflexivity.
Qed.
(** For the trend and the Poisson model, values of other parameters in the search space are never used. *)
Lemma lookup_filter k (a : arm) : lookup k (filter (fun x => String.eqb (fst x) k) a) = lookup k a.
Proof.
  induction a as [|(n, v) a IH]; [reflexivity|]. cbn. destruct (String.eqb n k) eqn:E; [cbn; rewrite E; reflexivity|exact IH].
Qed.
Theorem C281_space_refuted : forall build d arms m p lag prior thr agg, m <> NormalKnown ->
  call build d (map (filter (fun x => String.eqb (fst x) "cp_prior")) arms) m p lag true prior thr agg =
  call build d arms m p lag true prior thr agg.
Proof.
  intros build d arms m p lag prior thr agg NM. unfold call. destruct (eqb_type (kind p) m) eqn:K; [|reflexivity].
  apply eqb_type_spec in K. cbn [negb]. set (f := filter (fun x => String.eqb (fst x) "cp_prior")).
  assert (SP : forall a, set_prior p (f a) = set_prior p a).
  { intros a. unfold set_prior, f. rewrite lookup_filter. rewrite K. destruct m; [contradiction| |]; reflexivity. }
  assert (EV : forall a, eval_fn build d p (f a) = eval_fn build d p a).
  { intros a. unfold eval_fn. rewrite SP. unfold f. rewrite lookup_filter. reflexivity. }
  assert (SC : scores (eval_fn build d p) (map f arms) = option_map (map (fun x => (f (fst x), snd x))) (scores (eval_fn build d p) arms)).
  { induction arms as [|a l IH]; [reflexivity|]. cbn [map scores]. rewrite EV, IH.
    destruct (eval_fn build d p a); [|reflexivity]. destruct (scores _ l); reflexivity. }
  assert (BE : forall s, best (map (fun x => (f (fst x), snd x)) s) = option_map (fun x : arm * Q => (f (fst x), snd x)) (best s)).
  { induction s as [|x s IH]; [reflexivity|]. cbn [map best]. rewrite IH. destruct (best s) as [(ya, yq)|]; [|reflexivity]. destruct x as (xa, xq). cbn [option_map snd fst].
    destruct (Qle_bool yq xq); reflexivity. }
  replace (choose_priors build d (map f arms) p) with (choose_priors build d arms p); [reflexivity|].
  unfold choose_priors. rewrite SC. destruct (scores _ arms) as [s|]; [|reflexivity]. cbn [option_map]. rewrite BE.
  destruct (best s) as [(a, q)|]; [|reflexivity]. cbn [option_map fst snd]. rewrite SP. unfold f at 1 2. rewrite lookup_filter. reflexivity.
Qed.
(** A call ends in an exception when the parameters are of another model; when a search is asked for
    with another search method, with an empty list of values, with at most three points, or for a model that needs [setup()], as the
    trend model does; when the model is not for several series; without aggregation, for a lag of the
    length of the series or more. *)
Theorem C281_raises : forall build d arms m p lag choose prior thr agg,
  (kind p <> m -> call build d arms m p lag choose prior thr agg = None) /\
  (method p = OtherSearch -> call build d arms m p lag true prior thr agg = None) /\
  (arms = [] -> call build d arms m p lag true prior thr agg = None) /\
  (List.length (times d) <= 3 -> call build d arms m p lag true prior thr agg = None) /\
  ((forall mult, build m mult false = None) -> call build d arms m p lag true prior thr agg = None) /\
  (univariate d = false -> m <> NormalKnown -> call build d arms m p lag choose prior thr agg = None) /\
  (List.length (times d) <= lag -> names d <> [] -> call build d arms m p lag choose prior thr false = None).
Proof.
  intros build d arms m p lag choose prior thr agg.
  assert (BEST : forall r, call build d arms m p lag true prior thr agg = Some r ->
    exists a q, In a arms /\ eval_fn build d p a = Some q /\ kind p = m /\ method p <> OtherSearch).
  { intros r E. unfold call in E. destruct (eqb_type (kind p) m) eqn:K; [|discriminate]. cbn [negb] in E. unfold choose_priors in E.
    destruct (scores _ arms) as [s|] eqn:SC; [|destruct (method p); discriminate].
    destruct (best s) as [(a, q)|] eqn:B; [|destruct (method p); discriminate].
    apply scores_spec in SC as (MS & SC). apply best_spec in B as (IB & _). exists a, q.
    split; [rewrite <- MS; apply in_map_iff; exists (a, q); split; [reflexivity|exact IB]|]. split; [apply SC; exact IB|].
    split; [apply eqb_type_spec; exact K|]. intros M. rewrite M in E. discriminate. }
  assert (CON : forall P : Prop, P -> (P -> forall r, call build d arms m p lag true prior thr agg <> Some r) -> call build d arms m p lag true prior thr agg = None).
  { intros P HP H. destruct (call build d arms m p lag true prior thr agg) as [r|] eqn:E; [|reflexivity]. exfalso. exact (H HP r eq_refl). }
  repeat split.
  - intros N. unfold call. destruct (eqb_type (kind p) m) eqn:K; [|reflexivity]. apply eqb_type_spec in K. contradiction.
  - intros M. apply (CON _ M). intros _ r E. destruct (BEST r E) as (_ & _ & _ & _ & _ & H). contradiction.
  - intros M. apply (CON _ M). intros _ r E. destruct (BEST r E) as (a & _ & I & _). rewrite M in I. exact I.
  - intros M. apply (CON _ M). intros _ r E. destruct (BEST r E) as (a & q & _ & EV & _). apply eval_score in EV as (_ & L). lia.
  - intros M. apply (CON _ M). intros _ r E. destruct (BEST r E) as (a & q & _ & EV & KP & _). apply eval_score in EV as ((h & pred & _ & B & _) & _).
    rewrite KP, M in B. discriminate.
  - intros U NM. unfold call. rewrite U. destruct (eqb_type (kind p) m); [|reflexivity]. cbn [negb].
    destruct (if choose then _ else _) as [(h, p')|]; [|reflexivity]. destruct m; [contradiction| |]; reflexivity.
  - intros L NN. unfold call. destruct (eqb_type (kind p) m); [|reflexivity]. cbn [negb].
    destruct (if choose then _ else _) as [(h, p')|]; [|reflexivity]. destruct (_ && _); [reflexivity|].
    destruct (build m _ true) as [pred|]; [|reflexivity]. destruct (names d) as [|n l]; [contradiction|]. cbn [List.length seq map].
    rewrite (proj1 (C45_lagged thr h lag (pred 0) (List.length (times d))) L). reflexivity.
Qed.
(** Grouping keeps every change point once, under its series, in order; a change point of an unknown
    series is an exception. *)
Lemma append_to_spec c g : NoDup (map fst g) ->
  match append_to c g with
  | Some g' => In (series_name c) (map fst g) /\
      g' = map (fun nl => (fst nl, snd nl ++ (if String.eqb (fst nl) (series_name c) then [c] else []))) g
  | None => ~ In (series_name c) (map fst g)
  end.
Proof.
  induction g as [|(n, l) g IH]; intros ND; [intros []|]. inversion ND as [|? ? NI ND']; subst. cbn [append_to map fst snd].
  destruct (String.eqb_spec n (series_name c)) as [->|NE].
  - split; [left; reflexivity|]. f_equal. symmetry. erewrite map_ext_in; [apply map_id|]. intros (n2, l2) I. cbn.
    destruct (String.eqb_spec n2 (series_name c)) as [->|]; [|rewrite app_nil_r; reflexivity]. exfalso. apply NI. apply in_map_iff.
    eexists; split; [|exact I]. reflexivity.
  - specialize (IH ND'). destruct (append_to c g) as [g'|].
    + destruct IH as (I & ->). split; [right; exact I|]. rewrite app_nil_r. reflexivity.
    + intros [I|I]; [contradiction|exact (IH I)].
Qed.
Theorem C281_group : forall d cs, NoDup (names d) ->
  ((exists c, In c cs /\ ~ In (series_name c) (names d)) -> group d cs = None) /\
  ((forall c, In c cs -> In (series_name c) (names d)) ->
   group d cs = Some (map (fun n => (n, filter (fun c => String.eqb n (series_name c)) cs)) (names d))).
Proof.
  intros d cs ND. unfold group.
  assert (NN : forall l, fold_left (fun acc c => match acc with Some g => append_to c g | None => None end) l None = None)
    by (induction l as [|c l IH]; [reflexivity|exact IH]).
  assert (G : forall pre, (forall c, In c pre -> In (series_name c) (names d)) ->
     forall l, ((exists c, In c l /\ ~ In (series_name c) (names d)) ->
       fold_left (fun acc c => match acc with Some g => append_to c g | None => None end) l
         (Some (map (fun n => (n, filter (fun c => String.eqb n (series_name c)) pre)) (names d))) = None) /\
      ((forall c, In c l -> In (series_name c) (names d)) ->
       fold_left (fun acc c => match acc with Some g => append_to c g | None => None end) l
         (Some (map (fun n => (n, filter (fun c => String.eqb n (series_name c)) pre)) (names d))) =
       Some (map (fun n => (n, filter (fun c => String.eqb n (series_name c)) (pre ++ l))) (names d)))).
  { intros pre HP l. revert pre HP. induction l as [|c l IH]; intros pre HP.
    - split; [intros (c & [] & _)|]. intros _. cbn. rewrite app_nil_r. reflexivity.
    - cbn [fold_left]. pose proof (append_to_spec c (map (fun n => (n, filter (fun c => String.eqb n (series_name c)) pre)) (names d))) as A.
      assert (MF : map fst (map (fun n => (n, filter (fun c => String.eqb n (series_name c)) pre)) (names d)) = names d) by (rewrite map_map; apply map_id).
      rewrite MF in A. specialize (A ND). destruct (append_to c _) as [g'|].
      + destruct A as (I & ->). rewrite map_map. cbn [fst snd].
        replace (map (fun n => (n, filter (fun c0 => String.eqb n (series_name c0)) pre ++ (if String.eqb n (series_name c) then [c] else []))) (names d))
          with (map (fun n => (n, filter (fun c0 => String.eqb n (series_name c0)) (pre ++ [c]))) (names d))
          by (apply map_ext; intros n; rewrite filter_app; cbn; destruct (String.eqb n (series_name c)); reflexivity).
        assert (HP' : forall c0, In c0 (pre ++ [c]) -> In (series_name c0) (names d)).
        { intros c0 J. apply in_app_iff in J as [J|[<-|[]]]; [apply HP; exact J|exact I]. }
        destruct (IH (pre ++ [c]) HP') as (B1 & B2). split.
        * intros (b & [<-|J] & NB); [contradiction|]. apply B1. exists b. split; assumption.
        * intros AL. rewrite B2 by (intros b J; apply AL; right; exact J). rewrite <- app_assoc. reflexivity.
      + split; [intros _; apply NN|]. intros AL. exfalso. apply A. apply AL. left. reflexivity. }
  apply (G [] (fun c (F : In c []) => match F with end) cs).
Qed.

(** a search over three values on five points, with the best one used *)
Definition case_build : builder := fun m mult ready => match m, ready with TrendChange, false => None | _, _ => Some (fun c t k => (jump t k * mult)%Q) end.
Definition case_series : series := {| names := ["x"%string]; times := [10; 20; 30; 40; 50]%Z; univariate := true |}.
Definition case_params : params := {| kind := NormalKnown; cp_prior := 1 # 10; multiplier := 1; method := Random |}.
Definition case_arms : list arm :=
  [[("known_prec_multiplier"%string, 1%Q); ("cp_prior"%string, 1 # 100)];
   [("known_prec_multiplier"%string, 2%Q); ("cp_prior"%string, 1 # 20)];
   [("known_prec_multiplier"%string, 2%Q); ("cp_prior"%string, 1 # 100)]].
Example C281_case :
  option_map (fun r => (map at_time (changes r), map series_name (changes r), cp_prior (after r), multiplier (after r)))
    (call case_build case_series case_arms NormalKnown case_params 2 true (1 # 2) (1 # 10) true) = Some ([30%Z], ["x"%string], (1 # 20)%Q, 2%Q) /\
  call case_build case_series case_arms TrendChange {| kind := TrendChange; cp_prior := 1 # 10; multiplier := 1; method := Random |} 2 true (1 # 2) (1 # 10) true = None.
Proof. split; vm_compute; reflexivity. Qed.

(** ** C282 *)
(** sum of squared deviations from a value *)
Definition sumsq (c : Q) (l : list Q) : Q := fold_right (fun x s => ((x - c) * (x - c) + s)%Q) 0%Q l.
Definition total (l : list Q) : Q := fold_right Qplus 0%Q l.
Definition size (l : list Q) : Q := inject_Z (Z.of_nat (List.length l)).
Definition constant (l : list Q) : Prop := exists c, forall x, In x l -> (x == c)%Q.
(** ten consecutive values *)
Definition window (l : list Q) (i : nat) : list Q := firstn 10 (skipn i l).

Lemma total_qsum l : qsum l = total l.
Proof. induction l as [|x l IH]; [reflexivity|]. cbn. rewrite IH. reflexivity. Qed.
Lemma sumsq_qsum c l : qsum (map (fun x => (x - c) * (x - c))%Q l) = sumsq c l.
Proof. induction l as [|x l IH]; [reflexivity|]. cbn. rewrite IH. reflexivity. Qed.
Lemma size_pos l : l <> [] -> (0 < size l)%Q.
Proof. intros H. destruct l; [contradiction|]. unfold size. cbn [List.length]. unfold Qlt. cbn. lia. Qed.
Lemma sq_nonneg x : (0 <= x * x)%Q.
Proof. destruct (Qlt_le_dec x 0) as [H|H]; [setoid_replace (x * x)%Q with ((- x) * (- x))%Q by ring|]; apply Qmult_le_0_compat; lra. Qed.
Lemma sumsq_nonneg c l : (0 <= sumsq c l)%Q.
Proof. induction l as [|x l IH]; cbn; [lra|]. pose proof (sq_nonneg (x - c)). fold (sumsq c l). lra. Qed.
Lemma sumsq_zero c l : (sumsq c l == 0)%Q <-> forall x, In x l -> (x == c)%Q.
Proof.
  induction l as [|y l IH]; [split; [intros _ x []|reflexivity]|]. cbn. fold (sumsq c l). pose proof (sumsq_nonneg c l) as NN.
  assert (P : (0 <= (y - c) * (y - c))%Q) by apply sq_nonneg. split.
  - intros Z x [<-|I]; [|apply IH; [lra|exact I]]. assert (Y : ((y - c) * (y - c) == 0)%Q) by lra. apply Qmult_integral in Y as [Y|Y]; lra.
  - intros H. rewrite (proj2 IH) by (intros x I; apply H; right; exact I). rewrite (H y (or_introl eq_refl)). ring.
Qed.
Lemma qmean_total l : l <> [] -> (qmean l * size l == total l)%Q.
Proof. intros H. unfold qmean. rewrite total_qsum. fold (size l). pose proof (size_pos l H). field. intros Z. lra. Qed.
Lemma qmean_eq l c : l <> [] -> (total l == c * size l)%Q -> (qmean l == c)%Q.
Proof. intros H E. pose proof (size_pos l H). unfold qmean. rewrite total_qsum, E. fold (size l). field. intros Z. lra. Qed.
Lemma total_const l c : (forall x, In x l -> (x == c)%Q) -> (total l == c * size l)%Q.
Proof.
  induction l as [|x l IH]; intros H; [cbn; unfold size; cbn; ring|]. cbn [total fold_right]. fold (total l).
  rewrite IH by (intros y I; apply H; right; exact I). assert (E : (x == c)%Q) by (apply H; left; reflexivity). unfold size. cbn [List.length].
  rewrite Nat2Z.inj_succ, <- Z.add_1_l, inject_Z_plus. change (inject_Z 1) with 1%Q. lra.
Qed.
Lemma qvar_sumsq l : 2 <= List.length l -> (qvar l * inject_Z (Z.of_nat (List.length l - 1)) == sumsq (qmean l) l)%Q.
Proof.
  intros L. unfold qvar. rewrite sumsq_qsum. set (k := inject_Z _). assert (0 < k)%Q. { unfold k, Qlt. cbn. lia. } field. intros Z. lra.
Qed.
Lemma qvar_nonneg l : 2 <= List.length l -> (0 <= qvar l)%Q.
Proof.
  intros L. pose proof (qvar_sumsq l L) as E. pose proof (sumsq_nonneg (qmean l) l). set (k := inject_Z _) in E. assert (0 < k)%Q. { unfold k, Qlt. cbn. lia. } nra.
Qed.
Lemma qvar_zero l : 2 <= List.length l -> (qvar l == 0)%Q <-> constant l.
Proof.
  intros L. pose proof (qvar_sumsq l L) as E. set (k := inject_Z _) in E. assert (K : (0 < k)%Q) by (unfold k, Qlt; cbn; lia).
  assert (NN : l <> []) by (intros ->; cbn in L; lia). split.
  - intros Z. rewrite Z in E. exists (qmean l). apply sumsq_zero. lra.
  - intros (c & H). assert (ME : (qmean l == c)%Q) by (apply qmean_eq; [exact NN|apply total_const; exact H]).
    assert (SZ : (sumsq (qmean l) l == 0)%Q) by (apply sumsq_zero; intros x I; rewrite ME; apply H; exact I).
    rewrite SZ in E. apply Qmult_integral in E as [E|E]; [exact E|lra].
Qed.
Lemma window_length l i : i + 10 <= List.length l -> List.length (window l i) = 10.
Proof. intros H. unfold window. rewrite firstn_length, skipn_length. lia. Qed.
Lemma windows_length l : List.length (windows l) = List.length l - 9.
Proof. unfold windows. rewrite map_length, seq_length. reflexivity. Qed.
Lemma qsum_zero l : (forall x, In x l -> 0 <= x)%Q -> (qsum l == 0)%Q -> forall x, In x l -> (x == 0)%Q.
Proof.
  induction l as [|y l IH]; intros P Z x I; [destruct I|]. cbn in Z. pose proof (qsum_nonneg l (fun x I => P x (or_intror I))).
  pose proof (P y (or_introl eq_refl)). destruct I as [<-|I]; [lra|]. apply IH; [intros z J; apply P; right; exact J|lra|exact I].
Qed.
Lemma windows_zero l : 10 <= List.length l -> (qmean (windows l) == 0)%Q <-> constant l.
Proof.
  intros L. assert (WN : windows l <> []) by (intros E; apply (f_equal (@List.length _)) in E; rewrite windows_length in E; cbn in E; lia).
  pose proof (qmean_total (windows l) WN) as MT. rewrite <- total_qsum in MT. split.
  - intros Z. rewrite Z in MT. assert (QZ : (qsum (windows l) == 0)%Q) by lra.
    assert (WZ : forall i, i + 10 <= List.length l -> constant (window l i)).
    { intros i H. apply qvar_zero; [rewrite window_length; lia|]. apply (qsum_zero (windows l)); [|exact QZ|].
      - intros x I. unfold windows in I. apply in_map_iff in I as (j & <- & J). apply in_seq in J. fold (window l j). apply qvar_nonneg. rewrite (window_length l j); lia.
      - unfold windows. apply in_map_iff. exists i. split; [reflexivity|]. apply in_seq. lia. }
    exists (nth 0 l 0%Q). intros x I. apply (In_nth l x 0%Q) in I as (n & N & <-).
    induction n as [|n IH]; [reflexivity|]. rewrite <- IH by lia. clear IH.
    (* rows n and n+1 lie in one window *)
    set (i := Nat.min n (List.length l - 10)). destruct (WZ i) as (c & C); [unfold i; lia|].
    assert (IN : forall k, i <= k < i + 10 -> k < List.length l -> (nth k l 0%Q == c)%Q).
    { intros k K KL. apply C. unfold window. replace (nth k l 0%Q) with (nth (k - i) (firstn 10 (skipn i l)) 0%Q).
      - apply nth_In. rewrite firstn_length, skipn_length. lia.
      - rewrite <- (firstn_skipn i l) at 2. rewrite app_nth2; rewrite firstn_length; [|lia].
        replace (k - Nat.min i (List.length l)) with (k - i) by lia. rewrite <- (firstn_skipn 10 (skipn i l)) at 2.
        rewrite app_nth1; [reflexivity|]. rewrite firstn_length, skipn_length. lia. }
    rewrite (IN n), (IN (Datatypes.S n)); [reflexivity|unfold i; lia|lia|unfold i; lia|lia].
  - intros (c & C). assert (QZ : (qsum (windows l) == 0)%Q).
    { assert (AL : forall x, In x (windows l) -> (x == 0)%Q).
      { intros x I. unfold windows in I. apply in_map_iff in I as (j & <- & J). apply in_seq in J. fold (window l j); apply qvar_zero; [rewrite (window_length l j); lia|].
        exists c. intros y Y. apply C. unfold window in Y. rewrite <- (firstn_skipn j l). apply in_or_app. right.
        rewrite <- (firstn_skipn 10 (skipn j l)). apply in_or_app. left. exact Y. }
      revert AL. generalize (windows l). intros w. induction w as [|x w IH]; intros AL; [reflexivity|]. cbn.
      rewrite IH by (intros y I; apply AL; right; exact I). rewrite (AL x (or_introl eq_refl)). reflexivity. }
    apply qmean_eq; [exact WN|]. rewrite <- total_qsum, QZ. ring.
Qed.
(** Priors are found exactly for the series of ten points or more that are not constant. *)
Theorem C282_when : forall mult l, empirical mult l <> None <-> 10 <= List.length l /\ ~ constant l.
Proof.
  intros mult l. unfold empirical. destruct (Nat.ltb_spec (List.length l) 10) as [S|L]; [split; [congruence|lia]|].
  assert (L2 : 2 <= List.length l) by lia. unfold qinv. split.
  - destruct (Qeq_bool (qvar l) 0) eqn:E; [congruence|]. intros _. split; [exact L|]. intros C. apply (qvar_zero l L2) in C. apply Qeq_bool_neq in E. contradiction.
  - intros (_ & NC). destruct (Qeq_bool (qvar l) 0) eqn:E; [apply Qeq_bool_iff, (qvar_zero l L2) in E; contradiction|].
    destruct (Qeq_bool (qmean (windows l)) 0) eqn:E2; [apply Qeq_bool_iff, (windows_zero l L) in E2; contradiction|]. congruence.
Qed.
(** The mean is that of the data; the precision of the mean is the inverse of the sample variance;
    the precision of the data is the multiplier over the average sample variance of the windows of ten
    consecutive points. *)
Theorem C282_values : forall mult l m l0 lv, empirical mult l = Some (m, l0, lv) ->
  (m * size l == total l)%Q /\ (l0 * sumsq m l == size l - 1)%Q /\ (0 < l0)%Q /\
  exists ms, List.length ms = List.length l - 9 /\
    (forall i, i < List.length ms -> (nth i ms 0 * 10 == total (window l i))%Q) /\
    (lv * fold_right (fun i s => (sumsq (nth i ms 0) (window l i) + s)%Q) 0%Q (seq 0 (List.length ms)) == mult * 9 * (size l - 9))%Q.
Proof.
  intros mult l m l0 lv E. assert (NE : empirical mult l <> None) by congruence. apply C282_when in NE as (L & NC).
  assert (L2 : 2 <= List.length l) by lia. assert (LN : l <> []) by (intros ->; cbn in L; lia).
  unfold empirical in E. destruct (Nat.ltb_spec (List.length l) 10) as [|_]; [lia|]. unfold qinv in E.
  destruct (Qeq_bool (qvar l) 0) eqn:V; [discriminate|]. destruct (Qeq_bool (qmean (windows l)) 0) eqn:W; [discriminate|].
  apply Qeq_bool_neq in V, W. injection E as <- <- <-.
  split; [apply qmean_total; exact LN|]. pose proof (qvar_sumsq l L2) as VS. pose proof (qvar_nonneg l L2) as VN.
  assert (VP : (0 < qvar l)%Q) by (destruct (Qlt_le_dec 0 (qvar l)) as [H|H]; [exact H|exfalso; apply V; lra]).
  split; [|split; [apply Qlt_shift_div_l; lra|]].
  - rewrite <- VS. replace (inject_Z (Z.of_nat (List.length l - 1))) with (inject_Z (Z.of_nat (List.length l) - 1)) by (f_equal; lia).
    unfold size, Z.sub. rewrite inject_Z_plus. change (inject_Z (- (1))) with (-1)%Q. field. exact V.
  - exists (map (fun i => qmean (window l i)) (seq 0 (List.length l - 9))). rewrite map_length, seq_length. split; [reflexivity|].
    assert (NTH : forall i, i < List.length l - 9 -> nth i (map (fun i => qmean (window l i)) (seq 0 (List.length l - 9))) 0%Q = qmean (window l i)).
    { intros i H. rewrite (nth_indep _ 0%Q (qmean (window l 0))) by (rewrite map_length, seq_length; exact H).
      rewrite (map_nth (fun i => qmean (window l i))), seq_nth by exact H. reflexivity. }
    split.
    + intros i H. rewrite NTH by exact H. rewrite <- qmean_total; [|intros Z; apply (f_equal (@List.length _)) in Z; rewrite window_length in Z; cbn in Z; lia].
      unfold size. rewrite window_length by lia. reflexivity.
    + assert (SE : (fold_right (fun i s => (sumsq (nth i (map (fun i => qmean (window l i)) (seq 0 (List.length l - 9))) 0) (window l i) + s)%Q) 0%Q (seq 0 (List.length l - 9))
                    == 9 * qsum (windows l))%Q).
      { unfold windows. assert (G : forall s, (forall i, In i s -> i < List.length l - 9) ->
          (fold_right (fun i s => (sumsq (nth i (map (fun i => qmean (window l i)) (seq 0 (List.length l - 9))) 0) (window l i) + s)%Q) 0%Q s
           == 9 * qsum (map (fun i => qvar (firstn 10 (skipn i l))) s))%Q).
        { induction s as [|i s IH]; intros H; [cbn; ring|]. cbn [fold_right map qsum]. rewrite IH by (intros j J; apply H; right; exact J).
          assert (I : i < List.length l - 9) by (apply H; left; reflexivity). rewrite NTH by exact I. fold (window l i).
          pose proof (qvar_sumsq (window l i)) as Q. rewrite window_length in Q by lia. rewrite <- Q by lia. cbn. ring. }
        apply G. intros i I. apply in_seq in I. lia. }
      rewrite SE. assert (WN : windows l <> []) by (intros Z; apply (f_equal (@List.length _)) in Z; rewrite windows_length in Z; cbn in Z; lia).
      pose proof (qmean_total (windows l) WN) as MT. rewrite <- total_qsum in MT. rewrite <- MT.
      assert (SZ : (size (windows l) == size l - 9)%Q).
      { unfold size. rewrite windows_length. replace (Z.of_nat (List.length l - 9)) with (Z.of_nat (List.length l) - 9)%Z by lia. unfold Z.sub. rewrite inject_Z_plus. rewrite inject_Z_opp. change (inject_Z 9) with 9%Q. ring. }
      rewrite SZ. field. exact W.
Qed.
(** The priors follow the units of the data: values [c] times as large, moved by [b], have the mean
    moved in the same way and precisions divided by the square of [c]. *)
Lemma total_affine c b l : (total (map (fun x => c * x + b) l) == c * total l + b * size l)%Q.
Proof.
  induction l as [|x l IH]; [cbn; unfold size; cbn; ring|]. cbn [map total fold_right]. fold (total (map (fun x => c * x + b)%Q l)) (total l). rewrite IH.
  unfold size. cbn [List.length]. rewrite Nat2Z.inj_succ, <- Z.add_1_l, inject_Z_plus. ring.
Qed.
Lemma sumsq_ext c c' l : (c == c')%Q -> (sumsq c l == sumsq c' l)%Q.
Proof. intros E. induction l as [|x l IH]; [reflexivity|]. cbn. fold (sumsq c l) (sumsq c' l). rewrite IH, E. reflexivity. Qed.
Lemma sumsq_affine c b m l : (sumsq (c * m + b) (map (fun x => c * x + b)%Q l) == c * c * sumsq m l)%Q.
Proof.
  induction l as [|x l IH]; [cbn; ring|]. cbn [map sumsq fold_right]. fold (sumsq (c * m + b) (map (fun x => c * x + b)%Q l)) (sumsq m l). rewrite IH. ring.
Qed.
Lemma qmean_affine c b l : l <> [] -> (qmean (map (fun x => c * x + b) l) == c * qmean l + b)%Q.
Proof.
  intros H. apply qmean_eq; [intros E; apply H; apply map_eq_nil in E; exact E|]. rewrite total_affine. unfold size. rewrite map_length. fold (size l).
  rewrite <- (qmean_total l H). ring.
Qed.
Lemma qvar_affine c b l : 2 <= List.length l -> (qvar (map (fun x => c * x + b) l) == c * c * qvar l)%Q.
Proof.
  intros L. assert (H : l <> []) by (intros ->; cbn in L; lia).
  pose proof (qvar_sumsq l L) as E. pose proof (qvar_sumsq (map (fun x => c * x + b)%Q l)) as E'. rewrite map_length in E'. specialize (E' L).
  rewrite (sumsq_ext _ _ _ (qmean_affine c b l H)), sumsq_affine, <- E in E'. set (k := inject_Z _) in *.
  assert (K : (0 < k)%Q) by (unfold k, Qlt; cbn; lia).
  assert (K0 : ~ (k == 0)%Q) by lra. apply (Qmult_inj_r _ _ k K0). rewrite E'. ring.
Qed.
Theorem C282_units : forall mult l c b m l0 lv, ~ (c == 0)%Q -> empirical mult l = Some (m, l0, lv) ->
  exists m' l0' lv', empirical mult (map (fun x => (c * x + b)%Q) l) = Some (m', l0', lv') /\
    (m' == c * m + b)%Q /\ (l0' == l0 / (c * c))%Q /\ (lv' == lv / (c * c))%Q.
Proof.
  intros mult l c b m l0 lv C E. assert (NE : empirical mult l <> None) by congruence. apply C282_when in NE as (L & NC).
  assert (L2 : 2 <= List.length l) by lia. assert (LN : l <> []) by (intros ->; cbn in L; lia).
  assert (CC : ~ (c * c == 0)%Q) by (intros Z; apply Qmult_integral in Z as [Z|Z]; contradiction).
  unfold empirical in *. rewrite map_length. destruct (Nat.ltb_spec (List.length l) 10) as [|_]; [lia|]. unfold qinv in *.
  destruct (Qeq_bool (qvar l) 0) eqn:V; [discriminate|]. destruct (Qeq_bool (qmean (windows l)) 0) eqn:W; [discriminate|].
  apply Qeq_bool_neq in V, W. injection E as <- <- <-. pose proof (qvar_affine c b l L2) as VA.
  assert (WN : windows l <> []) by (intros Z; apply (f_equal (@List.length _)) in Z; rewrite windows_length in Z; cbn in Z; lia).
  assert (WA : (qmean (windows (map (fun x => c * x + b) l)) == c * c * qmean (windows l))%Q).
  { unfold qmean. rewrite !windows_length, map_length.
    assert (QS : (qsum (windows (map (fun x => c * x + b) l)) == c * c * qsum (windows l))%Q).
    { unfold windows. rewrite map_length. assert (G : forall s, (forall i, In i s -> i < List.length l - 9) ->
        (qsum (map (fun i => qvar (firstn 10 (skipn i (map (fun x => c * x + b) l)))) s) == c * c * qsum (map (fun i => qvar (firstn 10 (skipn i l))) s))%Q).
      { induction s as [|i s IH]; intros H; [cbn; ring|]. cbn [map qsum]. rewrite IH by (intros j J; apply H; right; exact J).
        assert (I : i < List.length l - 9) by (apply H; left; reflexivity).
        assert (SK : skipn i (map (fun x => c * x + b)%Q l) = map (fun x => c * x + b)%Q (skipn i l)).
        { clear. revert i. induction l as [|x l IH]; intros i; destruct i; cbn; auto. }
        rewrite SK, firstn_map, qvar_affine; [ring|]. fold (window l i). rewrite window_length; lia. }
      apply G. intros i I. apply in_seq in I. lia. }
    rewrite QS. field. intros Z. assert (0 < inject_Z (Z.of_nat (List.length l - 9)))%Q by (unfold Qlt; cbn; lia). lra. }
  destruct (Qeq_bool (qvar (map (fun x => c * x + b)%Q l)) 0) eqn:V'.
  { apply Qeq_bool_iff in V'. rewrite VA in V'. apply Qmult_integral in V' as [Z|Z]; contradiction. }
  destruct (Qeq_bool (qmean (windows (map (fun x => c * x + b)%Q l))) 0) eqn:W'.
  { apply Qeq_bool_iff in W'. rewrite WA in W'. apply Qmult_integral in W' as [Z|Z]; contradiction. }
  do 3 eexists. split; [reflexivity|]. split; [apply qmean_affine; exact LN|]. rewrite VA, WA. split; field; split; assumption.
Qed.
Example C282_case :
  match empirical 2 (map inject_Z [1; 2; 3; 4; 5; 6; 7; 8; 9; 10; 12]%Z) with
  | Some (m, l0, lv) => (m == 67 # 11)%Q /\ (0 < l0)%Q /\ (0 < lv)%Q
  | None => False
  end.
Proof. vm_compute. repeat split; reflexivity. Qed.

Print Assumptions C281_reported.
Print Assumptions C281_best.
Print Assumptions C281_prior_refuted.
Print Assumptions C281_field_refuted.
Print Assumptions C281_space_refuted.
Print Assumptions C281_raises.
Print Assumptions C281_group.
Print Assumptions C282_when.
Print Assumptions C282_values.
Print Assumptions C282_units.

Print Assumptions C281_probabilities.
