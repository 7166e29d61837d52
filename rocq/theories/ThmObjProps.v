(** C304 (making and fitting a temporal hierarchy) and C305 (its validation by medians). *)
From Verif Require Import Common MetricsModel MetricsSpec MedianSpec MedianProofs HeuristicModel HeuristicSpec HeuristicProps ThmModel ThmProps ThmObjModel.
Require Import String Lqa Permutation Sorted.
Require Import List. Import ListNotations.
Open Scope nat_scope.

(** ** Specification *)
(** forecasts or residuals are given: an array that is not empty *)
Definition supplied (o : option (list Q)) : Prop := exists x t, o = Some (x :: t).
(** the model of a level after fitting, and what was supplied for it *)
Definition model_at (o : obj) (k : nat) : option (option fitted) := match models o with Some ms => entry_of k ms | None => None end.
(** the residuals handed out: their list by level *)
Definition residuals_now (o : obj) : option (list (nat * list Q)) := option_map fst (get_all_residuals o).

(** ** Lemmas *)
Lemma missing_spec o : missing o = false <-> supplied o.
Proof.
  unfold supplied. destruct o as [[|x t]|]; cbn; split; intros H; try discriminate; try reflexivity.
  - destruct H as (x & t & H). discriminate H.
  - exists x, t. reflexivity.
  - destruct H as (x & t & H). discriminate H.
Qed.
Lemma mem_spec x l : mem x l = true <-> In x l.
Proof.
  unfold mem. rewrite existsb_exists. split; [intros (y & I & E); apply String.eqb_eq in E; subst; exact I|intros I; exists x; split; [exact I|apply String.eqb_refl]].
Qed.
Lemma nat_in x l : existsb (Nat.eqb x) l = true <-> In x l.
Proof.
  rewrite existsb_exists. split; [intros (y & I & E); apply Nat.eqb_eq in E; subst; exact I|intros I; exists x; split; [exact I|apply Nat.eqb_refl]].
Qed.
Lemma no_repeats_spec l : no_repeats l = true <-> NoDup l.
Proof.
  induction l as [|x t IH]; cbn; [split; [constructor|reflexivity]|]. rewrite andb_true_iff, negb_true_iff, IH. split.
  - intros (N & D). constructor; [|exact D]. intros I. apply nat_in in I. congruence.
  - intros D. inversion D as [|? ? N D']; subst. split; [|exact D']. destruct (existsb (Nat.eqb x) t) eqn:E; [|reflexivity]. apply nat_in in E. contradiction.
Qed.
Lemma insert_perm x l : Permutation (x :: l) (insert x l).
Proof. induction l as [|y t IH]; [reflexivity|]. cbn. destruct (Nat.leb y x); [reflexivity|]. rewrite perm_swap. apply perm_skip. exact IH. Qed.
Lemma sort_down_perm l : Permutation l (sort_down l).
Proof. induction l as [|x t IH]; [constructor|]. cbn. rewrite IH at 1. apply insert_perm. Qed.
Lemma insert_sorted x l : StronglySorted ge l -> StronglySorted ge (insert x l).
Proof.
  induction 1 as [|y t S IH F]; [repeat constructor|]. cbn. destruct (Nat.leb_spec y x) as [H|H].
  - constructor; [constructor; assumption|]. constructor; [lia|]. eapply Forall_impl; [|exact F]. cbn. intros. lia.
  - constructor; [exact IH|]. rewrite Forall_forall in *. intros z I. apply (Permutation_in z (Permutation_sym (insert_perm x t))) in I. destruct I as [<-|I]; [lia|apply F; exact I].
Qed.
Lemma sort_down_sorted l : StronglySorted ge (sort_down l).
Proof. induction l as [|x t IH]; [constructor|]. cbn. apply insert_sorted. exact IH. Qed.
Lemma strictly_down l : StronglySorted ge l -> NoDup l -> StronglySorted gt l.
Proof.
  induction 1 as [|x t S IH F]; intros D; [constructor|]. inversion D as [|? ? N D']; subst. constructor; [apply IH; exact D'|].
  rewrite Forall_forall in *. intros y I. specialize (F y I). assert (y <> x) by (intros ->; contradiction). lia.
Qed.
Lemma all_some_map {A B} (f : A -> option B) l r : all_some (map f l) = Some r -> Forall2 (fun x y => f x = Some y) l r.
Proof.
  revert r. induction l as [|x l IH]; intros r E; cbn in E; [injection E as <-; constructor|].
  destruct (f x) as [y|] eqn:F; [|discriminate]. destruct (all_some (map f l)) as [s|]; [|discriminate]. injection E as <-. constructor; [exact F|apply IH; reflexivity].
Qed.
Lemma all_some_ok {A B} (f : A -> option B) l : all_some (map f l) <> None <-> forall x, In x l -> f x <> None.
Proof.
  induction l as [|x l IH]; cbn; [split; [intros _ y []|discriminate]|]. destruct (f x) as [y|] eqn:F.
  - destruct (all_some (map f l)) as [s|].
    + split; [|discriminate]. intros _ z [<-|I]; [congruence|]. apply (proj1 IH ltac:(discriminate) z I).
    + split; [intros H; destruct (H eq_refl)|]. intros H. exfalso. apply (proj2 IH); [|reflexivity]. intros z I. apply H. right. exact I.
  - split; [intros H; destruct (H eq_refl)|]. intros H. exfalso. apply (H x (or_introl eq_refl)). exact F.
Qed.
Lemma series_ok d k : 1 <= k -> (series_of d k <> None <-> k <= List.length d \/ k = 1).
Proof.
  intros K. unfold series_of, agg_values, agg_times. rewrite !map_length. destruct (Nat.eqb_spec k 1) as [->|N]; [split; [right; reflexivity|discriminate]|].
  destruct (Nat.ltb_spec (List.length d) k) as [L|L]; split; intros H; [destruct (H eq_refl)|lia|left; exact L|discriminate].
Qed.
Lemma find_forall2 {A B} (f : A -> option (nat * B)) g l r : (forall x k y, f x = Some (k, y) -> k = g x) -> Forall2 (fun x y => f x = Some y) l r ->
  NoDup (map g l) -> forall x, In x l -> exists y, f x = Some (g x, y) /\ entry_of (g x) r = Some y.
Proof.
  intros K. induction 1 as [|x (k, y) l r E F2 IH]; intros D z I; [destruct I|]. cbn in D. inversion D as [|? ? N D']; subst.
  pose proof (K _ _ _ E) as ->. destruct I as [<-|I].
  - exists y. split; [exact E|]. cbn. rewrite Nat.eqb_refl. reflexivity.
  - destruct (IH D' z I) as (y' & E' & FI). exists y'. split; [exact E'|]. cbn. destruct (Nat.eqb_spec (g x) (g z)) as [Q0|_]; [|exact FI].
    exfalso. apply N. rewrite Q0. apply in_map. exact I.
Qed.
Lemma fit_base_level train d b k y : fit_base train d b = Some (k, y) -> k = level b.
Proof.
  unfold fit_base. destruct (name b) as [n|]; [|intros E; injection E as <- _; reflexivity]. destruct (mem n supported); [|discriminate].
  destruct (series_of d (level b)); [|discriminate]. destruct (train n l) as [(r, h)|]; [|discriminate]. intros E; injection E as <- _; reflexivity.
Qed.

(** ** C304 *)
(** A base model is accepted exactly for a positive level with residuals and forecasts, or with a supported name and
    parameters; it is then what was given. *)
Theorem C304_base : forall lv n has_params res fc,
  (make_base lv n has_params res fc <> None <->
   (1 <= lv)%Z /\ ((supplied res /\ supplied fc) \/ (has_params = true /\ exists s, n = Some s /\ In s supported))) /\
  (forall b, make_base lv n has_params res fc = Some b -> level b = Z.to_nat lv /\ name b = n /\ residuals b = res /\ fcsts b = fc).
Proof.
  intros lv n hp res fc. unfold make_base. destruct (Z.ltb_spec lv 1) as [L|L]; [split; [split; [intros H; destruct (H eq_refl)|intros (H & _); lia]|discriminate]|].
  assert (TS : forall s, In s supported -> truthy (Some s) = true).
  { intros s I. cbn. apply negb_true_iff, String.eqb_neq. intros ->. repeat destruct I as [I|I]; try discriminate I. destruct I. }
  destruct (missing res || missing fc) eqn:M.
  - assert (NM : ~ (supplied res /\ supplied fc)) by (intros (A & B); apply missing_spec in A, B; rewrite A, B in M; discriminate).
    destruct n as [s|]; cbn [truthy].
    + destruct (mem s supported) eqn:ME; destruct hp; cbn [negb orb].
      * pose proof (TS s (proj1 (mem_spec _ _) ME)) as T. cbn [truthy] in T. rewrite T. cbn [negb orb]. split; [|intros b E; injection E as <-; repeat split].
        split; [|discriminate]. intros _. split; [exact L|]. right. split; [reflexivity|]. exists s. split; [reflexivity|exact (proj1 (mem_spec s supported) ME)].
      * rewrite orb_true_r. split; [|discriminate]. split; [intros H; destruct (H eq_refl)|]. intros (_ & [H|(H & _)]); [contradiction|discriminate].
      * split; [|destruct (negb (negb (s =? "")%string) || false); discriminate].
        split; [destruct (negb (negb (s =? "")%string) || false); intros H; destruct (H eq_refl)|].
        intros (_ & [H|(_ & s' & E & I)]); [contradiction|]. injection E as <-. apply mem_spec in I. congruence.
      * rewrite orb_true_r. split; [|discriminate]. split; [intros H; destruct (H eq_refl)|]. intros (_ & [H|(H & _)]); [contradiction|discriminate].
    + cbn. split; [|discriminate]. split; [intros H; destruct (H eq_refl)|]. intros (_ & [H|(_ & s & E & _)]); [contradiction|discriminate].
  - apply orb_false_iff in M as (A & B). split; [|intros b E; injection E as <-; repeat split]. split; [|discriminate]. intros _. split; [exact L|]. left.
    split; apply missing_spec; assumption.
Qed.
(** A hierarchy is accepted exactly for a univariate series and distinct levels with level 1 among them; it then has
    the levels from the highest to the lowest, and nothing is fitted. *)
Theorem C304_construct : forall uni d bs,
  (construct uni d bs <> None <-> uni = true /\ In 1 (map level bs) /\ NoDup (map level bs)) /\
  (forall o, construct uni d bs = Some o -> data o = d /\ bases o = bs /\ StronglySorted gt (levels o) /\
     Permutation (levels o) (map level bs) /\ models o = None /\ residuals_now o = None).
Proof.
  intros uni d bs. unfold construct. destruct uni; cbn [negb]; [|split; [split; [intros H; destruct (H eq_refl)|intros (H & _); discriminate]|discriminate]].
  destruct (existsb (Nat.eqb 1) (map level bs)) eqn:E1; cbn [negb].
  - destruct (no_repeats (map level bs)) eqn:E2; cbn [negb].
    + apply no_repeats_spec in E2. apply nat_in in E1. split; [split; [intros _; repeat split; assumption|discriminate]|]. intros o E. injection E as <-. cbn.
      split; [reflexivity|]. split; [reflexivity|]. split; [apply strictly_down; [apply sort_down_sorted|apply (Permutation_NoDup (sort_down_perm _)); exact E2]|].
      split; [symmetry; apply sort_down_perm|]. split; reflexivity.
    + split; [|discriminate]. split; [intros H; destruct (H eq_refl)|]. intros (_ & _ & D). apply no_repeats_spec in D. congruence.
  - split; [|discriminate]. split; [intros H; destruct (H eq_refl)|]. intros (_ & I & _). apply nat_in in I. congruence.
Qed.
(** Fitting succeeds exactly when no level is longer than the series and every model named can be trained on the series
    of its level.  Then every level with a name has a model trained on that series, every other level has none and
    keeps what was supplied. *)
Theorem C304_fit : forall train uni d0 bs o0 o, construct uni d0 bs = Some o0 -> (forall b, In b bs -> 1 <= level b) ->
  bases o = bs -> levels o = levels o0 ->
  (fit train o <> None <->
   forall b, In b bs -> (level b <= List.length (data o) \/ level b = 1) /\
     forall n, name b = Some n -> In n supported /\ exists ts, series_of (data o) (level b) = Some ts /\ train n ts <> None) /\
  (forall o', fit train o = Some o' -> data o' = data o /\ bases o' = bs /\ levels o' = levels o /\
     forall b, In b bs ->
       match name b with
       | None => model_at o' (level b) = Some None
       | Some n => exists ts r h, series_of (data o) (level b) = Some ts /\ train n ts = Some (r, h) /\ model_at o' (level b) = Some (Some (Fit r h ts))
       end).
Proof.
  intros train uni d0 bs o0 o C POS B LV. apply (proj2 (C304_construct uni d0 bs)) in C as CC. destruct CC as (_ & _ & _ & PE & _ & _).
  assert (ND : NoDup (map level bs)).
  { apply (proj1 (C304_construct uni d0 bs)). rewrite C. discriminate. }
  clear C. rewrite <- LV in PE. clear LV. unfold fit. rewrite B. split.
  - split.
    + intros H b I. destruct (all_some (map (series_of (data o)) (levels o))) as [ss|] eqn:S; [|destruct (H eq_refl)].
      destruct (all_some (map (fit_base train (data o)) bs)) as [ms|] eqn:M; [|destruct (H eq_refl)].
      assert (SB : series_of (data o) (level b) <> None).
      { apply (proj1 (all_some_ok (series_of (data o)) (levels o))); [rewrite S; discriminate|]. apply (Permutation_in _ (Permutation_sym PE)). apply in_map. exact I. }
      split; [apply series_ok; [apply POS; exact I|exact SB]|]. intros n N.
      assert (FB : fit_base train (data o) b <> None) by (apply (proj1 (all_some_ok (fit_base train (data o)) bs)); [rewrite M; discriminate|exact I]).
      unfold fit_base in FB. rewrite N in FB. destruct (mem n supported) eqn:ME; [|destruct (FB eq_refl)]. split; [apply mem_spec; exact ME|].
      destruct (series_of (data o) (level b)) as [ts|]; [|destruct (FB eq_refl)]. exists ts. split; [reflexivity|]. destruct (train n ts) as [(r, h)|]; [discriminate|destruct (FB eq_refl)].
    + intros H. assert (S : all_some (map (series_of (data o)) (levels o)) <> None).
      { apply all_some_ok. intros k I. apply (Permutation_in _ PE) in I. apply in_map_iff in I as (b & <- & I). apply series_ok; [apply POS; exact I|apply H; exact I]. }
      assert (M : all_some (map (fit_base train (data o)) bs) <> None).
      { apply all_some_ok. intros b I. destruct (H b I) as (_ & HN). unfold fit_base. destruct (name b) as [n|]; [|discriminate].
        destruct (HN n eq_refl) as (ME & ts & TS & TR). apply mem_spec in ME. rewrite ME, TS. destruct (train n ts) as [(r, h)|]; [discriminate|destruct (TR eq_refl)]. }
      destruct (all_some (map (series_of (data o)) (levels o))) as [ss|]; [|destruct (S eq_refl)].
      destruct (all_some (map (fit_base train (data o)) bs)) as [ms|]; [discriminate|destruct (M eq_refl)].
  - intros o' E. destruct (all_some (map (series_of (data o)) (levels o))) as [ss|] eqn:S; [|discriminate].
    destruct (all_some (map (fit_base train (data o)) bs)) as [ms|] eqn:M; [|discriminate]. injection E as <-. cbn. rewrite ?B.
    split; [reflexivity|]. split; [reflexivity|]. split; [reflexivity|]. intros b I. apply all_some_map in M.
    destruct (find_forall2 _ level _ _ (fit_base_level train (data o)) M ND b I) as (y & FB & FI). unfold model_at. cbn [models].
    unfold fit_base in FB. destruct (name b) as [n|]; [|injection FB as <-; exact FI].
    destruct (mem n supported); [|discriminate]. destruct (series_of (data o) (level b)) as [ts|]; [|discriminate].
    destruct (train n ts) as [(r, h)|] eqn:T; [|discriminate]. injection FB as <-. exists ts, r, h. split; [reflexivity|]. split; [exact T|exact FI].
Qed.
(** Forecasts and residuals supplied for a level that also has a name are not used: only the name decides. *)
Theorem C304_supplied_refuted : forall train d lv n res fc res' fc',
  fit_base train d (MkBase lv (Some n) res fc) = fit_base train d (MkBase lv (Some n) res' fc').
Proof. reflexivity. Qed.
(** A level longer than the series is refused although its forecasts are supplied and nothing would be trained. *)
Theorem C304_long_refuted : forall train o b, In b (bases o) -> In (level b) (levels o) -> name b = None ->
  1 < level b -> List.length (data o) < level b -> fit train o = None.
Proof.
  intros train o b _ IL _ L1 L. unfold fit. destruct (all_some (map (series_of (data o)) (levels o))) as [ss|] eqn:S; [|reflexivity]. exfalso.
  assert (H : series_of (data o) (level b) <> None) by (apply (proj1 (all_some_ok (series_of (data o)) (levels o))); [rewrite S; discriminate|exact IL]).
  apply series_ok in H; lia.
Qed.
(** the residuals of a fitted model: those the library reports, else, for every forecast of the history at a time of
    the training series, the value there minus the forecast *)
Definition residuals_of (f : fitted) (r : list Q) : Prop :=
  match resid f with
  | Some x => r = x
  | None => exists h, history f = Some h /\
      Forall2 (fun p x => exists v, In (fst p, v) (trained_on f) /\ x = (v - snd p)%Q)
              (filter (fun p => if in_dec Z.eq_dec (fst p) (map fst (trained_on f)) then true else false) h) r
  end.
Lemma filter_once (l : list (Z * Q)) t : NoDup (map fst l) ->
  match filter (fun q => Z.eqb (fst q) t) l with
  | [] => ~ In t (map fst l)
  | [q] => In q l /\ fst q = t
  | _ => False
  end.
Proof.
  induction l as [|(u, v) l IH]; intros D; cbn; [intros []|]. cbn in D. inversion D as [|? ? N D']; subst. specialize (IH D').
  destruct (Z.eqb_spec u t) as [->|NE].
  - destruct (filter (fun q => Z.eqb (fst q) t) l) as [|q [|]]; [split; [left; reflexivity|reflexivity]| |contradiction].
    destruct IH as (I & E). apply N. rewrite <- E. apply in_map. exact I.
  - destruct (filter (fun q => Z.eqb (fst q) t) l) as [|q [|]]; [intros [H|H]; [exact (NE H)|exact (IH H)]| |contradiction].
    destruct IH as (I & E). split; [right; exact I|exact E].
Qed.
Lemma get_residuals_spec f r : NoDup (map fst (trained_on f)) -> get_residuals f = Some r -> residuals_of f r.
Proof.
  intros D E. unfold get_residuals in E. unfold residuals_of. destruct (resid f) as [x|]; [injection E as <-; reflexivity|].
  destruct (history f) as [h|]; [|discriminate]. injection E as <-. exists h. split; [reflexivity|]. induction h as [|p h IH]; [constructor|]. cbn [flat_map filter].
  pose proof (filter_once (trained_on f) (fst p) D) as FO. destruct (filter (fun q => Z.eqb (fst q) (fst p)) (trained_on f)) as [|q [|]]; [| |contradiction].
  - destruct (in_dec Z.eq_dec (fst p) (map fst (trained_on f))); [contradiction|]. exact IH.
  - destruct FO as (I & E). destruct (in_dec Z.eq_dec (fst p) (map fst (trained_on f))) as [_|NI]; [|exfalso; apply NI; rewrite <- E; apply in_map; exact I].
    cbn [map app]. constructor; [|exact IH]. exists (snd q). split; [rewrite <- E; destruct q; exact I|reflexivity].
Qed.
(** The first time they are asked for, the residuals of every level are those of its model as last fitted, or those
    supplied. *)
Theorem C304_residuals : forall train uni d0 bs o0 o o' l o'', construct uni d0 bs = Some o0 -> bases o = bs -> levels o = levels o0 -> cached o = None ->
  fit train o = Some o' -> get_all_residuals o' = Some (l, o'') ->
  map fst l = levels o0 /\
  forall b, In b bs -> exists r, entry_of (level b) l = Some r /\
    match name b with
    | None => residuals b = Some r
    | Some _ => exists f, model_at o' (level b) = Some (Some f) /\ (NoDup (map fst (trained_on f)) -> residuals_of f r)
    end.
Proof.
  intros train uni d0 bs o0 o o' l o'' C B LV CA F G. apply (proj2 (C304_construct uni d0 bs)) in C as CC. destruct CC as (_ & _ & _ & PE & _ & _).
  assert (ND : NoDup (map level bs)) by (apply (proj1 (C304_construct uni d0 bs)); rewrite C; discriminate). clear C.
  unfold fit in F. rewrite B in F. destruct (all_some (map (series_of (data o)) (levels o))) as [ss|]; [|discriminate].
  destruct (all_some (map (fit_base train (data o)) bs)) as [ms|] eqn:M; [|discriminate]. injection F as <-.
  unfold get_all_residuals in G. cbn [cached models levels] in G. rewrite CA in G.
  destruct (all_some (map _ (levels o))) as [l'|] eqn:R in G; [|discriminate]. injection G as -> _. set (o' := Obj _ _ _ _ _ _) in *.
  apply all_some_map in R. rewrite LV in R.
  assert (K : forall k k' r, residuals_at o' ms k = Some (k', r) -> k' = k).
  { intros k k' r. unfold residuals_at. destruct (entry_of k ms) as [[f|]|]; [|destruct (entry_of k (info o')) as [([r'|], _)|]; try discriminate; intros E; injection E as <- _; reflexivity|discriminate].
    destruct (get_residuals f); [|discriminate]. intros E; injection E as <- _; reflexivity. }
  split.
  - clear - R K. induction R as [|k (k', r) ks l E R IH]; [reflexivity|]. cbn. rewrite (K _ _ _ E), IH. reflexivity.
  - intros b I. assert (IL : In (level b) (levels o0)) by (apply (Permutation_in _ (Permutation_sym PE)); apply in_map; exact I).
    assert (NL : NoDup (map (fun k : nat => k) (levels o0))) by (rewrite map_id; apply (Permutation_NoDup (Permutation_sym PE)); exact ND).
    destruct (find_forall2 (residuals_at o' ms) (fun k => k) _ _ (fun k k' r => K k k' r) R NL _ IL) as (r & E & FI).
    exists r. split; [exact FI|]. clear FI. unfold residuals_at in E. apply all_some_map in M.
    destruct (find_forall2 _ level _ _ (fit_base_level train (data o)) M ND b I) as (y & FB & FM). rewrite FM in E.
    unfold fit_base in FB. destruct (name b) as [n|] eqn:N.
    + destruct (mem n supported); [|discriminate]. destruct (series_of (data o) (level b)) as [ts|]; [|discriminate]. destruct (train n ts) as [(x, h)|]; [|discriminate].
      injection FB as <-. exists (Fit x h ts). split; [exact FM|]. intros D. apply get_residuals_spec; [exact D|].
      destruct (get_residuals (Fit x h ts)); [|discriminate]. injection E as ->. reflexivity.
    + injection FB as <-. cbn [info o'] in E.
      assert (EI : entry_of (level b) (map (fun b0 => (level b0, (residuals b0, fcsts b0))) (filter (fun b0 => match name b0 with None => true | Some _ => false end) bs)) = Some (residuals b, fcsts b)).
      { clear - ND I N. induction bs as [|c bs IH]; [destruct I|]. cbn in ND. inversion ND as [|? ? NI ND']; subst. cbn [filter]. destruct I as [<-|I].
        - rewrite N. cbn. rewrite Nat.eqb_refl. reflexivity.
        - destruct (name c); [apply IH; assumption|]. cbn. destruct (Nat.eqb_spec (level c) (level b)) as [Q0|_]; [|apply IH; assumption].
          exfalso. apply NI. rewrite Q0. apply in_map. exact I. }
      unfold o' in E. cbn [info] in E. rewrite EI in E. destruct (residuals b); [|discriminate]. injection E as ->. reflexivity.
Qed.
(** Once computed, the residuals stay: fitting again, on a longer series, does not change the residuals the
    reconciliation uses. *)
Theorem C304_refit_refuted : forall train o l o1 more o2, get_all_residuals o = Some (l, o1) -> fit train (extend more o1) = Some o2 ->
  residuals_now o2 = Some l.
Proof.
  intros train o l o1 more o2 G F. assert (CA : cached o1 = Some l).
  { unfold get_all_residuals in G. destruct (cached o) as [r|] eqn:C; [injection G as <- <-; exact C|]. destruct (models o) as [ms|]; [|discriminate].
    destruct (all_some (map (residuals_at o ms) (levels o))); [|discriminate]. injection G as -> <-. reflexivity. }
  unfold fit in F. cbn [extend data bases levels cached] in F. destruct (all_some (map (series_of (data o1 ++ more)) (levels o1))); [|discriminate].
  destruct (all_some (map (fit_base train (data o1 ++ more)) (bases o1))); [|discriminate]. injection F as <-.
  unfold residuals_now, get_all_residuals. cbn [cached]. rewrite CA. reflexivity.
Qed.
Definition two_bases : list base_model := [MkBase 1 (Some "linear"%string) None None; MkBase 2 None (Some [1%Q]) (Some [5%Q; 6%Q])].
Definition flat_train : trainer := fun _ ts => Some (None, Some (map (fun p => (fst p, 1%Q)) ts ++ [(99%Z, 1%Q)])).
Definition four : list (Z * Q) := [(1%Z, 1%Q); (2%Z, 3%Q); (3%Z, 2%Q); (4%Z, 5%Q)].
Definition and_then {A B} (o : option A) (f : A -> option B) : option B := match o with Some x => f x | None => None end.
Example C304_case :
  make_base 1 (Some "linear"%string) true None None = Some (MkBase 1 (Some "linear"%string) None None) /\
  make_base 2 None false (Some [1%Q]) (Some [5%Q; 6%Q]) = Some (MkBase 2 None (Some [1%Q]) (Some [5%Q; 6%Q])) /\
  make_base 3 (Some "lstm"%string) true None None = None /\
  option_map levels (construct true four two_bases) = Some [2; 1] /\
  and_then (and_then (construct true four two_bases) (fit flat_train)) (fun o => option_map (map (fun p => (fst p, map Qred (snd p)))) (residuals_now o))
    = Some [(2, [1%Q]); (1, [0%Q; 2%Q; 1%Q; 4%Q])] /\
  and_then (and_then (construct true four two_bases) (fit flat_train)) (fun o => and_then (get_all_residuals o)
    (fun p => and_then (fit flat_train (extend [(5%Z, 7%Q)] (snd p))) (fun o => option_map (map (fun p => List.length (snd p))) (residuals_now o)))) = Some [1; 4] /\
  and_then (construct true [(1%Z, 1%Q)] two_bases) (fit flat_train) = None.
Proof. repeat split; vm_compute; reflexivity. Qed.

(** ** C305 *)
(** the distances of the levels between the forecasts by the median method and the base forecasts, none of them
    missing; the mean absolute error is divided by the level *)
Definition distances (metric : list Q -> list Q -> option Q) (is_mae : bool) (med orig : nat -> list Q) (ls : list nat) (vals : list Q) : Prop :=
  Forall2 (fun k v => exists x, metric (med k) (orig k) = Some x /\ v = if is_mae then (x / inject_Z (Z.of_nat k))%Q else x) ls vals.
Lemma f2_length {A B} (R : A -> B -> Prop) l r : Forall2 R l r -> List.length l = List.length r.
Proof. induction 1 as [|? ? ? ? _ _ IH]; [reflexivity|cbn; rewrite IH; reflexivity]. Qed.
Lemma distances_some metric is_mae med orig ls vals :
  all_some (map (distance metric is_mae med orig) ls) = Some vals <-> distances metric is_mae med orig ls vals.
Proof.
  unfold distances. revert vals. induction ls as [|k ls IH]; intros vals; cbn [map all_some].
  - split; [intros E; injection E as <-; constructor|intros F; inversion F; reflexivity].
  - unfold distance at 1. destruct (metric (med k) (orig k)) as [x|] eqn:M; cbn [option_map].
    + destruct (all_some (map _ ls)) as [r|].
      * split; [intros E; injection E as <-; constructor; [exists x; split; [exact M|reflexivity]|apply IH; reflexivity]|].
        intros F. inversion F as [|? v ? r' (x' & M' & ->) F']; subst. rewrite M in M'. injection M' as <-. apply IH in F'. injection F' as ->. reflexivity.
      * split; [discriminate|]. intros F. inversion F as [|? v ? r' _ F']; subst. apply IH in F'. discriminate.
    + split; [discriminate|]. intros F. inversion F as [|? v ? r' (x' & M' & _) _]; subst. congruence.
Qed.
Lemma validation_unfold metric is_mae mcd thr steps ls bs bad : median_validation metric is_mae mcd thr steps ls bs = Some bad ->
  exists o d, predict_origin steps (get_m ls) false ls bs = Some o /\ predict (fun _ _ _ _ => None) steps ls Median bs ls = Some d /\
    bad = report mcd thr ls (map (distance metric is_mae (fun k => lookup k d) (fun k => firstn (steps / k) (lookup k o))) ls).
Proof.
  unfold median_validation. destruct (predict_origin _ _ _ _ _) as [o|]; [|discriminate]. destruct (predict _ _ _ _ _ _) as [d|]; [|discriminate].
  intros E. injection E as <-. exists o, d. repeat split.
Qed.
Lemma in_report (ls : list nat) (vals : list Q) up k : List.length ls = List.length vals ->
  (In k (map fst (filter (fun p => Qle_bool up (snd p)) (combine ls vals))) <-> exists v, In (k, v) (combine ls vals) /\ (up <= v)%Q).
Proof.
  intros _. rewrite in_map_iff. split.
  - intros ((k', v) & <- & I). apply filter_In in I as (I & U). exists v. split; [exact I|]. apply Qle_bool_iff. exact U.
  - intros (v & I & U). exists (k, v). split; [reflexivity|]. apply filter_In. split; [exact I|]. apply Qle_bool_iff. exact U.
Qed.
(** If no distance is missing, exactly the levels are reported whose distance is at least the median of the distances
    plus [threshold] times their robust spread; where no robust estimate exists the spread is the difference of the
    upper and lower quartile. *)
Theorem C305_reported : forall metric is_mae mcd thr steps ls bs bad, median_validation metric is_mae mcd thr steps ls bs = Some bad ->
  exists o d, predict_origin steps (get_m ls) false ls bs = Some o /\ predict (fun _ _ _ _ => None) steps ls Median bs ls = Some d /\
  let med := fun k => lookup k d in let orig := fun k => firstn (steps / k) (lookup k o) in
  forall vals, distances metric is_mae med orig ls vals ->
  exists m s, median_of vals m /\
    match mcd vals with Some r => s = r | None => exists a b, percentile_of 25 vals a /\ percentile_of 75 vals b /\ s = (b - a)%Q end /\
    forall k, In k bad <-> exists v, In (k, v) (combine ls vals) /\ (m + s * thr <= v)%Q.
Proof.
  intros metric is_mae mcd thr steps ls bs bad E. apply validation_unfold in E as (o & d & O & D & ->). exists o, d. split; [exact O|]. split; [exact D|]. cbv zeta.
  intros vals F. pose proof (f2_length _ _ _ F) as L. apply distances_some in F. unfold report. rewrite F. exists (qmedian vals), (spread_of mcd vals).
  split; [apply qmedian_spec|]. split.
  - unfold spread_of. destruct (mcd vals); [reflexivity|]. exists (percentile 25 vals), (percentile 75 vals). split; [apply percentile_ok|]. split; [apply percentile_ok|reflexivity].
  - intros k. apply in_report. exact L.
Qed.
Lemma filter_combine_len (ls : list nat) (vals : list Q) (P : Q -> bool) : List.length ls = List.length vals ->
  List.length (map fst (filter (fun p => P (snd p)) (combine ls vals))) = List.length (filter P vals).
Proof.
  rewrite map_length. revert vals. induction ls as [|k ls IH]; intros [|v vals] L; try discriminate; [reflexivity|]. cbn. injection L as L.
  destruct (P v); cbn; rewrite (IH _ L); reflexivity.
Qed.
Lemma filter_len_le {A} (P P' : A -> bool) l : (forall x, P x = true -> P' x = true) -> List.length (filter P l) <= List.length (filter P' l).
Proof.
  intros H. induction l as [|x l IH]; [reflexivity|]. cbn. destruct (P x) eqn:E; [rewrite (H x E); cbn; lia|]. destruct (P' x); cbn; lia.
Qed.
(** If [threshold] times the spread is positive, a reported level lies above the median of the distances, and at most
    half of the levels are reported. *)
Theorem C305_half : forall metric is_mae mcd thr steps ls bs bad, median_validation metric is_mae mcd thr steps ls bs = Some bad ->
  exists o d, predict_origin steps (get_m ls) false ls bs = Some o /\ predict (fun _ _ _ _ => None) steps ls Median bs ls = Some d /\
  forall vals, distances metric is_mae (fun k => lookup k d) (fun k => firstn (steps / k) (lookup k o)) ls vals ->
    (forall s, mcd vals = Some s -> (0 < s * thr)%Q) ->
    (mcd vals = None -> (0 < (percentile 75 vals - percentile 25 vals) * thr)%Q) ->
    (forall m k, median_of vals m -> In k bad -> exists v, In (k, v) (combine ls vals) /\ (m < v)%Q) /\ 2 * List.length bad <= List.length ls.
Proof.
  intros metric is_mae mcd thr steps ls bs bad E. apply validation_unfold in E as (o & d & O & D & ->). exists o, d. split; [exact O|]. split; [exact D|].
  intros vals F H1 H2. pose proof (f2_length _ _ _ F) as L. apply distances_some in F. unfold report. rewrite F.
  assert (PO : (0 < spread_of mcd vals * thr)%Q) by (unfold spread_of; destruct (mcd vals) as [s|]; [apply H1|apply H2]; reflexivity). split.
  - intros m k M I. apply in_report in I; [|exact L]. destruct I as (v & I & U). exists v. split; [exact I|]. rewrite (median_qmedian _ _ M). lra.
  - rewrite (filter_combine_len ls vals (Qle_bool (qmedian vals + spread_of mcd vals * thr)) L), L.
    destruct (median_halves vals _ (qmedian_spec vals)) as (_ & HB). eapply Nat.le_trans; [|exact HB]. apply Nat.mul_le_mono_l. apply filter_len_le.
    intros x U. apply Qle_bool_iff in U. apply negb_true_iff. destruct (Qle_bool x (qmedian vals)) eqn:B; [|reflexivity]. apply Qle_bool_iff in B. lra.
Qed.
(** Refuted: that only a level whose distance is greater than the bound is reported: where all levels have the same
    distance, in particular where every base forecast equals the median forecast, all levels are reported. *)
Theorem C305_greater_refuted : forall metric is_mae mcd thr steps ls bs bad, median_validation metric is_mae mcd thr steps ls bs = Some bad -> ls <> [] ->
  exists o d, predict_origin steps (get_m ls) false ls bs = Some o /\ predict (fun _ _ _ _ => None) steps ls Median bs ls = Some d /\
  forall vals v, distances metric is_mae (fun k => lookup k d) (fun k => firstn (steps / k) (lookup k o)) ls vals ->
    (forall x, In x vals -> (x == v)%Q) -> (forall s, mcd vals = Some s -> (s == 0)%Q) -> bad = ls.
Proof.
  intros metric is_mae mcd thr steps ls bs bad E NE. apply validation_unfold in E as (o & d & O & D & ->). exists o, d. split; [exact O|]. split; [exact D|].
  intros vals v F AE S0. pose proof (f2_length _ _ _ F) as L. apply distances_some in F. unfold report. rewrite F.
  assert (NV : vals <> []) by (intros ->; destruct ls; [contradiction|discriminate]).
  assert (PV : forall q, q <= 100 -> (percentile q vals == v)%Q).
  { intros q HQ. destruct (percentile_range q vals _ NV HQ (percentile_ok q vals)) as (a & b & IA & IB & H). rewrite (AE a IA), (AE b IB) in H. lra. }
  assert (SZ : (spread_of mcd vals == 0)%Q) by (unfold spread_of; destruct (mcd vals) as [s|]; [apply S0; reflexivity|rewrite (PV 75), (PV 25) by lia; ring]).
  assert (MV : (v <= qmedian vals <= v)%Q).
  { apply (median_between vals); [exact NV|apply qmedian_spec|]. intros x I. rewrite (AE x I). split; apply Qle_refl. }
  assert (UP : (qmedian vals + spread_of mcd vals * thr == v)%Q) by (rewrite SZ; lra). clear - L AE UP.
  set (up := (qmedian vals + spread_of mcd vals * thr)%Q) in *. clearbody up. revert vals L AE. induction ls as [|k ls IH]; intros [|x vals] L AE; try discriminate; [reflexivity|].
  cbn [combine filter snd]. assert (Qle_bool up x = true) as -> by (apply Qle_bool_iff; rewrite UP, (AE x (or_introl eq_refl)); apply Qle_refl).
  cbn [map fst]. apply (f_equal (cons k)). apply IH; [injection L as L; exact L|]. intros y I. apply AE. right. exact I.
Qed.
(** Refuted: that a level far off is reported: with fewer steps than the highest level the mean absolute error of that
    level is missing and no level is ever reported. *)
Theorem C305_short_refuted : forall is_mae mcd thr steps ls bs bad k, median_validation mae is_mae mcd thr steps ls bs = Some bad ->
  In k ls -> steps < k -> bad = [].
Proof.
  intros is_mae mcd thr steps ls bs bad k E I K. apply validation_unfold in E as (o & d & O & D & ->). unfold report.
  destruct (all_some _) as [vals|] eqn:A; [|reflexivity]. exfalso. apply distances_some in A.
  assert (L : lookup k d = []).
  { unfold predict in D. destruct (predict_origin _ _ _ _ _); [|discriminate]. destruct (yhat _ _ _ _ _ _) as [y|]; [|discriminate]. cbn [option_map] in D. injection D as <-.
    rewrite (lookup_map (fun k => firstn (steps / k) (aggregate_data y k))) by exact I. rewrite (Nat.div_small steps k K). reflexivity. }
  apply in_split in I as (l1 & l2 & ->). apply Forall2_app_inv_l in A as (v1 & v2 & _ & A & _). inversion A as [|? ? ? ? (x & M & _) _]; subst.
  rewrite L in M. discriminate M.
Qed.
Definition three_bases (k : nat) : base := Given (match k with 1 => [1%Q; 1%Q; 1%Q; 1%Q] | 2 => [2%Q; 2%Q] | _ => [40%Q] end).
Example C305_case :
  median_validation mae true (fun _ => None) 1%Q 4 [4; 2; 1] three_bases = Some [4] /\
  median_validation mae true (fun _ => None) 5%Q 2 [4; 2; 1] three_bases = Some [] /\
  median_validation mae true (fun _ => None) 5%Q 4 [4; 2; 1] (fun k => match k with 4 => Given [4%Q] | _ => three_bases k end) = Some [4; 2; 1].
Proof. repeat split; vm_compute; reflexivity. Qed.

Print Assumptions C304_base.
Print Assumptions C304_construct.
Print Assumptions C304_fit.
Print Assumptions C304_supplied_refuted.
Print Assumptions C304_long_refuted.
Print Assumptions C304_residuals.
Print Assumptions C304_refit_refuted.
Print Assumptions C305_reported.
Print Assumptions C305_half.
Print Assumptions C305_greater_refuted.
Print Assumptions C305_short_refuted.
