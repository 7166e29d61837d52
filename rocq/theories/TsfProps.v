(** Theorems about which features TsFeatures reports (C157, C158). *)
From Coq Require Import List String Bool Lia.
From Verif Require Import TsfModel.
Import ListNotations.
Open Scope string_scope.
Open Scope list_scope.

(* ------------------------------------------------------------------ specification *)
(** The feature f is listed under the group g in the documentation of the features. *)
Definition listed (g f : string) : Prop := exists fs, In (g, fs) mapping /\ In f fs.
Definition a_group (g : string) : Prop := exists fs, In (g, fs) mapping.
Definition a_name (f : string) : Prop := a_group f \/ exists g, listed g f.
(** The groups the documentation calls opt-in. *)
Definition opt_in_groups : list string :=
  ["cusum_detector"; "robust_stat_detector"; "bocp_detector"; "outlier_detector"; "trend_detector"; "nowcasting"; "seasonalities"; "time"].
(** The keyword switches name the keyword k with the value b. *)
Definition switch_is (kwargs : list (string * bool)) (k : string) (b : bool) : Prop := In (k, b) kwargs.
(** Keyword arguments have distinct names. *)
Definition keywords (kwargs : list (string * bool)) : Prop := NoDup (map fst kwargs).
(** The feature f of the group g should be reported. *)
Definition wanted (sel : list string) (kwargs : list (string * bool)) (g f : string) : Prop :=
  match sel with
  | [] => ~ switch_is kwargs f false /\ (switch_is kwargs g true \/ ~ switch_is kwargs g false /\ ~ In g opt_in_groups)
  | _ => ~ switch_is kwargs f false
         /\ (In f sel \/ In g sel \/ switch_is kwargs f true)
         /\ (In g sel \/ (exists f', In f' sel /\ listed g f') \/ switch_is kwargs g true)
  end.
(** The request contradicts itself: a selected feature is switched off, or its group is, without the group having been
    selected before it. *)
Definition contradictory (sel : list string) (kwargs : list (string * bool)) : Prop :=
  exists pre f post g, sel = pre ++ f :: post /\ listed g f /\
    (switch_is kwargs f false \/ switch_is kwargs g false /\ ~ In g pre).

(* ------------------------------------------------------------------ facts about the table *)
Lemma mem_in s l : mem s l = true <-> In s l.
Proof. unfold mem. rewrite existsb_exists. split.
  - intros (x & I & E). apply String.eqb_eq in E. now subst.
  - intros I. exists s. split; [exact I|]. apply String.eqb_refl. Qed.
Lemma mem_not s l : mem s l = false <-> ~ In s l.
Proof. rewrite <- mem_in. destruct (mem s l); split; congruence. Qed.
Fixpoint nodupb (l : list string) : bool := match l with [] => true | x :: l' => negb (mem x l') && nodupb l' end.
Lemma nodupb_ok l : nodupb l = true -> NoDup l.
Proof. induction l as [|x l IH]; cbn; [constructor|]. intros H. apply andb_prop in H. destruct H as [A B].
  constructor; [apply mem_not; now destruct (mem x l)|auto]. Qed.
Lemma groups_nodup : NoDup (map fst mapping).
Proof. apply nodupb_ok. vm_compute. reflexivity. Qed.
Lemma features_nodup : NoDup (flat_map snd mapping).
Proof. apply nodupb_ok. vm_compute. reflexivity. Qed.
Lemma disjoint_names f : In f (flat_map snd mapping) -> In f (map fst mapping) -> False.
Proof.
  intros A B. assert (N : nodupb (flat_map snd mapping ++ map fst mapping) = true) by (vm_compute; reflexivity).
  apply nodupb_ok in N. revert A B N. generalize (flat_map snd mapping) (map fst mapping). intros l1 l2 A B N.
  induction l1 as [|x l1 IH]; [exact A|]. inversion N; subst. destruct A as [<-|A]; [|auto].
  apply H1, in_or_app. now right.
Qed.
Lemma order_ok g : In g method_order <-> a_group g.
Proof.
  transitivity (In g (map fst mapping)).
  - assert (E1 : forallb (fun x => mem x (map fst mapping)) method_order = true) by (vm_compute; reflexivity).
    assert (E2 : forallb (fun x => mem x method_order) (map fst mapping) = true) by (vm_compute; reflexivity).
    rewrite forallb_forall in E1, E2. split; intros I; apply mem_in; auto.
  - rewrite in_map_iff. unfold a_group. split; [intros ((a & b) & <- & I); exists b; exact I|intros (fs & I); exists (g, fs); auto].
Qed.
Lemma order_nodup : NoDup method_order.
Proof. apply nodupb_ok. vm_compute. reflexivity. Qed.

Lemma nodup_pair (m : list (string * list string)) g fs fs' : NoDup (map fst m) -> In (g, fs) m -> In (g, fs') m -> fs = fs'.
Proof.
  induction m as [|(a & b) m IH]; cbn; [tauto|]. intros N I J. inversion N; subst.
  destruct I as [I|I], J as [J|J]; try congruence.
  - injection I as -> ->. destruct H1. apply in_map_iff. now exists (g, fs').
  - injection J as -> ->. destruct H1. apply in_map_iff. now exists (g, fs).
  - auto.
Qed.
Lemma nodup_flat (m : list (string * list string)) g g' fs fs' f : NoDup (flat_map snd m) ->
  In (g, fs) m -> In (g', fs') m -> In f fs -> In f fs' -> g = g'.
Proof.
  induction m as [|(a & b) m IH]; cbn; [tauto|]. intros N I J F F'.
  assert (X : forall x, In x b -> In x (flat_map snd m) -> False).
  { intros x A B. revert N A B. generalize (flat_map snd m). clear. intros l N A B. induction b as [|y b IH]; [exact A|].
    cbn in N. inversion N; subst. destruct A as [<-|A]; [apply H1, in_or_app; now right|auto]. }
  assert (N' : NoDup (flat_map snd m)). { clear - N. induction b as [|y b IH]; [exact N|]. cbn in N. inversion N; auto. }
  destruct I as [I|I], J as [J|J]; try congruence.
  - exfalso. injection I as -> ->. apply (X f F). apply in_flat_map. now exists (g', fs').
  - exfalso. injection J as -> ->. apply (X f F'). apply in_flat_map. now exists (g, fs).
  - eapply IH; eauto.
Qed.

Lemma is_group_iff g : is_group g = true <-> a_group g.
Proof. unfold is_group. rewrite mem_in, in_map_iff. unfold a_group.
  split; [intros ((a & b) & <- & I); exists b; exact I|intros (fs & I); exists (g, fs); auto]. Qed.
Lemma members_iff g f : In f (members g) <-> listed g f.
Proof.
  unfold members, listed. destruct (find _ mapping) as [(a & fs)|] eqn:E.
  - apply find_some in E. destruct E as [I X]. apply String.eqb_eq in X. cbn in X. subst a. split; [eauto|].
    intros (fs' & I' & F). now rewrite (nodup_pair _ _ _ _ groups_nodup I I').
  - split; [intros []|]. intros (fs & I & _). apply (find_none _ _ E) in I. cbn in I. now rewrite String.eqb_refl in I.
Qed.
Lemma listed_unique g g' f : listed g f -> listed g' f -> g = g'.
Proof. intros (fs & I & F) (fs' & I' & F'). exact (nodup_flat _ _ _ _ _ _ features_nodup I I' F F'). Qed.
Lemma group_of_iff f g : group_of f = Some g <-> listed g f.
Proof.
  unfold group_of. destruct (find _ mapping) as [(a & fs)|] eqn:E.
  - apply find_some in E. destruct E as [I X]. apply mem_in in X. cbn [snd] in X. assert (L : listed a f) by (exists fs; auto).
    split; [intros [= <-]; exact L|]. intros L'. now rewrite (listed_unique _ _ _ L L').
  - split; [discriminate|]. intros (fs & I & F). apply (find_none _ _ E) in I. change (mem f fs = false) in I. apply mem_in in F. congruence.
Qed.
Lemma group_not_feature g : a_group g -> group_of g = None.
Proof.
  intros (fs & I). destruct (group_of g) as [h|] eqn:E; [|reflexivity]. exfalso. apply group_of_iff in E. destruct E as (fs' & I' & F).
  apply (disjoint_names g); [apply in_flat_map; now exists (h, fs')|apply in_map_iff; now exists (g, fs)].
Qed.
Lemma feature_not_group g f : listed g f -> is_group f = false.
Proof. intros L. destruct (is_group f) eqn:E; [|reflexivity]. apply is_group_iff, group_not_feature in E.
  apply group_of_iff in L. congruence. Qed.
Lemma listed_group g f : listed g f -> a_group g.
Proof. intros (fs & I & _). now exists fs. Qed.
Lemma known_iff f : known f = true <-> a_name f.
Proof.
  unfold known, a_name. destruct (group_of f) as [g|] eqn:E.
  - apply group_of_iff in E. split; [intros _; right; eauto|reflexivity].
  - rewrite is_group_iff. split; [tauto|]. intros [H|(g & H)]; [exact H|]. apply group_of_iff in H. congruence.
Qed.
Lemma members_nodup g : NoDup (members g).
Proof.
  unfold members. destruct (find _ mapping) as [(a & fs)|] eqn:E; [|constructor]. apply find_some in E. destruct E as [I _].
  pose proof features_nodup as N. revert I N. generalize mapping. intros m I N.
  induction m as [|(b & bs) m IH]; [destruct I|]. cbn in N. destruct I as [I|I].
  - injection I as -> ->. clear - N. induction fs as [|x fs IH]; [constructor|]. cbn in N. inversion N; subst. constructor; [|auto].
    intros J. apply H1, in_or_app. now left.
  - apply IH; [exact I|]. clear - N. induction bs as [|x bs IH]; [exact N|]. cbn in N. inversion N; auto.
Qed.
Global Opaque mapping.

Lemma of_kwargs_iff l k b : keywords l -> (of_kwargs l k = Some b <-> switch_is l k b).
Proof.
  unfold keywords, of_kwargs, switch_is. induction l as [|(a & v) l IH]; cbn; [split; [discriminate|tauto]|].
  intros N. inversion N; subst. destruct (String.eqb_spec a k) as [->|D].
  - split; [intros [= <-]; now left|]. intros [E|I]; [congruence|]. destruct H1. apply in_map_iff. now exists (k, b).
  - rewrite IH by assumption. split; [now right|]. intros [E|I]; [congruence|exact I].
Qed.

(* ------------------------------------------------------------------ the selection loop *)
Lemma dset_eq d k v : dset d k v k = Some v. Proof. unfold dset. now rewrite String.eqb_refl. Qed.
Lemma dset_ne d k v k' : k' <> k -> dset d k v k' = d k'.
Proof. intros H. unfold dset. now apply String.eqb_neq in H as ->. Qed.

(** The switches after selecting a group, and the final filter. *)
Lemma opt_in_fst g st : a_group g -> forall k,
  fst (opt_in_group g st) k = if String.eqb k g then Some true else
    if mem k (members g) then Some (get_or (fst st) k true) else fst st k.
Proof.
  intros G k. unfold opt_in_group.
  assert (NG : ~ In g (members g)). { intros I. apply members_iff in I. pose proof (feature_not_group _ _ I) as X. apply is_group_iff in G. congruence. }
  assert (GEN : forall l st0, NoDup l ->
    fst (fold_left (fun st feature => (dset (fst st) feature (get_or (fst st) feature true), dset (snd st) feature true)) l st0) k
    = if mem k l then Some (get_or (fst st0) k true) else fst st0 k).
  { induction l as [|x l IH]; intros st0 N; [reflexivity|]. inversion N; subst. cbn [fold_left]. rewrite IH by assumption. cbn [fst].
    unfold mem in *. cbn [existsb]. destruct (String.eqb_spec k x) as [->|D]; cbn [orb].
    - assert (M : existsb (String.eqb x) l = false) by now apply mem_not. rewrite M, dset_eq. reflexivity.
    - rewrite dset_ne by exact D. unfold get_or. rewrite dset_ne by exact D. reflexivity. }
  rewrite GEN by apply members_nodup. cbn [fst]. destruct (String.eqb_spec k g) as [->|D].
  - apply mem_not in NG. rewrite NG, dset_eq. reflexivity.
  - unfold get_or. rewrite dset_ne by exact D. reflexivity.
Qed.
Lemma opt_in_snd g st k : snd (opt_in_group g st) k = if mem k (members g) then Some true else snd st k.
Proof.
  unfold opt_in_group.
  assert (GEN : forall l st0,
    snd (fold_left (fun st feature => (dset (fst st) feature (get_or (fst st) feature true), dset (snd st) feature true)) l st0) k
    = if mem k l then Some true else snd st0 k).
  { induction l as [|x l IH]; intros st0; [reflexivity|]. cbn [fold_left]. rewrite IH. cbn [snd]. unfold mem. cbn [existsb].
    destruct (String.eqb_spec k x) as [->|D]; cbn [orb].
    - destruct (existsb (String.eqb x) l); [reflexivity|]. now rewrite dset_eq.
    - now rewrite dset_ne. }
  now rewrite GEN.
Qed.

(** After the selections [sel] starting from the switches [kw0]. *)
Definition touched (sel : list string) (g : string) : Prop := In g sel \/ exists f, In f sel /\ listed g f.
Definition asked (sel : list string) (f : string) : Prop := In f sel \/ exists g, In g sel /\ listed g f.
Lemma touched_app sel x g : touched (sel ++ [x]) g <-> touched sel g \/ x = g \/ listed g x.
Proof.
  unfold touched. rewrite in_app_iff. cbn [In]. split.
  - intros [[H|[H|[]]]|(f & I & L)]; auto. rewrite in_app_iff in I. destruct I as [I|[<-|[]]]; [|auto]. left. right. eauto.
  - intros [[H|(f & I & L)]|[H|H]]; auto; right; [exists f|exists x]; rewrite in_app_iff; cbn; auto.
Qed.
Lemma asked_app sel x f : asked (sel ++ [x]) f <-> asked sel f \/ x = f \/ listed x f.
Proof.
  unfold asked. rewrite in_app_iff. cbn [In]. split.
  - intros [[H|[H|[]]]|(g & I & L)]; auto. rewrite in_app_iff in I. destruct I as [I|[<-|[]]]; [|auto]. left. right. eauto.
  - intros [[H|(g & I & L)]|[H|H]]; auto; right; [exists g|exists x]; rewrite in_app_iff; cbn; auto.
Qed.

Section Loop.
Variables (kw0 ff0 : string -> option bool).
Hypothesis ff0_false : forall k, ff0 k <> Some true.
Record invariant (done : list string) (st : (string -> option bool) * (string -> option bool)) : Prop := {
  inv_group_t : forall g, a_group g -> touched done g -> fst st g = Some true;
  inv_group_n : forall g, a_group g -> ~ touched done g -> fst st g = kw0 g;
  inv_feat_k : forall g f, listed g f -> kw0 f <> None -> ~ In f done -> fst st f = kw0 f;
  inv_feat_s : forall g f, listed g f -> In f done -> fst st f = Some true /\ kw0 f <> Some false;
  inv_feat_t : forall g f, listed g f -> kw0 f = None -> asked done f -> fst st f = Some true;
  inv_feat_n : forall g f, listed g f -> kw0 f = None -> ~ asked done f -> fst st f = None;
  inv_ff : forall g f, listed g f -> snd st f = Some true <-> asked done f
}.
Lemma inv_start : invariant [] (kw0, ff0).
Proof.
  split; cbn [fst snd].
  - intros g _ [[]|(f & [] & _)].
  - reflexivity.
  - reflexivity.
  - intros g f _ [].
  - intros g f _ _ [[]|(h & [] & _)].
  - auto.
  - intros g f _. split; [intros H; now apply ff0_false in H|]. intros [[]|(h & [] & _)].
Qed.
Lemma a_group_listed_ne g f h : a_group g -> listed h f -> f <> g.
Proof. intros G L ->. apply feature_not_group in L. apply is_group_iff in G. congruence. Qed.
Lemma dec_touched done g : touched done g \/ ~ touched done g.
Proof.
  destruct (mem g done) eqn:A; [left; left; now apply mem_in|].
  destruct (existsb (fun f => mem f (members g)) done) eqn:B.
  - apply existsb_exists in B. destruct B as (f & I & M). apply mem_in, members_iff in M. left. right. eauto.
  - right. intros [I|(f & I & L)]; [apply mem_in in I; congruence|]. apply members_iff, mem_in in L.
    assert (existsb (fun f => mem f (members g)) done = true) by (apply existsb_exists; eauto). congruence.
Qed.
Lemma dec_asked done g f : listed g f -> asked done f \/ ~ asked done f.
Proof.
  intros L. destruct (mem f done) eqn:A; [left; left; now apply mem_in|]. destruct (mem g done) eqn:B.
  - left. right. exists g. split; [now apply mem_in|exact L].
  - right. intros [I|(h & I & L')]; [apply mem_in in I; congruence|]. rewrite (listed_unique _ _ _ L' L) in I. apply mem_in in I. congruence.
Qed.

Lemma inv_step done st x st' : invariant done st -> select_one st x = Some st' -> invariant (done ++ [x]) st'.
Proof.
  intros [I1 I2 I3 I4 I5 I6 I7] H. unfold select_one in H. destruct (is_group x) eqn:GX.
  - apply is_group_iff in GX. injection H as <-. split.
    + intros g G T. rewrite opt_in_fst by exact GX. destruct (String.eqb_spec g x); [reflexivity|].
      destruct (mem g (members x)) eqn:M. { apply mem_in, members_iff in M. exfalso. now apply (a_group_listed_ne _ _ _ G M). }
      apply I1; [exact G|]. apply touched_app in T. destruct T as [T|[T|T]]; [exact T|congruence|].
      exfalso. now apply (a_group_listed_ne _ _ _ GX T).
    + intros g G T. rewrite opt_in_fst by exact GX. destruct (String.eqb_spec g x) as [->|D].
      { exfalso. apply T, touched_app. auto. }
      destruct (mem g (members x)) eqn:M. { apply mem_in, members_iff in M. exfalso. now apply (a_group_listed_ne _ _ _ G M). }
      apply I2; [exact G|]. intros U. apply T, touched_app. auto.
    + intros g f L K N. rewrite opt_in_fst by exact GX. destruct (String.eqb_spec f x) as [->|D].
      { exfalso. now apply (a_group_listed_ne _ _ _ GX L). }
      assert (N' : ~ In f done) by (intros J; apply N, in_or_app; auto).
      pose proof (I3 _ _ L K N') as E. destruct (mem f (members x)); [|exact E]. unfold get_or. rewrite E. now destruct (kw0 f).
    + intros g f L J. apply in_app_iff in J. destruct J as [J|[<-|[]]]; [|exfalso; now apply (a_group_listed_ne _ _ _ GX L)].
      destruct (I4 _ _ L J) as [E1 E2]. split; [|exact E2]. rewrite opt_in_fst by exact GX. destruct (String.eqb f x); [reflexivity|].
      destruct (mem f (members x)); [|exact E1]. unfold get_or. now rewrite E1.
    + intros g f L K A. rewrite opt_in_fst by exact GX. destruct (String.eqb f x); [reflexivity|].
      destruct (dec_asked done g f L) as [B|B].
      * pose proof (I5 _ _ L K B) as E. destruct (mem f (members x)); [|exact E]. unfold get_or. now rewrite E.
      * pose proof (I6 _ _ L K B) as E. apply asked_app in A. destruct A as [A|[A|A]]; [contradiction|exfalso; subst; now apply (a_group_listed_ne _ _ _ GX L)|].
        apply members_iff, mem_in in A. rewrite A. unfold get_or. now rewrite E.
    + intros g f L K A. rewrite opt_in_fst by exact GX. destruct (String.eqb_spec f x) as [->|D].
      { exfalso. now apply (a_group_listed_ne _ _ _ GX L). }
      destruct (mem f (members x)) eqn:M. { apply mem_in, members_iff in M. exfalso. apply A, asked_app. auto. }
      apply (I6 _ _ L K). intros B. apply A, asked_app. auto.
    + intros g f L. rewrite opt_in_snd, asked_app. destruct (mem f (members x)) eqn:M.
      * apply mem_in, members_iff in M. tauto.
      * rewrite (I7 _ _ L). split; [auto|]. intros [A|[A|A]]; [exact A|exfalso; subst; now apply (a_group_listed_ne _ _ _ GX L)|].
        apply members_iff, mem_in in A. congruence.
  - destruct (group_of x) as [h|] eqn:GO; [|discriminate]. apply group_of_iff in GO.
    destruct (get_or (fst st) h true) eqn:EH; [|discriminate]. destruct (get_or (fst st) x true) eqn:EX; [|discriminate].
    injection H as <-. pose proof (listed_group _ _ GO) as GH. pose proof (a_group_listed_ne _ _ _ GH GO) as NE.
    assert (NF : forall g f, listed g f -> f <> h) by (intros g f L; exact (a_group_listed_ne _ _ _ GH L)).
    assert (NG : forall g, a_group g -> g <> x) by (intros g G E; subst g; now apply (a_group_listed_ne _ _ _ G GO)).
    split; cbn [fst snd].
    + intros g G T. rewrite dset_ne by (apply NG; exact G). destruct (string_dec g h) as [->|D]; [apply dset_eq|].
      rewrite dset_ne by exact D. apply I1; [exact G|]. apply touched_app in T. destruct T as [T|[T|T]]; [exact T|exfalso; now apply (NG g)|].
      exfalso. apply D. exact (listed_unique _ _ _ T GO).
    + intros g G T. rewrite dset_ne by (apply NG; exact G). rewrite dset_ne. { apply I2; [exact G|]. intros U. apply T, touched_app. auto. }
      intros ->. apply T, touched_app. auto.
    + intros g f L K N. rewrite dset_ne; [|intros ->; apply N, in_or_app; cbn; auto]. rewrite dset_ne by (eapply NF; eauto).
      apply (I3 _ _ L K). intros J. apply N, in_or_app. auto.
    + intros g f L J. destruct (string_dec f x) as [->|D].
      * split; [apply dset_eq|]. intros K. destruct (mem x done) eqn:M; [apply mem_in in M; now apply (I4 _ _ L) in M|].
        apply mem_not in M. assert (K' : kw0 x <> None) by congruence. pose proof (I3 _ _ L K' M) as E. unfold get_or in EX. rewrite E, K in EX. discriminate.
      * rewrite dset_ne by exact D. rewrite dset_ne by (eapply NF; eauto). apply (I4 _ _ L). apply in_app_iff in J. destruct J as [J|[J|[]]]; congruence.
    + intros g f L K A. destruct (string_dec f x) as [->|D]; [apply dset_eq|]. rewrite dset_ne by exact D. rewrite dset_ne by (eapply NF; eauto).
      apply (I5 _ _ L K). apply asked_app in A. destruct A as [A|[A|A]]; [exact A|congruence|].
      exfalso. pose proof (listed_group _ _ A) as X. now apply (NG x).
    + intros g f L K A. rewrite dset_ne; [|intros ->; apply A, asked_app; auto]. rewrite dset_ne by (eapply NF; eauto).
      apply (I6 _ _ L K). intros B. apply A, asked_app. auto.
    + intros g f L. rewrite asked_app. destruct (string_dec f x) as [->|D]; [rewrite dset_eq; tauto|]. rewrite dset_ne by exact D. rewrite (I7 _ _ L).
      split; [auto|]. intros [A|[A|A]]; [exact A|congruence|]. exfalso. pose proof (listed_group _ _ A) as X. now apply (NG x).
Qed.
Lemma inv_all sel : forall done st st', invariant done st -> select_all st sel = Some st' -> invariant (done ++ sel) st'.
Proof.
  induction sel as [|x sel IH]; intros done st st' I H; cbn in H.
  - injection H as <-. now rewrite app_nil_r.
  - destruct (select_one st x) as [st1|] eqn:E; [|discriminate]. change (x :: sel) with ([x] ++ sel). rewrite app_assoc.
    eapply IH; [eapply inv_step; eauto|exact H].
Qed.
Lemma select_one_none done st x : invariant done st ->
  select_one st x = None <-> ~ a_name x \/ exists g, listed g x /\ (kw0 x = Some false \/ kw0 g = Some false /\ ~ touched done g).
Proof.
  intros [I1 I2 I3 I4 I5 I6 I7]. unfold select_one. destruct (is_group x) eqn:GX.
  - split; [discriminate|]. apply is_group_iff in GX. intros [H|(g & L & _)]; [exfalso; apply H; now left|].
    exfalso. now apply (a_group_listed_ne _ _ _ GX L).
  - destruct (group_of x) as [h|] eqn:GO.
    + apply group_of_iff in GO. pose proof (listed_group _ _ GO) as GH.
      assert (EH : get_or (fst st) h true = false <-> kw0 h = Some false /\ ~ touched done h).
      { unfold get_or. destruct (dec_touched done h) as [T|T].
        - rewrite (I1 _ GH T). split; [discriminate|tauto].
        - rewrite (I2 _ GH T). destruct (kw0 h) as [[|]|]; split; try discriminate; try tauto; intros [? ?]; discriminate. }
      assert (EX : get_or (fst st) x true = false <-> kw0 x = Some false).
      { unfold get_or. destruct (mem x done) eqn:M.
        - apply mem_in in M. destruct (I4 _ _ GO M) as [-> E2]. split; [discriminate|contradiction].
        - apply mem_not in M. destruct (kw0 x) as [b|] eqn:K.
          + rewrite (I3 _ _ GO) by congruence. rewrite K. destruct b; split; congruence.
          + split; [|discriminate]. destruct (dec_asked done h x GO) as [A|A]; [rewrite (I5 _ _ GO K A)|rewrite (I6 _ _ GO K A)]; discriminate. }
      split.
      * intros H. right. exists h. split; [exact GO|]. destruct (get_or (fst st) h true) eqn:A; [|right; apply EH; reflexivity].
        destruct (get_or (fst st) x true) eqn:B; [discriminate|]. left. apply EX. reflexivity.
      * intros [H|(g & L & [H|H])].
        -- exfalso. apply H. right. eauto.
        -- apply EX in H. rewrite H. now destruct (get_or (fst st) h true).
        -- rewrite (listed_unique _ _ _ L GO) in H. apply EH in H. now rewrite H.
    + split; [|reflexivity]. intros _. left. intros [A|(g & L)]; [apply is_group_iff in A; congruence|]. apply group_of_iff in L. congruence.
Qed.
Lemma select_all_none sel : forall done st, invariant done st ->
  select_all st sel = None <-> (exists x, In x sel /\ ~ a_name x) \/
    exists pre f post g, sel = pre ++ f :: post /\ listed g f /\ (kw0 f = Some false \/ kw0 g = Some false /\ ~ touched (done ++ pre) g).
Proof.
  induction sel as [|x sel IH]; intros done st I.
  - split; [discriminate|]. intros [(x & [] & _)|([|] & f & post & g & E & _)]; discriminate.
  - cbn [select_all]. pose proof (select_one_none done st x I) as N. destruct (select_one st x) as [st1|] eqn:E.
    + rewrite (IH (done ++ [x]) st1) by (eapply inv_step; eauto). split.
      * intros [(y & J & K)|(pre & f & post & g & -> & L & H)]; [left; exists y; split; [now right|exact K]|].
        right. exists (x :: pre), f, post, g. repeat split; auto. change (x :: pre) with ([x] ++ pre). now rewrite app_assoc.
      * intros [(y & [->|J] & K)|([|z pre] & f & post & g & EQ & L & H)].
        -- exfalso. destruct N as [_ N]. discriminate N. now left.
        -- left. eauto.
        -- injection EQ as <- <-. exfalso. destruct N as [_ N]. discriminate N. right. exists g. rewrite app_nil_r in H. auto.
        -- injection EQ as <- ->. right. exists pre, f, post, g. repeat split; auto. change (x :: pre) with ([x] ++ pre) in H. now rewrite app_assoc in H.
    + split; [intros _|reflexivity]. destruct N as [N _]. destruct (N eq_refl) as [H|(g & L & H)].
      * left. exists x. split; [now left|exact H].
      * right. exists [], x, sel, g. rewrite app_nil_r. auto.
Qed.
End Loop.

Lemma first_contradiction (off : string -> Prop) : forall n sel pre f post g, List.length pre <= n -> sel = pre ++ f :: post -> listed g f ->
  off g -> ~ In g pre -> exists pre' f' post', sel = pre' ++ f' :: post' /\ listed g f' /\ ~ touched pre' g.
Proof.
  induction n as [|n IH]; intros sel pre f post g LE E L O N.
  - destruct pre; [|cbn in LE; lia]. exists [], f, post. repeat split; auto. intros [[]|(h & [] & _)].
  - destruct (dec_touched pre g) as [T|T]; [|exists pre, f, post; auto]. destruct T as [T|(f' & I & L')]; [contradiction|].
    apply in_split in I. destruct I as (p1 & p2 & ->). eapply (IH sel p1 f' (p2 ++ f :: post) g); auto.
    + rewrite app_length in LE. cbn in LE. lia.
    + rewrite E. now rewrite <- app_assoc.
    + intros I. apply N, in_or_app. auto.
Qed.

Section One.
Variables (sel : list string) (kwargs : list (string * bool)).
Hypothesis K : keywords kwargs.
Definition start0 : string -> option bool := fun k => match group_of k with Some _ => Some (match sel with [] => true | _ => false end) | None => None end.
Lemma built e : sel <> [] -> construct sel kwargs = Some e ->
  (forall k b, In (k, b) kwargs -> a_name k) /\ exists kw ff, select_all (of_kwargs kwargs, start0) sel = Some (kw, ff) /\
   switches e = kw /\ extra_args e = kw /\ default_status e = false /\ (forall g, group_default e g = false) /\
   (forall k, final_filter e k = match kw k with Some b => Some b | None => ff k end).
Proof.
  intros N H. unfold construct in H. destruct (forallb known (map fst kwargs)) eqn:F; [|discriminate]. cbn [negb] in H. split.
  - intros k b I. rewrite forallb_forall in F. apply known_iff, F. apply in_map_iff. now exists (k, b).
  - fold start0 in H. destruct (select_all (of_kwargs kwargs, start0) sel) as [(kw & ff)|]; [|discriminate].
    injection H as <-. exists kw, ff. cbn [switches extra_args default_status group_default final_filter]. destruct sel; [congruence|].
    repeat split. intros g. now destruct (off_by_default g).
Qed.
Lemma start0_false : sel <> [] -> forall k, start0 k <> Some true.
Proof. intros N k. unfold start0. destruct sel; [congruence|]. destruct (group_of k); congruence. Qed.
Lemma kw_false k : of_kwargs kwargs k = Some false <-> switch_is kwargs k false. Proof. now apply of_kwargs_iff. Qed.
Lemma kw_true k : of_kwargs kwargs k = Some true <-> switch_is kwargs k true. Proof. now apply of_kwargs_iff. Qed.

(** What the object holds: a feature is enabled, and a group is switched on, as asked. *)
Lemma enabled_feature e g f : construct sel kwargs = Some e -> listed g f ->
  (get_or (extra_args e) f (default_status e) = true <-> ~ switch_is kwargs f false /\ match sel with [] => True | _ => In f sel \/ In g sel \/ switch_is kwargs f true end)
  /\ get_or (final_filter e) f false = get_or (extra_args e) f (default_status e).
Proof.
  intros H L. destruct sel as [|s sel'] eqn:S0.
  - unfold construct in H. destruct (negb (forallb known (map fst kwargs))); [discriminate|]. cbn [select_all] in H. injection H as <-. cbn [extra_args default_status final_filter].
    rewrite <- kw_false. unfold get_or. assert (GO : group_of f = Some g) by now apply group_of_iff. rewrite GO.
    destruct (of_kwargs kwargs f) as [[|]|]; split; auto; split; auto; try discriminate; intros; try (split; [discriminate|auto]); tauto.
  - rewrite <- S0 in *. assert (N : sel <> []) by congruence. destruct (built e N H) as (_ & kw & ff & SA & _ & -> & -> & _ & FF).
    pose proof (inv_all _ _ _ _ _ (inv_start _ _ (start0_false N)) SA) as I. cbn [app] in I. destruct I as [I1 I2 I3 I4 I5 I6 I7]. cbn [fst snd] in *.
    assert (AS : asked sel f <-> In f sel \/ In g sel).
    { unfold asked. split; [intros [A|(h & A & L')]; auto; rewrite (listed_unique _ _ _ L' L) in A; auto|]. intros [A|A]; [auto|right; eauto]. }
    unfold get_or. rewrite FF. rewrite <- kw_false, <- kw_true. destruct (of_kwargs kwargs f) as [b|] eqn:KF.
    + destruct (mem f sel) eqn:M.
      * apply mem_in in M. destruct (I4 _ _ L M) as [E1 E2]. rewrite E1. split; [|reflexivity]. rewrite KF in E2. tauto.
      * apply mem_not in M. assert (E : kw f = Some b) by (rewrite <- KF; apply (I3 _ _ L); congruence).
        rewrite E. split; [|reflexivity]. destruct b; split; auto; try discriminate.
        -- intros _. split; [congruence|auto].
        -- intros [X _]. congruence.
    + destruct (dec_asked sel g f L) as [A|A].
      * rewrite (I5 _ _ L KF A). split; [|reflexivity]. split; [|reflexivity]. intros _. split; [congruence|]. apply AS in A. tauto.
      * rewrite (I6 _ _ L KF A). split.
        -- split; [discriminate|]. intros (_ & [B|[B|B]]); [exfalso; apply A, AS; auto|exfalso; apply A, AS; auto|congruence].
        -- destruct (ff f) as [[|]|] eqn:EF; auto. exfalso. apply A. now apply (I7 _ _ L).
Qed.
Lemma enabled_group e g : construct sel kwargs = Some e -> a_group g ->
  get_or (switches e) g (group_default e g) = true <->
  match sel with
  | [] => switch_is kwargs g true \/ ~ switch_is kwargs g false /\ ~ In g opt_in_groups
  | _ => In g sel \/ (exists f', In f' sel /\ listed g f') \/ switch_is kwargs g true
  end.
Proof.
  intros H G. destruct sel as [|s sel'] eqn:S0.
  - unfold construct in H. destruct (negb (forallb known (map fst kwargs))); [discriminate|]. cbn [select_all] in H. injection H as <-. cbn [switches group_default].
    rewrite <- kw_false, <- kw_true. unfold get_or. destruct (of_kwargs kwargs g) as [[|]|].
    + split; auto.
    + split; [discriminate|]. intros [X|[X _]]; congruence.
    + change (off_by_default g) with (mem g opt_in_groups). destruct (mem g opt_in_groups) eqn:M.
      * split; [discriminate|]. intros [X|[_ X]]; [discriminate|]. apply mem_in in M. contradiction.
      * apply mem_not in M. split; [|reflexivity]. intros _. right. split; [discriminate|exact M].
  - rewrite <- S0 in *. assert (N : sel <> []) by congruence. destruct (built e N H) as (_ & kw & ff & SA & -> & _ & _ & GD & _).
    pose proof (inv_all _ _ _ _ _ (inv_start _ _ (start0_false N)) SA) as I. cbn [app] in I. destruct I as [I1 I2 _ _ _ _ _]. cbn [fst snd] in *.
    unfold get_or. rewrite GD. rewrite <- kw_true. destruct (dec_touched sel g) as [T|T].
    + rewrite (I1 _ G T). unfold touched in T. tauto.
    + rewrite (I2 _ G T). unfold touched in T. destruct (of_kwargs kwargs g) as [[|]|]; split; auto; try discriminate; intros [X|[X|X]]; try tauto; discriminate.
Qed.
End One.

Lemma emits_in t g f b : In (f, b) (emits t g) -> listed g f /\ b = get_or (fst t) f (snd t).
Proof.
  unfold emits. destruct (mem g _); rewrite in_map_iff.
  - intros (x & [= -> <-] & I). apply filter_In in I. rewrite <- members_iff. intuition congruence.
  - intros (x & [= -> <-] & I). rewrite <- members_iff. auto.
Qed.
Lemma emits_enabled t g f : listed g f -> get_or (fst t) f (snd t) = true -> In (f, true) (emits t g).
Proof.
  intros L E. apply members_iff in L. unfold emits. destruct (mem g _); apply in_map_iff; exists f; rewrite ?E; auto.
  split; [reflexivity|]. apply filter_In. auto.
Qed.
Lemma transform_in t e f b : In (f, b) (transform t e) <->
  exists g, get_or (switches e) g (group_default e g) = true /\ a_group g /\ In (f, b) (emits t g) /\ get_or (final_filter e) f false = true.
Proof.
  unfold transform. rewrite filter_In, in_flat_map. cbn [fst]. split.
  - intros ((g & O & I) & F). exists g. apply order_ok in O. destruct (get_or (switches e) g (group_default e g)); [auto|destruct I].
  - intros (g & S & G & I & F). split; [|exact F]. exists g. apply order_ok in G. rewrite S. auto.
Qed.
Lemma emits_names_nodup t g : NoDup (map fst (emits t g)).
Proof.
  unfold emits. pose proof (members_nodup g) as N. destruct (mem g _); rewrite map_map; cbn [fst]; rewrite map_id; [now apply NoDup_filter|exact N].
Qed.
Lemma transform_nodup t e : NoDup (map fst (transform t e)).
Proof.
  unfold transform. assert (X : forall (l : list (string * bool)) p, NoDup (map fst l) -> NoDup (map fst (filter p l))).
  { induction l as [|x l IH]; cbn; [constructor|]. intros p N. inversion N; subst. destruct (p x); cbn; [constructor|]; auto.
    intros I. apply H1. apply in_map_iff in I. destruct I as (y & <- & J). apply filter_In in J. apply in_map_iff. exists y. tauto. }
  apply X. clear X. pose proof order_nodup as N. assert (G : forall g, In g method_order -> a_group g) by (intros g; apply order_ok).
  revert N G. generalize method_order. induction l as [|g l IH]; intros N G; cbn [flat_map]; [constructor|]. inversion N; subst.
  rewrite map_app. assert (IHl : NoDup (map fst (flat_map (fun g => if get_or (switches e) g (group_default e g) then emits t g else []) l))).
  { apply IH; [assumption|]. intros h I. apply G. now right. }
  destruct (get_or (switches e) g (group_default e g)); [|exact IHl].
  assert (D : forall f, In f (map fst (emits t g)) -> In f (map fst (flat_map (fun g => if get_or (switches e) g (group_default e g) then emits t g else []) l)) -> False).
  { intros f A B. apply in_map_iff in A. destruct A as ((f1 & b1) & <- & A). apply in_map_iff in B. destruct B as ((f2 & b2) & E & B). cbn in E. subst f2.
    apply in_flat_map in B. destruct B as (h & I & B). apply emits_in in A. destruct (get_or (switches e) h (group_default e h)); [|destruct B].
    apply emits_in in B. destruct A as [A _], B as [B _]. cbn in A. rewrite (listed_unique _ _ _ B A) in I. contradiction. }
  pose proof (emits_names_nodup t g) as NG. revert NG D. generalize (map fst (emits t g)). induction l0 as [|x l0 IH0]; intros NG D; [exact IHl|].
  cbn. inversion NG; subst. constructor; [|apply IH0; [assumption|intros f A B; apply (D f); [now right|exact B]]].
  intros I. apply in_app_iff in I. destruct I as [I|I]; [contradiction|]. apply (D x); [now left|exact I].
Qed.

Lemma run_app h c : run (h ++ [c]) = step (run h) c.
Proof. unfold run. now rewrite fold_left_app. Qed.
Lemma run_length h : List.length (fst (run h)) = List.length h.
Proof.
  induction h as [|c h IH] using rev_ind; [reflexivity|]. rewrite run_app, app_length. unfold step.
  destruct (construct (fst c) (snd c)); cbn [fst]; rewrite app_length, IH; reflexivity.
Qed.
Lemma run_nth h : forall i c, nth_error h i = Some c -> nth_error (fst (run h)) i = Some (construct (fst c) (snd c)).
Proof.
  induction h as [|d h IH] using rev_ind; intros i c H; [destruct i; discriminate|]. rewrite run_app. unfold step.
  assert (X : nth_error (fst (run h) ++ [construct (fst d) (snd d)]) i = Some (construct (fst c) (snd c))).
  { destruct (PeanoNat.Nat.lt_ge_cases i (List.length h)) as [L|L].
    - rewrite nth_error_app1 in * by (rewrite ?run_length; lia). auto.
    - rewrite nth_error_app2 in * by (rewrite ?run_length; lia). rewrite run_length. destruct (i - List.length h) as [|j]; [cbn in *; congruence|].
      cbn in H. destruct j; discriminate. }
  destruct (construct (fst d) (snd d)); exact X.
Qed.

(* ------------------------------------------------------------------ C158 *)
(** The one object of a program reports exactly the features asked for, each once and with a computed value. *)
Theorem C158_reports : forall sel kwargs out, keywords kwargs -> report [(sel, kwargs)] 0 = Some out ->
  NoDup (map fst out) /\
  (forall f b, In (f, b) out -> b = true) /\
  (forall f, In f (map fst out) <-> exists g, listed g f /\ wanted sel kwargs g f).
Proof.
  intros sel kwargs out K H. unfold report in H. rewrite (run_nth [(sel, kwargs)] 0 (sel, kwargs) eq_refl) in H. cbn [fst snd] in H.
  destruct (construct sel kwargs) as [e|] eqn:C; [|discriminate]. cbn [fst snd] in H. injection H as <-.
  unfold run. cbn [fold_left]. unfold step. cbn [fst snd]. rewrite C. cbn [fst snd].
  assert (V : forall f b, In (f, b) (transform (extra_args e, default_status e) e) -> b = true).
  { intros f b I. apply transform_in in I. destruct I as (g & _ & _ & I & F). apply emits_in in I. destruct I as [L ->]. cbn [fst snd].
    destruct (enabled_feature sel kwargs K e g f C L) as [_ E]. congruence. }
  split; [apply transform_nodup|]. split; [exact V|]. intros f. rewrite in_map_iff. split.
  - intros ((f' & b) & E & I). cbn in E. subst f'. apply transform_in in I. destruct I as (g & S & G & I & F). apply emits_in in I. destruct I as [L _].
    exists g. split; [exact L|]. destruct (enabled_feature sel kwargs K e g f C L) as [E1 E2]. rewrite E2 in F. apply E1 in F.
    apply (enabled_group sel kwargs K e g C G) in S. unfold wanted. destruct sel; tauto.
  - intros (g & L & W). exists (f, true). split; [reflexivity|]. apply transform_in. exists g. pose proof (listed_group _ _ L) as G.
    destruct (enabled_feature sel kwargs K e g f C L) as [E1 E2]. pose proof (enabled_group sel kwargs K e g C G) as E3.
    assert (A : get_or (extra_args e) f (default_status e) = true) by (apply E1; unfold wanted in W; destruct sel; tauto).
    split; [apply E3; unfold wanted in W; destruct sel; tauto|]. split; [exact G|]. split; [now apply emits_enabled|congruence].
Qed.
(** Construction fails exactly for unknown names and contradictory requests. *)
Theorem C158_raises : forall sel kwargs, keywords kwargs ->
  report [(sel, kwargs)] 0 = None <->
  (exists k, (In k sel \/ exists b, switch_is kwargs k b) /\ ~ a_name k) \/ contradictory sel kwargs.
Proof.
  intros sel kwargs K. unfold report. rewrite (run_nth [(sel, kwargs)] 0 (sel, kwargs) eq_refl). cbn [fst snd].
  assert (X : construct sel kwargs = None <-> (exists k, (In k sel \/ exists b, switch_is kwargs k b) /\ ~ a_name k) \/ contradictory sel kwargs).
  { unfold construct. destruct (forallb known (map fst kwargs)) eqn:F; cbn [negb].
    - assert (KN : forall k b, switch_is kwargs k b -> a_name k).
      { intros k b I. rewrite forallb_forall in F. apply known_iff, F. apply in_map_iff. now exists (k, b). }
      destruct sel as [|s sel'] eqn:S0.
      + cbn. split; [discriminate|]. intros [(k & [[]|(b & I)] & N)|([|] & f & post & g & E & _)]; try discriminate. exfalso. eauto.
      + rewrite <- S0. assert (N : sel <> []) by congruence. replace (match sel with [] => true | _ => false end) with false by (rewrite S0; reflexivity).
        assert (SF : forall k, (fun k => match group_of k with Some _ => Some false | None => None end) k <> Some true) by (intros k; destruct (group_of k); congruence).
        pose proof (select_all_none (of_kwargs kwargs) sel [] _ (inv_start (of_kwargs kwargs) _ SF)) as Q. cbv beta in Q.
        transitivity (select_all (of_kwargs kwargs, fun k : string => match group_of k with Some _ => Some false | None => None end) sel = None).
        { destruct (select_all _ sel) as [(? & ?)|]; split; congruence. }
        rewrite Q. cbn [app]. split.
        * intros [(x & I & A)|(pre & f & post & g & E & L & H)]; [left; exists x; auto|]. right. exists pre, f, post, g. repeat split; auto.
          rewrite <- !kw_false by exact K. destruct H as [H|[H T]]; [auto|]. right. split; [exact H|]. intros I. apply T. now left.
        * intros [(k & [I|(b & I)] & A)|(pre & f & post & g & E & L & H)].
          -- left. eauto.
          -- exfalso. eauto.
          -- right. rewrite <- !kw_false in H by exact K. destruct H as [H|[H T]].
             ++ exists pre, f, post, g. auto.
             ++ destruct (first_contradiction (fun g => of_kwargs kwargs g = Some false) _ sel pre f post g (le_n _) E L H T) as (p' & f' & q' & E' & L' & T').
                exists p', f', q', g. auto.
    - split; [intros _|reflexivity]. left. assert (EX : existsb (fun k => negb (known k)) (map fst kwargs) = true).
      { clear -F. induction (map fst kwargs) as [|x l IH]; [discriminate|]. cbn in *. destruct (known x); cbn in *; auto. }
      apply existsb_exists in EX. destruct EX as (k & I & E). apply in_map_iff in I. destruct I as ((k' & b) & EQ & I). cbn in EQ. subst k'. exists k.
      split; [right; exists b; exact I|]. intros A. apply known_iff in A. rewrite A in E. discriminate. }
  rewrite <- X. destruct (construct sel kwargs); split; congruence.
Qed.
(** The order of the selection matters: the same request is accepted in one order and refused in the other. *)
Theorem C158_order_refuted :
  report [(["mean"; "statistics"], [("statistics", false)])] 0 = None /\
  report [(["statistics"; "mean"], [("statistics", false)])] 0 <> None.
Proof. vm_compute. split; [reflexivity|discriminate]. Qed.
(** Asking for one feature of an opt-in group by keyword gives nothing of that group. *)
Theorem C158_keyword_refuted : exists out, report [([], [("cusum_num", true)])] 0 = Some out /\ ~ In "cusum_num" (map fst out).
Proof.
  destruct (report [([], [("cusum_num", true)])] 0) as [out|] eqn:E; [|exfalso; vm_compute in E; discriminate]. exists out. split; [reflexivity|].
  assert (K : keywords [("cusum_num", true)]) by (repeat constructor; intros []). destruct (C158_reports _ _ _ K E) as (_ & _ & R). intros I. apply R in I.
  destruct I as (g & L & _ & [[X|[]]|[_ X]]).
  - assert (EQ : g = "cusum_num") by congruence. subst g. revert L. intros L. apply members_iff in L. vm_compute in L. exact L.
  - apply X. apply group_of_iff in L. vm_compute in L. injection L as <-. cbn. auto.
Qed.
Example C158_case : report [(["mean"; "stl_features"; "cusum_num"], [("peak", false)])] 0
  = Some [("mean", true); ("trend_strength", true); ("seasonality_strength", true); ("spikiness", true); ("trough", true); ("cusum_num", true)].
Proof. vm_compute. reflexivity. Qed.

(* ------------------------------------------------------------------ C157 *)
(** An object should report the same whatever other objects are constructed: it does not. *)
Theorem C157_independent_refuted :
  exists a b out out', report [a] 0 = Some out /\ report [a; b] 0 = Some out' /\
    In ("var", true) out /\ ~ In "var" (map fst out') /\ In ("y_acf1", true) out /\ In ("y_acf1", false) out'.
Proof.
  exists ([], []), (["mean"], []).
  destruct (report [([], [])] 0) as [o1|] eqn:E1; [|exfalso; vm_compute in E1; discriminate].
  destruct (report [([], []); (["mean"], [])] 0) as [o2|] eqn:E2; [|exfalso; vm_compute in E2; discriminate].
  exists o1, o2. vm_compute in E1, E2. injection E1 as <-. injection E2 as <-. split; [reflexivity|]. split; [reflexivity|].
  split; [cbn; tauto|].
  split; [intros H; apply mem_in in H; vm_compute in H; discriminate|]. split; cbn; tauto.
Qed.
(** It reports the same as long as no other object has been constructed since with success. *)
Theorem C157_latest_partial : forall h a later, (forall c, In c later -> report [c] 0 = None) ->
  report (h ++ a :: later) (List.length h) = report [a] 0.
Proof.
  intros h a later N.
  assert (T : report [a] 0 <> None -> snd (run (h ++ a :: later)) = snd (run [a])).
  { intros S. change (a :: later) with ([a] ++ later). rewrite app_assoc. induction later as [|c later IH] using rev_ind.
    - rewrite app_nil_r, run_app. change (run [a]) with (step ([], (fun _ => None, true)) a). unfold report in S.
      rewrite (run_nth [a] 0 a eq_refl) in S. unfold step. destruct (construct (fst a) (snd a)); [reflexivity|congruence].
    - rewrite app_assoc, run_app. unfold step at 1. assert (E : construct (fst c) (snd c) = None).
      { assert (I : In c (later ++ [c])) by (apply in_or_app; cbn; auto). apply N in I. unfold report in I.
        rewrite (run_nth [c] 0 c eq_refl) in I. destruct (construct (fst c) (snd c)); congruence. }
      rewrite E. cbn [snd]. apply IH. intros d I. apply N, in_or_app. auto. }
  unfold report in *. rewrite (run_nth [a] 0 a eq_refl) in *.
  rewrite (run_nth (h ++ a :: later) (List.length h) a) by (rewrite nth_error_app2, PeanoNat.Nat.sub_diag by lia; reflexivity).
  destruct (construct (fst a) (snd a)) as [e|] eqn:C; [|reflexivity]. rewrite T by discriminate. reflexivity.
Qed.
(** Whatever else is constructed, an object never reports a name it would not report alone. *)
Theorem C157_names_partial : forall h i a out alone, keywords (snd a) -> nth_error h i = Some a ->
  report h i = Some out -> report [a] 0 = Some alone -> forall f, In f (map fst out) -> In f (map fst alone).
Proof.
  intros h i (sel & kwargs) out alone K N H A f I. cbn [snd] in K. destruct (C158_reports _ _ _ K A) as (_ & _ & R). apply R. clear R.
  unfold report in H. rewrite (run_nth _ _ _ N) in H. cbn [fst snd] in H. destruct (construct sel kwargs) as [e|] eqn:C; [|discriminate]. injection H as <-.
  apply in_map_iff in I. destruct I as ((f' & b) & E & I). cbn in E. subst f'. apply transform_in in I. destruct I as (g & S & G & I & F).
  apply emits_in in I. destruct I as [L _]. exists g. split; [exact L|]. destruct (enabled_feature sel kwargs K e g f C L) as [E1 E2]. rewrite E2 in F. apply E1 in F.
  apply (enabled_group sel kwargs K e g C G) in S. unfold wanted. destruct sel; tauto.
Qed.
Example C157_case : report [([], []); (["no such feature"], []); (["mean"], [])] 1 = None /\
  report ([(["mean"], [])] ++ ([], []) :: [(["no such feature"], [])]) 1 = report [([], [])] 0.
Proof. split; vm_compute; reflexivity. Qed.

Print Assumptions C158_reports.
Print Assumptions C158_raises.
Print Assumptions C158_order_refuted.
Print Assumptions C158_keyword_refuted.
Print Assumptions C157_independent_refuted.
Print Assumptions C157_latest_partial.
Print Assumptions C157_names_partial.
