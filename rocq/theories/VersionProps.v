(** C59: comparing versions. *)
From Coq Require Import List Arith Bool Lia.
From Verif Require Import VersionModel.
Import ListNotations.

Definition good {A} (c : A -> A -> comparison) : Prop :=
  (forall x y, c y x = CompOpp (c x y)) /\ (forall x y, c x y = Eq -> forall z, c x z = c y z) /\ (forall x y z, c x y = Lt -> c y z = Lt -> c x z = Lt).
Lemma good_nat : good Nat.compare.
Proof.
  split; [intros; apply Nat.compare_antisym|]. split; [intros x y E z; apply Nat.compare_eq in E; subst; reflexivity|]. intros x y z A B. apply Nat.compare_lt_iff in A, B. apply Nat.compare_lt_iff. lia.
Qed.
Lemma good_refl {A} (c : A -> A -> comparison) x : good c -> c x x = Eq.
Proof. intros (AS & _). specialize (AS x x). destruct (c x x); [reflexivity|discriminate|discriminate]. Qed.
Lemma good_eq_r {A} (c : A -> A -> comparison) x y z : good c -> c y z = Eq -> c x y = c x z.
Proof. intros (AS & E & _) H. rewrite (AS y x), (AS z x). f_equal. apply E, H. Qed.
(** comparisons one after the other, through functions on the same type *)
Lemma good_then {T A B} (f : T -> A) (g : T -> B) c d : good c -> good d -> good (fun x y : T => then_cmp (c (f x) (f y)) (d (g x) (g y))).
Proof.
  intros GC GD. pose proof GC as (CA & CE & CT). pose proof GD as (DA & DE & DT). split; [|split].
  - intros x y. rewrite (CA (f x)), (DA (g x)). destruct (c (f x) (f y)); reflexivity.
  - intros x y H z. destruct (c (f x) (f y)) eqn:E; try discriminate. cbn in H. rewrite (CE _ _ E), (DE _ _ H). reflexivity.
  - intros x y z H1 H2. destruct (c (f x) (f y)) eqn:E; try discriminate.
    + rewrite (CE _ _ E). destruct (c (f y) (f z)); try discriminate; [|reflexivity]. cbn in *. exact (DT _ _ _ H1 H2).
    + destruct (c (f y) (f z)) eqn:E2; try discriminate; [rewrite <- (good_eq_r c (f x) _ _ GC E2), E; reflexivity|]. rewrite (CT _ _ _ E E2). reflexivity.
Qed.
Lemma good_map {T A} (f : T -> A) c : good c -> good (fun x y => c (f x) (f y)).
Proof. intros (CA & CE & CT). split; [intros; apply CA|]. split; [intros x y E z; apply CE, E|]. intros x y z; apply CT. Qed.
Lemma good_ext {A} (c : A -> A -> comparison) : good c -> good (cmp_ext c).
Proof.
  intros (CA & CE & CT). split; [|split].
  - intros [|x|] [|y|]; cbn; try reflexivity. apply CA.
  - intros [|x|] [|y|] H [|z|]; cbn in *; try reflexivity; try discriminate. apply CE, H.
  - intros [|x|] [|y|] [|z|]; cbn; try discriminate; try reflexivity. apply CT.
Qed.
Lemma good_pair {A B} (c : A -> A -> comparison) (d : B -> B -> comparison) : good c -> good d -> good (cmp_pair c d).
Proof. intros. apply (good_then fst snd c d); assumption. Qed.
Lemma good_list {A} (c : A -> A -> comparison) : good c -> good (cmp_list c).
Proof.
  intros GC. pose proof GC as (CA & CE & CT). split; [|split].
  - induction x as [|a x IH]; intros [|b y]; cbn; try reflexivity. rewrite (CA a b), IH. destruct (c a b); reflexivity.
  - induction x as [|a x IH]; intros [|b y] H z; cbn in H; try discriminate; [reflexivity|]. destruct (c a b) eqn:E; try discriminate. cbn in H. destruct z as [|k z]; cbn; [reflexivity|]. rewrite (CE _ _ E), (IH _ H). reflexivity.
  - induction x as [|a x IH]; intros [|b y] [|k z] H1 H2; cbn in *; try discriminate; try reflexivity. destruct (c a b) eqn:E; try discriminate.
    + rewrite (CE _ _ E). destruct (c b k); try discriminate; [|reflexivity]. cbn in *. exact (IH _ _ H1 H2).
    + destruct (c b k) eqn:E2; try discriminate; [rewrite <- (good_eq_r c a _ _ GC E2), E; reflexivity|]. rewrite (CT _ _ _ E E2). reflexivity.
Qed.
Lemma good_key : good cmp_key.
Proof.
  unfold cmp_key. apply (good_then epoch (fun v => v) Nat.compare); [apply good_nat|]. apply (good_then key_release (fun v => v) (cmp_list Nat.compare)); [apply good_list, good_nat|].
  apply (good_then key_pre (fun v => v) (cmp_ext (cmp_pair Nat.compare Nat.compare))); [apply good_ext, good_pair; apply good_nat|]. apply (good_then key_post (fun v => v) (cmp_ext Nat.compare)); [apply good_ext, good_nat|].
  apply (good_then key_dev key_local (cmp_ext Nat.compare)); [apply good_ext, good_nat|]. apply good_ext, good_list, good_pair; [apply good_ext, good_nat|apply good_list, good_nat].
Qed.
Section Names.
Variable text : Type.
Variable installed : text -> option text.
Variable parse : text -> option version.
Variable special : text -> option text.
Notation cmp := (compare_versions text installed parse special).
Notation ver := (Parsed text).
(** Versions are totally preordered by <=, and the other comparisons agree with it. *)
Theorem C59_preorder : forall u v w,
  cmp LE u (ver u) = Some true /\
  (cmp LE u (ver v) = Some true \/ cmp LE v (ver u) = Some true) /\
  (cmp LE u (ver v) = Some true -> cmp LE v (ver w) = Some true -> cmp LE u (ver w) = Some true).
Proof.
  intros u v w. pose proof good_key as G. pose proof G as (A & E & T). cbn. split; [rewrite (good_refl _ _ G); reflexivity|]. split; [rewrite (A u v); destruct (cmp_key u v); cbn; auto|].
  intros H1 H2. f_equal. destruct (cmp_key u v) eqn:E1; try discriminate.
  - rewrite (E _ _ E1). destruct (cmp_key v w); [reflexivity|reflexivity|discriminate].
  - destruct (cmp_key v w) eqn:E2; try discriminate; [rewrite <- (good_eq_r _ _ _ _ G E2), E1; reflexivity|rewrite (T _ _ _ E1 E2); reflexivity].
Qed.
Theorem C59_consistent : forall u v,
  (cmp EQ u (ver v) = Some true <-> cmp LE u (ver v) = Some true /\ cmp LE v (ver u) = Some true) /\
  (cmp LT u (ver v) = Some true <-> cmp LE u (ver v) = Some true /\ cmp LE v (ver u) = Some false) /\
  (cmp GT u (ver v) = cmp LT v (ver u)) /\ (cmp GE u (ver v) = cmp LE v (ver u)) /\
  (cmp NE u (ver v) = Some true <-> cmp EQ u (ver v) = Some false) /\
  forall o, exists r, cmp o u (ver v) = Some r.
Proof.
  intros u v. pose proof good_key as (A & _). cbn. rewrite (A u v). split; [|split; [|split; [|split; [|split]]]].
  - destruct (cmp_key u v); cbn; split; try (intros [? ?]); try split; try discriminate; reflexivity.
  - destruct (cmp_key u v); cbn; split; try (intros [? ?]); try split; try discriminate; reflexivity.
  - destruct (cmp_key u v); reflexivity.
  - destruct (cmp_key u v); reflexivity.
  - destruct (cmp_key u v); cbn; split; try discriminate; reflexivity.
  - intros o. eexists. reflexivity.
Qed.
(** equal versions compare alike with everything *)
Theorem C59_equal : forall u v w o, cmp EQ u (ver v) = Some true -> cmp o u (ver w) = cmp o v (ver w) /\ cmp o w (ver u) = cmp o w (ver v).
Proof.
  intros u v w o H. pose proof good_key as G. pose proof G as (A & E & T). cbn in *. destruct (cmp_key u v) eqn:X; try discriminate. rewrite (E _ _ X), (good_eq_r _ w _ _ G X). split; reflexivity.
Qed.

(** *** Releases are compared number by number, as if continued with zeros *)
Lemma drop_zeros_spec l : exists k, l = repeat 0 k ++ drop_zeros l /\ match drop_zeros l with [] => True | x :: _ => x <> 0 end.
Proof. induction l as [|[|x] l IH]; [exists 0; cbn; auto| |exists 0; cbn; auto]. destruct IH as (k & E & H). exists (S k). cbn. rewrite <- E. split; [reflexivity|exact H]. Qed.
Lemma nth_zeros k i : nth i (repeat 0 k) 0 = 0.
Proof. revert i. induction k as [|k IH]; intros [|i]; cbn; auto. Qed.
Lemma key_release_nth v i : nth i (key_release v) 0 = nth i (release v) 0.
Proof.
  unfold key_release. destruct (drop_zeros_spec (rev (release v))) as (k & E & _). assert (R : release v = rev (drop_zeros (rev (release v))) ++ rev (repeat 0 k)) by (rewrite <- rev_app_distr, <- E, rev_involutive; reflexivity). rewrite R at 2.
  set (l := rev (drop_zeros (rev (release v)))). assert (Z : forall n, rev (repeat 0 n) = repeat 0 n). { intros n. induction n as [|n IH]; [reflexivity|]. cbn. rewrite IH. clear. induction n as [|n IH]; [reflexivity|]. cbn. rewrite IH. reflexivity. }
  rewrite Z. destruct (le_lt_dec (length l) i) as [H|H]; [rewrite nth_overflow, app_nth2, nth_zeros by lia; reflexivity|rewrite app_nth1 by lia; reflexivity].
Qed.
Definition trimmed (l : list nat) : Prop := l = [] \/ last l 0 <> 0.
Lemma key_release_trimmed v : trimmed (key_release v).
Proof.
  unfold key_release, trimmed. destruct (drop_zeros_spec (rev (release v))) as (k & _ & H). destruct (drop_zeros (rev (release v))) as [|x l]; [left; reflexivity|right]. cbn. rewrite last_last. exact H.
Qed.
Lemma trimmed_tail a l : trimmed (a :: l) -> trimmed l.
Proof. intros [H|H]; [discriminate|]. destruct l as [|b l]; [left; reflexivity|right; exact H]. Qed.
Lemma trimmed_first a l : trimmed (a :: l) -> exists i, (forall j, j < i -> nth j (a :: l) 0 = 0) /\ 0 < nth i (a :: l) 0.
Proof.
  revert a. induction l as [|b l IH]; intros a H; [exists 0; destruct H as [H|H]; [discriminate|]; cbn in *; split; [lia|lia]|]. destruct (Nat.eq_dec a 0) as [->|N]; [|exists 0; cbn; split; [lia|lia]].
  destruct (IH b (trimmed_tail _ _ H)) as (i & Z & P). exists (S i). split; [|exact P]. intros [|j] Hj; [reflexivity|]. cbn. apply Z. lia.
Qed.
Lemma cmp_release x y : trimmed x -> trimmed y ->
  (cmp_list Nat.compare x y = Eq <-> forall i, nth i x 0 = nth i y 0) /\
  (cmp_list Nat.compare x y = Lt <-> exists i, (forall j, j < i -> nth j x 0 = nth j y 0) /\ nth i x 0 < nth i y 0).
Proof.
  revert y. induction x as [|a x IH]; intros [|b y] TX TY; cbn [cmp_list].
  - split; [split; [reflexivity|reflexivity]|]. split; [discriminate|]. intros (i & _ & H). destruct i; cbn in H; lia.
  - destruct (trimmed_first _ _ TY) as (i & Z & P). split; [split; [discriminate|]; intros H; specialize (H i); destruct i; cbn in *; lia|]. split; [|reflexivity]. intros _. exists i. split; [intros j Hj; rewrite Z by exact Hj; destruct j; reflexivity|destruct i; exact P].
  - destruct (trimmed_first _ _ TX) as (i & Z & P). split; [split; [discriminate|]; intros H; specialize (H i); destruct i; cbn in *; lia|]. split; [discriminate|]. intros (k & E & L). destruct (lt_eq_lt_dec i k) as [[L1|L1]|L1]; [rewrite (E i L1) in P; destruct i; cbn in P; lia|subst k; destruct i; cbn in *; lia|rewrite (Z k L1) in L; destruct k; cbn in L; lia].
  - destruct (IH y (trimmed_tail _ _ TX) (trimmed_tail _ _ TY)) as [E L]. destruct (Nat.compare_spec a b) as [->|H|H]; cbn [then_cmp].
    + split.
      * rewrite E. split; [intros H [|i]; [reflexivity|apply H]|intros H i; apply (H (S i))].
      * rewrite L. split; [intros (i & A & B); exists (S i); split; [intros [|j] Hj; [reflexivity|apply A; lia]|exact B]|]. intros ([|i] & A & B); [cbn in B; lia|]. exists i. split; [intros j Hj; apply (A (S j)); lia|exact B].
    + split; [split; [discriminate|]; intros Q; specialize (Q 0); cbn in Q; lia|]. split; [|reflexivity]. intros _. exists 0. split; [lia|exact H].
    + split; [split; [discriminate|]; intros Q; specialize (Q 0); cbn in Q; lia|]. split; [discriminate|]. intros ([|i] & A & B); [cbn in B; lia|]. specialize (A 0 ltac:(lia)). cbn in A. lia.
Qed.
Theorem C59_release : forall v w,
  epoch v = epoch w -> pre v = pre w -> post v = post w -> dev v = dev w -> local v = local w ->
  (cmp EQ v (ver w) = Some true <-> forall i, nth i (release v) 0 = nth i (release w) 0) /\
  (cmp LT v (ver w) = Some true <-> exists i, (forall j, j < i -> nth j (release v) 0 = nth j (release w) 0) /\ nth i (release v) 0 < nth i (release w) 0).
Proof.
  intros v w E1 E2 E3 E4 E5. destruct (cmp_release _ _ (key_release_trimmed v) (key_release_trimmed w)) as [E L].
  assert (EE : (forall i, nth i (key_release v) 0 = nth i (key_release w) 0) <-> (forall i, nth i (release v) 0 = nth i (release w) 0)) by (split; intros H i; specialize (H i); rewrite !key_release_nth in *; exact H).
  assert (LL : (exists i, (forall j, j < i -> nth j (key_release v) 0 = nth j (key_release w) 0) /\ nth i (key_release v) 0 < nth i (key_release w) 0) <-> (exists i, (forall j, j < i -> nth j (release v) 0 = nth j (release w) 0) /\ nth i (release v) 0 < nth i (release w) 0)).
  { split; intros (i & A & B); exists i; (split; [intros j Hj; specialize (A j Hj)|]); rewrite !key_release_nth in *; assumption. }
  rewrite EE in E. rewrite LL in L. rewrite <- E, <- L. cbn. unfold cmp_key. rewrite E1, Nat.compare_refl. cbn [then_cmp].
  assert (P : key_pre v = key_pre w) by (unfold key_pre; rewrite E2, E3, E4; reflexivity). assert (P' : key_post v = key_post w) by (unfold key_post; rewrite E3; reflexivity). assert (P'' : key_dev v = key_dev w) by (unfold key_dev; rewrite E4; reflexivity). assert (Q : key_local v = key_local w) by (unfold key_local; rewrite E5; reflexivity). rewrite P, P', P'', Q.
  rewrite (good_refl (cmp_ext (cmp_pair Nat.compare Nat.compare))) by (apply good_ext, good_pair; apply good_nat). rewrite !(good_refl (cmp_ext Nat.compare)) by (apply good_ext, good_nat). rewrite (good_refl (cmp_ext (cmp_list _))) by (apply good_ext, good_list, good_pair; [apply good_ext, good_nat|apply good_list, good_nat]).
  destruct (cmp_list Nat.compare (key_release v) (key_release w)); cbn; split; split; intros; try reflexivity; discriminate.
Qed.
(** an earlier epoch is an earlier version, whatever follows *)
Theorem C59_epoch : forall v w, epoch v < epoch w -> cmp LT v (ver w) = Some true.
Proof. intros v w H. apply Nat.compare_lt_iff in H. cbn. unfold cmp_key. rewrite H. reflexivity. Qed.
(** Stages of one release: development, pre-releases in order, final, local, post-releases. *)
Theorem C59_stages : forall e r n p q l m,
  (fst p < fst q \/ fst p = fst q /\ snd p < snd q) ->
  cmp LT (Ver e r None None (Some n) None) (ver (Ver e r (Some p) None (Some n) None)) = Some true /\
  cmp LT (Ver e r (Some p) None (Some n) None) (ver (Ver e r (Some p) None None None)) = Some true /\
  cmp LT (Ver e r (Some p) None None None) (ver (Ver e r (Some q) None None None)) = Some true /\
  cmp LT (Ver e r (Some q) None None None) (ver (Ver e r None None None None)) = Some true /\
  cmp LT (Ver e r None None None None) (ver (Ver e r None None None (Some l))) = Some true /\
  cmp LT (Ver e r None None None (Some l)) (ver (Ver e r None (Some m) (Some n) None)) = Some true /\
  cmp LT (Ver e r None (Some m) (Some n) None) (ver (Ver e r None (Some m) None None)) = Some true /\
  cmp LT (Ver e r None (Some m) None None) (ver (Ver e r None (Some (S m)) None None)) = Some true.
Proof.
  intros e r n p q l m H. assert (RR : forall k, cmp_list Nat.compare k k = Eq) by (intros; apply good_refl, good_list, good_nat).
  assert (PP : forall k, cmp_pair Nat.compare Nat.compare k k = Eq) by (intros; apply good_refl, good_pair; apply good_nat).
  assert (PQ : cmp_pair Nat.compare Nat.compare p q = Lt) by (unfold cmp_pair; destruct H as [H|[H H2]]; [apply Nat.compare_lt_iff in H; rewrite H; reflexivity|rewrite H, Nat.compare_refl; cbn; apply Nat.compare_lt_iff, H2]).
  assert (MM : Nat.compare m (S m) = Lt) by (apply Nat.compare_lt_iff; lia).
  unfold compare_versions, make, cmp_key, key_release, key_pre, key_post, key_dev, key_local. cbn [epoch release pre post dev local].
  rewrite Nat.compare_refl. cbn [then_cmp]. rewrite !RR. cbn [then_cmp cmp_ext]. rewrite ?PP, ?PQ, ?Nat.compare_refl, ?MM. cbn [then_cmp cmp_ext holds]. repeat split.
Qed.
(** A text stands for the version of the library of that name, or else for the version it spells. *)
Theorem C59_text : forall o v s,
  (forall w, make text installed parse special (Text text s) = Some w -> cmp o v (Text text s) = cmp o v (ver w)) /\
  (special s = None -> installed s = None -> make text installed parse special (Text text s) = parse s) /\
  (forall i, special s = None -> installed s = Some i -> make text installed parse special (Text text s) = parse i).
Proof.
  intros o v s. split; [intros w H; unfold compare_versions; rewrite H; reflexivity|]. split; [intros A B|intros i A B]; cbn; unfold parse_name; rewrite A, B; reflexivity.
Qed.
End Names.
Example C59_case : let v r := Ver 0 r None None None None in
  compare_versions nat (fun _ => None) (fun _ => None) (fun _ => None) LT (v [1; 9]) (Parsed _ (v [1; 10])) = Some true /\
  compare_versions nat (fun _ => None) (fun _ => None) (fun _ => None) EQ (v [1]) (Parsed _ (v [1; 0; 0])) = Some true.
Proof. split; reflexivity. Qed.

Print Assumptions C59_preorder.
Print Assumptions C59_consistent.
Print Assumptions C59_equal.
Print Assumptions C59_release.
Print Assumptions C59_epoch.
Print Assumptions C59_stages.
Print Assumptions C59_text.
