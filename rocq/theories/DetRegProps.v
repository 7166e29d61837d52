(** C318: the registry of the detector classes — specification, proofs and theorems. *)
From Coq Require Import List Bool Arith String Lia.
From Verif Require Import Common DetRegModel.
Import ListNotations.
Open Scope nat_scope.

(** ** Specification *)
(** classes are made from earlier classes, and no name is bound twice in a body *)
Definition well_formed (cs : list cls) : Prop :=
  forall i c, nth_error cs i = Some c -> (forall b, In b (c_bases c) \/ In b (c_mro c) -> b < i) /\ NoDup (map fst (c_own c)).
(** every method a user could call on an instance is implemented *)
Definition implemented (cs : list cls) (c : cls) : Prop := forall n, attribute cs c n <> Some true.
(** the first of the class and those after it in the order of lookup that binds the name decides *)
Definition decides (cs : list cls) (c : cls) (n : string) (a : bool) : Prop :=
  In (n, a) (c_own c) \/
  (~ In n (map fst (c_own c)) /\ exists l1 b k l2, c_mro c = l1 ++ b :: l2 /\ nth_error cs b = Some k /\ In (n, a) (c_own k) /\
     forall b' k', In b' l1 -> nth_error cs b' = Some k' -> ~ In n (map fst (c_own k'))).
(** the methods a class declares abstract itself, or does not implement although a direct base, an ordinary abstract class, asks for it *)
Inductive lacks (cs : list cls) : nat -> string -> Prop :=
| lacks_own i c n : nth_error cs i = Some c -> In (n, true) (c_own c) -> lacks cs i n
| lacks_base i c b k n : nth_error cs i = Some c -> In b (c_bases c) -> nth_error cs b = Some k -> c_meta k = Abc -> lacks cs b n ->
    attribute cs c n = Some true -> lacks cs i n.
(** a detector class that lacks nothing, under the name *)
Definition offered (cs : list cls) (name : string) (i : nat) : Prop :=
  exists c, nth_error cs i = Some c /\ c_meta c = Reg /\ c_name c = name /\ forall n, ~ lacks cs i n.
(** the right answer of isinstance *)
Definition is_a (cs : list cls) (o c : nat) : Prop := o = c \/ exists k, nth_error cs o = Some k /\ In c (c_mro k).
(** a class with a base, or base of a base, made by ABCMeta *)
Definition derives_abc (cs : list cls) (c : nat) : Prop := exists b k, is_a cs c b /\ nth_error cs b = Some k /\ c_meta k = Abc.

(** ** Proofs *)
Lemma mro_is_a cs o c : In c (mro_of cs o) <-> is_a cs o c.
Proof.
  unfold mro_of, is_a. destruct (nth_error cs o) as [k|]; cbn [In].
  - split; [intros [H|H]; [left; exact H | right; exists k; auto] | intros [H|(k' & E & H)]; [left; exact H | right; congruence]].
  - split; [intros [H|[]]; left; exact H | intros [H|(k' & E & _)]; [left; exact H | discriminate]].
Qed.
Lemma member_in x l : member x l = true <-> In x l.
Proof. unfold member. rewrite existsb_exists. split; [intros (y & Y & E); apply Nat.eqb_eq in E; congruence | intros I; exists x; split; [exact I | apply Nat.eqb_refl]]. Qed.
Lemma has_impl_spec cs c : has_impl cs c = true <-> derives_abc cs c.
Proof.
  unfold has_impl, derives_abc. rewrite existsb_exists. split.
  - intros (b & I & H). destruct (nth_error cs b) as [k|] eqn:E; [| discriminate]. exists b, k. split; [apply mro_is_a; exact I |]. split; [exact E |]. destruct (c_meta k); [discriminate | reflexivity | discriminate].
  - intros (b & k & I & E & M). exists b. split; [apply mro_is_a; exact I | rewrite E, M; reflexivity].
Qed.
Lemma inherited_app cs c mro n : (forall b, In b mro -> b < List.length cs) -> inherited (cs ++ [c]) mro n = inherited cs mro n.
Proof.
  induction mro as [|b mro IH]; intros H; [reflexivity |]. cbn [inherited]. rewrite nth_error_app1 by (apply H; left; reflexivity).
  rewrite IH by (intros x X; apply H; right; exact X). reflexivity.
Qed.
Lemma lacks_lt cs i n : lacks cs i n -> i < List.length cs.
Proof. intros H. destruct H as [i c n E _|i c b k n E _ _ _ _ _]; apply nth_error_Some; congruence. Qed.
Lemma wf_prefix cs c : well_formed (cs ++ [c]) -> well_formed cs.
Proof. intros W i d E. apply W. rewrite nth_error_app1; [exact E | apply nth_error_Some; congruence]. Qed.
Lemma lacks_app cs c i n : well_formed (cs ++ [c]) -> i < List.length cs -> lacks (cs ++ [c]) i n <-> lacks cs i n.
Proof.
  intros W L. split; intros H.
  - revert L. induction H as [i d n E I|i d b k n E B Ek M Hl IH A]; intros L; rewrite nth_error_app1 in E by exact L.
    + exact (lacks_own _ _ _ _ E I).
    + assert (D : nth_error (cs ++ [c]) i = Some d) by (rewrite nth_error_app1; assumption). destruct (W i d D) as (Wb & _).
      assert (b < List.length cs) as Lb by (specialize (Wb b (or_introl B)); lia). rewrite nth_error_app1 in Ek by exact Lb.
      refine (lacks_base _ _ _ _ _ _ E B Ek M (IH Lb) _). unfold attribute in *. rewrite inherited_app in A; [exact A |]. intros x X. specialize (Wb x (or_intror X)). lia.
  - clear L. induction H as [i d n E I|i d b k n E B Ek M Hl IH A].
    + apply (lacks_own _ _ d); [rewrite nth_error_app1; [exact E | apply nth_error_Some; congruence] | exact I].
    + assert (Li : i < List.length cs) by (apply nth_error_Some; congruence). assert (Lb : b < List.length cs) by (apply nth_error_Some; congruence).
      assert (D : nth_error (cs ++ [c]) i = Some d) by (rewrite nth_error_app1; assumption). destruct (W i d D) as (Wb & _).
      apply (lacks_base _ _ d b k); [exact D | exact B | rewrite nth_error_app1; assumption | exact M | exact IH |].
      unfold attribute in *. rewrite inherited_app; [exact A |]. intros x X. specialize (Wb x (or_intror X)). lia.
Qed.
Lemma own_in c n : In n (own_abstract c) <-> In (n, true) (c_own c).
Proof.
  unfold own_abstract. rewrite in_map_iff. split.
  - intros ([m a] & <- & I). apply filter_In in I. cbn [snd fst] in *. destruct I as (I & ->). exact I.
  - intros I. exists (n, true). split; [reflexivity |]. apply filter_In. split; [exact I | reflexivity].
Qed.
Lemma get_put {A} k k' (v : A) d : get k (put k' v d) = if String.eqb k' k then Some v else get k d.
Proof.
  induction d as [|[k0 w] d IH]; cbn [put get]; [reflexivity |]. destruct (String.eqb k0 k') eqn:E; cbn [get].
  - apply String.eqb_eq in E. subst k0. destruct (String.eqb k' k) eqn:F; reflexivity.
  - rewrite IH. destruct (String.eqb k0 k) eqn:F; [| reflexivity]. apply String.eqb_eq in F. subst k0. rewrite String.eqb_sym, E. reflexivity.
Qed.
(** what the state of a program knows *)
Definition right (cs : list cls) (s : state) : Prop :=
  classes s = cs /\ List.length (abs s) = List.length cs /\
  (forall i c, nth_error cs i = Some c -> match c_meta c with
     | Abc => exists l, nth_error (abs s) i = Some (Some l) /\ forall n, In n l <-> lacks cs i n
     | _ => nth_error (abs s) i = Some None end) /\
  (forall name i, by_name s name = Some i <-> offered cs name i /\ forall j, i < j -> ~ offered cs name j).
Lemma new_lacks cs s c n : right cs s -> well_formed (cs ++ [c]) ->
  In n (own_abstract c ++ base_abstract (classes s) (abs s) c) <-> lacks (cs ++ [c]) (List.length cs) n.
Proof.
  intros (-> & LA & AB & _) W. assert (E : nth_error (cs ++ [c]) (List.length cs) = Some c) by (rewrite nth_error_app2, Nat.sub_diag by lia; reflexivity).
  destruct (W _ _ E) as (Wb & _).
  assert (AT : forall m, attribute (cs ++ [c]) c m = attribute cs c m) by (intros m; unfold attribute; rewrite inherited_app; [reflexivity |]; intros x X; apply Wb; right; exact X).
  rewrite in_app_iff. split.
  - intros [I|I]; [apply own_in in I; exact (lacks_own _ _ _ _ E I) |]. unfold base_abstract in I. apply in_flat_map in I. destruct I as (b & B & I).
    assert (Lb : b < List.length cs) by (apply Wb; left; exact B). destruct (nth_error cs b) as [k|] eqn:Ek; [| apply nth_error_None in Ek; lia]. pose proof (AB b k Ek) as AK.
    destruct (c_meta k) eqn:M; try (rewrite AK in I; destruct I). destruct AK as (l & El & Il). rewrite El in I. apply filter_In in I. destruct I as (I & A).
    apply (lacks_base _ _ c b k); [exact E | exact B | rewrite nth_error_app1; assumption | exact M | apply lacks_app; [exact W | exact Lb | apply Il; exact I] |].
    rewrite AT. destruct (attribute cs c n) as [[|]|]; [reflexivity | discriminate | discriminate].
  - intros H. inversion H as [i d m E' I|i d b k m E' B Ek M Hl A]; subst; rewrite E in E'; injection E' as <-; [left; apply own_in; exact I |].
    right. assert (Lb : b < List.length cs) by (apply Wb; left; exact B). rewrite nth_error_app1 in Ek by exact Lb. pose proof (AB b k Ek) as AK. rewrite M in AK. destruct AK as (l & El & Il).
    unfold base_abstract. apply in_flat_map. exists b. split; [exact B |]. rewrite El. apply filter_In. split; [apply Il; apply (lacks_app cs c); assumption |]. rewrite <- AT, A. reflexivity.
Qed.
Lemma offered_app cs c name i : well_formed (cs ++ [c]) -> i < List.length cs -> offered (cs ++ [c]) name i <-> offered cs name i.
Proof.
  intros W L. unfold offered. rewrite nth_error_app1 by exact L. split; intros (d & E & M & N & H); exists d; (split; [exact E |]); (split; [exact M |]); (split; [exact N |]);
    intros n X; apply (H n); apply (lacks_app cs c i n W L); exact X.
Qed.
Lemma offered_lt cs name i : offered cs name i -> i < List.length cs.
Proof. intros (c & E & _). apply nth_error_Some. congruence. Qed.
Lemma define_right cs s c : right cs s -> well_formed (cs ++ [c]) -> right (cs ++ [c]) (define s c).
Proof.
  intros R W. pose proof (fun n => new_lacks cs s c n R W) as NL. destruct R as (EC & LA & AB & BN).
  assert (E : nth_error (cs ++ [c]) (List.length cs) = Some c) by (rewrite nth_error_app2, Nat.sub_diag by lia; reflexivity).
  unfold right, define. cbn [classes abs]. split; [rewrite EC; reflexivity |]. split; [rewrite !app_length, LA; reflexivity |]. split.
  - intros i d Ei. destruct (Nat.lt_ge_cases i (List.length cs)) as [L|L].
    + rewrite nth_error_app1 in Ei by exact L. specialize (AB i d Ei). rewrite nth_error_app1 by lia. destruct (c_meta d); try exact AB.
      destruct AB as (l & El & Il). exists l. split; [exact El |]. intros n. rewrite Il. symmetry. apply lacks_app; assumption.
    + assert (i = List.length cs) as -> by (assert (i < List.length (cs ++ [c])) by (apply nth_error_Some; congruence); rewrite app_length in *; cbn in *; lia).
      rewrite E in Ei. injection Ei as <-. rewrite nth_error_app2 by lia. rewrite LA, Nat.sub_diag. cbn [nth_error]. unfold abstract_methods.
      destruct (c_meta c); try reflexivity. eexists. split; [reflexivity | exact NL].
  - intros name i. unfold by_name. cbn [registry].
    assert (NEW : offered (cs ++ [c]) name (List.length cs) <-> c_meta c = Reg /\ c_name c = name /\ is_abstract (classes s) (abs s) c = false).
    { unfold offered, is_abstract. split.
      - intros (d & Ed & M & N & H). rewrite E in Ed. injection Ed as <-. split; [exact M |]. split; [exact N |].
        destruct (own_abstract c ++ base_abstract (classes s) (abs s) c) as [|x l] eqn:El; [reflexivity |]. destruct (H x). apply NL. left; reflexivity.
      - intros (M & N & H). exists c. split; [exact E |]. split; [exact M |]. split; [exact N |]. intros n X. apply NL in X.
        destruct (own_abstract c ++ base_abstract (classes s) (abs s) c); [destruct X | discriminate]. }
    assert (OLD : offered cs name i /\ (forall j, i < j -> ~ offered cs name j) <-> by_name s name = Some i) by (symmetry; apply BN).
    assert (KEEP : ~ offered (cs ++ [c]) name (List.length cs) -> by_name s name = Some i <-> offered (cs ++ [c]) name i /\ forall j, i < j -> ~ offered (cs ++ [c]) name j).
    { intros NO. rewrite <- OLD. split; intros (O & H).
      - pose proof (offered_lt _ _ _ O) as L. split; [apply offered_app; assumption |]. intros j J X. destruct (Nat.lt_ge_cases j (List.length cs)) as [Lj|Lj].
        + apply (H j J). apply (offered_app cs c); assumption.
        + pose proof (offered_lt _ _ _ X) as Lj'. rewrite app_length in Lj'. cbn in Lj'. assert (j = List.length cs) as -> by lia. contradiction.
      - pose proof (offered_lt _ _ _ O) as L. rewrite app_length in L. cbn in L. destruct (Nat.eq_dec i (List.length cs)) as [->|Ne]; [contradiction |].
        assert (Li : i < List.length cs) by lia. split; [apply (offered_app cs c); assumption |]. intros j J X. apply (H j J). apply offered_app; [exact W | exact (offered_lt _ _ _ X) | exact X]. }
    destruct (c_meta c) eqn:M; try (apply KEEP; intros X; apply NEW in X; destruct X as (X & _); discriminate).
    destruct (is_abstract (classes s) (abs s) c) eqn:IA; [apply KEEP; intros X; apply NEW in X; destruct X as (_ & _ & X); discriminate |].
    rewrite get_put. destruct (String.eqb (c_name c) name) eqn:EN.
    + apply String.eqb_eq in EN. assert (O : offered (cs ++ [c]) name (List.length cs)) by (apply NEW; auto). rewrite EC. split.
      * intros X. injection X as <-. split; [exact O |]. intros j J X. apply offered_lt in X. rewrite app_length in X. cbn in X. lia.
      * intros (X & H). pose proof (offered_lt _ _ _ X) as L. rewrite app_length in L. cbn in L. destruct (Nat.eq_dec i (List.length cs)) as [->|Ne]; [reflexivity |]. destruct (H (List.length cs)); [lia | exact O].
    + apply String.eqb_neq in EN. apply KEEP. intros X. apply NEW in X. destruct X as (_ & X & _). contradiction.
Qed.
Lemma program_right cs : well_formed cs -> right cs (program cs).
Proof.
  induction cs as [|c cs IH] using rev_ind; intros W.
  - split; [reflexivity |]. split; [reflexivity |]. split; [intros [|i] c E; discriminate |]. intros name i. split; [discriminate |]. intros (O & _). apply offered_lt in O. cbn in O. lia.
  - unfold program. rewrite fold_left_app. cbn [fold_left]. apply define_right; [apply IH; exact (wf_prefix _ _ W) | exact W].
Qed.
Lemma get_nodup {A} n (a : A) d : NoDup (map fst d) -> In (n, a) d -> get n d = Some a.
Proof.
  induction d as [|[k v] d IH]; intros N I; [destruct I |]. cbn [map fst] in N. inversion N as [|x l NI ND]; subst. cbn [get]. destruct I as [I|I].
  - injection I as -> ->. rewrite String.eqb_refl. reflexivity.
  - destruct (String.eqb k n) eqn:E; [| apply IH; assumption]. apply String.eqb_eq in E. subst k. destruct NI. apply (in_map fst) in I. exact I.
Qed.

Lemma get_some {A} n (a : A) d : get n d = Some a -> In (n, a) d.
Proof. induction d as [|[k v] d IH]; cbn [get]; [discriminate |]. destruct (String.eqb k n) eqn:E; intros H; [apply String.eqb_eq in E; left; congruence | right; auto]. Qed.
Lemma get_none {A} n (d : list (string * A)) : get n d = None <-> ~ In n (map fst d).
Proof.
  induction d as [|[k v] d IH]; cbn [get map fst In]; [tauto |]. destruct (String.eqb k n) eqn:E.
  - apply String.eqb_eq in E. split; [discriminate | intros H; destruct H; left; exact E].
  - apply String.eqb_neq in E. rewrite IH. tauto.
Qed.
Lemma inherited_spec cs n a mro : (forall b k, In b mro -> nth_error cs b = Some k -> NoDup (map fst (c_own k))) ->
  inherited cs mro n = Some a <-> exists l1 b k l2, mro = l1 ++ b :: l2 /\ nth_error cs b = Some k /\ In (n, a) (c_own k) /\
     forall b' k', In b' l1 -> nth_error cs b' = Some k' -> ~ In n (map fst (c_own k')).
Proof.
  induction mro as [|b mro IH]; intros U.
  - cbn. split; [discriminate |]. intros (l1 & b & k & l2 & E & _). destruct l1; discriminate.
  - assert (IH' := IH (fun x k I => U x k (or_intror I))). cbn [inherited].
    assert (SKIP : (forall k, nth_error cs b = Some k -> ~ In n (map fst (c_own k))) ->
      (exists l1 b0 k l2, b :: mro = l1 ++ b0 :: l2 /\ nth_error cs b0 = Some k /\ In (n, a) (c_own k) /\ forall b' k', In b' l1 -> nth_error cs b' = Some k' -> ~ In n (map fst (c_own k')))
      <-> (exists l1 b0 k l2, mro = l1 ++ b0 :: l2 /\ nth_error cs b0 = Some k /\ In (n, a) (c_own k) /\ forall b' k', In b' l1 -> nth_error cs b' = Some k' -> ~ In n (map fst (c_own k')))).
    { intros NB. split.
      - intros (l1 & b0 & k & l2 & E & Ek & I & H). destruct l1 as [|x l1]; cbn in E; injection E as E1 E2.
        + subst b0. destruct (NB k Ek). apply (in_map fst) in I. exact I.
        + exists l1, b0, k, l2. split; [exact E2 |]. split; [exact Ek |]. split; [exact I |]. intros b' k' I'. apply H. right. exact I'.
      - intros (l1 & b0 & k & l2 & E & Ek & I & H). exists (b :: l1), b0, k, l2. split; [cbn; congruence |]. split; [exact Ek |]. split; [exact I |].
        intros b' k' [<-|I'] E'; [exact (NB k' E') | exact (H b' k' I' E')]. }
    destruct (nth_error cs b) as [k|] eqn:Ek.
    + destruct (get n (c_own k)) as [v|] eqn:G.
      * split.
        -- intros H. injection H as ->. exists [], b, k, mro. split; [reflexivity |]. split; [exact Ek |]. split; [exact (get_some _ _ _ G) | intros b' k' []].
        -- intros (l1 & b0 & k0 & l2 & E & Ek0 & I & H). destruct l1 as [|x l1]; cbn in E; injection E as E1 E2.
           ++ subst b0. assert (k0 = k) as -> by congruence. rewrite (get_nodup n a _ (U b k (or_introl eq_refl) Ek) I) in G. congruence.
           ++ subst x. destruct (H b k (or_introl eq_refl) Ek). apply get_some in G. apply (in_map fst) in G. exact G.
      * rewrite IH'. symmetry. apply SKIP. intros k0 E0. assert (k0 = k) as -> by congruence. apply get_none. exact G.
    + rewrite IH'. symmetry. apply SKIP. intros k0 E0. discriminate.
Qed.

(** ** Theorems *)
(** C318.  After any sequence of class statements, a name stands for the last detector class of that name that lacks nothing, and for
    nothing if there is none. *)
Theorem C318_by_name : forall cs name, well_formed cs ->
  (forall i, by_name (program cs) name = Some i <-> offered cs name i /\ forall j, i < j -> ~ offered cs name j) /\
  (by_name (program cs) name = None <-> forall i, ~ offered cs name i).
Proof.
  intros cs name W. destruct (program_right cs W) as (_ & _ & _ & B). split; [exact (B name) |]. split.
  - intros N. assert (G : forall m i, List.length cs <= i + m -> ~ offered cs name i).
    { induction m as [|m IH]; intros i L O; [apply offered_lt in O; lia |]. assert (X : by_name (program cs) name = Some i) by (apply B; split; [exact O | intros j J; apply IH; lia]). congruence. }
    intros i. apply (G (List.length cs)). lia.
  - intros H. destruct (by_name (program cs) name) as [i|] eqn:E; [| reflexivity]. apply B in E. destruct E as (O & _). destruct (H i O).
Qed.
(** Whether a method is implemented is decided by the first class that binds its name, in the order of lookup. *)
Theorem C318_attribute : forall cs i c n a, well_formed cs -> nth_error cs i = Some c -> attribute cs c n = Some a <-> decides cs c n a.
Proof.
  intros cs i c n a W E. destruct (W i c E) as (_ & ND). unfold attribute, decides. destruct (get n (c_own c)) as [v|] eqn:G.
  - pose proof (get_some _ _ _ G) as I. split.
    + intros H. injection H as ->. left. exact I.
    + intros [H|(H & _)]; [rewrite (get_nodup n a _ ND H) in G; congruence | destruct H; apply (in_map fst) in I; exact I].
  - apply get_none in G. rewrite inherited_spec by (intros b k _ Ek; exact (proj2 (W b k Ek))). split; [intros H; right; split; [exact G | exact H] |].
    intros [H|(_ & H)]; [destruct G; apply (in_map fst) in H; exact H | exact H].
Qed.
(** A detector class all of whose methods are implemented lacks nothing: it is never left out. *)
Theorem C318_complete : forall cs i c, well_formed cs -> nth_error cs i = Some c -> c_meta c = Reg -> implemented cs c -> offered cs (c_name c) i.
Proof.
  intros cs i c W E M I. exists c. split; [exact E |]. split; [exact M |]. split; [reflexivity |]. intros n L. apply (I n).
  inversion L as [j d m E' In'|j d b k m E' B Ek Mk Hl A]; subst; rewrite E in E'; injection E' as <-; [| exact A].
  unfold attribute. rewrite (get_nodup n true _ (proj2 (W i c E)) In'). reflexivity.
Qed.
(** A class with an abstract method in its body is never offered, nor one that misses a method of an abstract class it names as a base. *)
Theorem C318_abstract_partial : forall cs i c n name, well_formed cs -> nth_error cs i = Some c ->
  In (n, true) (c_own c) \/ (exists b k, In b (c_bases c) /\ nth_error cs b = Some k /\ c_meta k = Abc /\ In (n, true) (c_own k) /\ attribute cs c n = Some true) ->
  by_name (program cs) name <> Some i.
Proof.
  intros cs i c n name W E H X. destruct (C318_by_name cs name W) as (B & _). apply B in X. destruct X as ((d & Ed & _ & _ & L) & _). assert (d = c) as -> by congruence.
  destruct H as [H|(b & k & Hb & Ek & Mk & Hk & A)]; apply (L n); [exact (lacks_own _ _ _ _ E H) | apply (lacks_base _ _ c b k); try assumption; exact (lacks_own _ _ _ _ Ek Hk)].
Qed.
(** What is missing: a class that merely inherits abstract methods, from detector classes, is offered whatever it does not implement. *)
Theorem C318_inherited_refuted : forall cs i c, nth_error cs i = Some c -> c_meta c = Reg -> (forall n, ~ In (n, true) (c_own c)) ->
  (forall b k, In b (c_bases c) -> nth_error cs b = Some k -> c_meta k = Reg) -> offered cs (c_name c) i.
Proof.
  intros cs i c E M H B. exists c. split; [exact E |]. split; [exact M |]. split; [reflexivity |]. intros n L.
  inversion L as [j d m E' I|j d b k m E' Hb Ek Mk Hl A]; subst; rewrite E in E'; injection E' as <-; [exact (H n I) | rewrite (B b k Hb Ek) in Mk; discriminate].
Qed.
(** isinstance on a detector class without ABC among its bases answers for instances of exactly that class and raises for everything else,
    also for instances of its subclasses and for other objects; so does CUSUMDetectorModel's ==. *)
Theorem C318_isinstance_refuted : forall cs k o c same, ~ derives_abc cs c ->
  snd (instance cs k o c) = (if o =? c then Some true else None) /\ cusum_eq cs k c o same = (if o =? c then Some same else None).
Proof.
  intros cs k o c same H. rewrite <- has_impl_spec in H. apply not_true_is_false in H. unfold cusum_eq, instance. rewrite H. destruct (o =? c); split; reflexivity.
Qed.
(** For detector classes that derive from ABC, the first answer about the instances of a class is right. *)
Theorem C318_fresh_partial : forall cs k o c, derives_abc cs c -> member o (pos k) = false -> member o (neg k) = false ->
  exists a, snd (instance cs k o c) = Some a /\ (a = true <-> is_a cs o c).
Proof.
  intros cs k o c A P N. unfold instance. destruct (o =? c) eqn:E.
  - apply Nat.eqb_eq in E. exists true. split; [reflexivity |]. split; [intros _; left; exact E | reflexivity].
  - rewrite (proj2 (has_impl_spec cs c) A), P, N. cbn [negb]. destruct (member c (mro_of cs o)) eqn:M.
    + exists true. split; [reflexivity |]. split; [intros _; apply mro_is_a, member_in; exact M | reflexivity].
    + exists false. split; [reflexivity |]. split; [discriminate |]. intros H. apply mro_is_a, member_in in H. congruence.
Qed.
(** For detector classes that derive from ABC, all answers about the instances of a class, apart from questions about the class itself,
    are the answer to the first question ever asked about them. *)
Theorem C318_first_question : forall cs o c0 c before between, o <> c0 -> o <> c -> derives_abc cs c0 -> derives_abc cs c ->
  (forall d, In (o, d) before -> d = o \/ ~ derives_abc cs d) ->
  exists a, nth_error (snd (ask cs no_caches (before ++ (o, c0) :: between ++ [(o, c)]))) (List.length before + 1 + List.length between) = Some (Some a) /\
    (a = true <-> is_a cs o c0).
Proof.
  intros cs o c0 c before between N0 N1 J0 J1 B0. pose proof (proj2 (has_impl_spec cs c0) J0) as I0. pose proof (proj2 (has_impl_spec cs c) J1) as I1.
  assert (B : forall x d, In (x, d) before -> x = o -> d = o \/ has_impl cs d = false).
  { intros x d I ->. destruct (B0 d I) as [H|H]; [left; exact H | right; apply not_true_is_false; rewrite has_impl_spec; exact H]. }
  exists (member c0 (mro_of cs o)). split; [| rewrite member_in; apply mro_is_a].
  assert (APP : forall l k r, ask cs k (l ++ r) = (fst (ask cs (fst (ask cs k l)) r), snd (ask cs k l) ++ snd (ask cs (fst (ask cs k l)) r))).
  { induction l as [|[x d] l IH]; intros k r; [cbn [app ask fst snd]; destruct (ask cs k r); reflexivity |]. cbn [app ask]. destruct (instance cs k x d) as [k' a]. rewrite IH. destruct (ask cs k' l) as [k'' q]. reflexivity. }
  assert (LEN : forall l k, List.length (snd (ask cs k l)) = List.length l).
  { induction l as [|[x d] l IH]; intros k; [reflexivity |]. cbn [ask]. destruct (instance cs k x d) as [k' a]. specialize (IH k'). destruct (ask cs k' l). cbn in *. congruence. }
  assert (ONE : forall x y l, member x (y :: l) = (x =? y) || member x l) by reflexivity.
  assert (OTHER : forall k x d, x <> o -> member o (pos (fst (instance cs k x d))) = member o (pos k) /\ member o (neg (fst (instance cs k x d))) = member o (neg k)).
  { intros k x d X. assert (E : (o =? x) = false) by (apply Nat.eqb_neq; congruence). unfold instance.
    repeat match goal with |- context [if ?b then _ else _] => destruct b end; cbn [fst pos neg]; rewrite ?ONE, ?E; split; reflexivity. }
  set (a := member c0 (mro_of cs o)).
  assert (FRESH : forall l k, (forall x d, In (x, d) l -> x = o -> d = o \/ has_impl cs d = false) -> member o (pos k) = false -> member o (neg k) = false ->
    member o (pos (fst (ask cs k l))) = false /\ member o (neg (fst (ask cs k l))) = false).
  { induction l as [|[x d] l IH]; intros k H P Q; [split; assumption |]. cbn [ask].
    assert (S : member o (pos (fst (instance cs k x d))) = false /\ member o (neg (fst (instance cs k x d))) = false).
    { destruct (Nat.eq_dec x o) as [->|Ne]; [| destruct (OTHER k x d Ne) as (-> & ->); auto]. unfold instance. destruct (H o d (or_introl eq_refl) eq_refl) as [->|Hd].
      - rewrite Nat.eqb_refl. auto.
      - rewrite Hd. destruct (o =? d); auto. }
    destruct (instance cs k x d) as [k' b]. cbn [fst] in S. destruct (IH k' (fun x d I => H x d (or_intror I)) (proj1 S) (proj2 S)) as (R1 & R2). destruct (ask cs k' l). auto. }
  assert (STAY : forall l k, member o (pos k) = a -> member o (neg k) = negb a -> member o (pos (fst (ask cs k l))) = a /\ member o (neg (fst (ask cs k l))) = negb a).
  { induction l as [|[x d] l IH]; intros k P Q; [split; assumption |]. cbn [ask].
    assert (S : member o (pos (fst (instance cs k x d))) = a /\ member o (neg (fst (instance cs k x d))) = negb a).
    { destruct (Nat.eq_dec x o) as [->|Ne]; [| destruct (OTHER k x d Ne) as (-> & ->); auto]. unfold instance. destruct (o =? d); [auto |]. destruct (negb (has_impl cs d)); [auto |].
      rewrite P, Q. destruct a; cbn; auto. }
    destruct (instance cs k x d) as [k' b]. cbn [fst] in S. destruct (IH k' (proj1 S) (proj2 S)) as (R1 & R2). destruct (ask cs k' l). auto. }
  rewrite APP. cbn [snd]. rewrite nth_error_app2 by (rewrite LEN; lia). rewrite LEN.
  replace (List.length before + 1 + List.length between - List.length before) with (S (List.length between)) by lia.
  destruct (FRESH before no_caches B eq_refl eq_refl) as (P & Q). set (k := fst (ask cs no_caches before)) in *.
  cbn [ask]. assert (S0 : member o (pos (fst (instance cs k o c0))) = a /\ member o (neg (fst (instance cs k o c0))) = negb a).
  { unfold instance. rewrite (proj2 (Nat.eqb_neq o c0) N0), I0, P, Q. cbn [negb]. subst a. destruct (member c0 (mro_of cs o)); cbn [fst pos neg]; rewrite ?ONE, Nat.eqb_refl; cbn [orb negb]; auto. }
  destruct (instance cs k o c0) as [k1 b]. cbn [fst] in S0. rewrite APP. destruct (STAY between k1 (proj1 S0) (proj2 S0)) as (P2 & Q2). set (k2 := fst (ask cs k1 between)) in *.
  cbn [snd nth_error]. rewrite nth_error_app2 by (rewrite LEN; lia). rewrite LEN, Nat.sub_diag. cbn [ask]. unfold instance.
  rewrite (proj2 (Nat.eqb_neq o c) N1), I1, P2, Q2. destruct a; reflexivity.
Qed.
(** DetectorModel, ABC, IntervalDetectorModel, TwoSampleIntervalDetectorModel, OneSampleIntervalDetectorModel,
    TwoSampleProportionIntervalDetectorModel, CUSUMDetectorModel, VectorizedCUSUMDetectorModel, and a detector of a user without predict *)
Definition library : list cls :=
  [ {| c_name := "DetectorModel"; c_bases := []; c_mro := []; c_own := [("__init__", true); ("serialize", true); ("fit", true); ("predict", true); ("fit_predict", true)]; c_meta := Reg |};
    {| c_name := "ABC"; c_bases := []; c_mro := []; c_own := []; c_meta := Abc |};
    {| c_name := "IntervalDetectorModel"; c_bases := [0; 1]; c_mro := [0; 1]; c_own := [("__init__", false); ("schema", true); ("serialize", false); ("fit", false); ("predict", false); ("fit_predict", false); ("_plot", true)]; c_meta := Reg |};
    {| c_name := "TwoSampleIntervalDetectorModel"; c_bases := [2; 1]; c_mro := [2; 0; 1]; c_own := [("__init__", false); ("schema", false); ("_plot", false); ("_get_variance", true)]; c_meta := Reg |};
    {| c_name := "OneSampleIntervalDetectorModel"; c_bases := [2; 1]; c_mro := [2; 0; 1]; c_own := [("schema", false); ("_one_sample_test_statistic", true)]; c_meta := Reg |};
    {| c_name := "TwoSampleProportionIntervalDetectorModel"; c_bases := [3]; c_mro := [3; 2; 0; 1]; c_own := [("_get_variance", false)]; c_meta := Reg |};
    {| c_name := "CUSUMDetectorModel"; c_bases := [0]; c_mro := [0]; c_own := [("__init__", false); ("serialize", false); ("fit", false); ("predict", false); ("fit_predict", false); ("__eq__", false)]; c_meta := Reg |};
    {| c_name := "VectorizedCUSUMDetectorModel"; c_bases := [6]; c_mro := [6; 0]; c_own := [("__init__", false)]; c_meta := Reg |};
    {| c_name := "Half"; c_bases := [0]; c_mro := [0]; c_own := [("__init__", false); ("serialize", false); ("fit", false)]; c_meta := Reg |} ]%string.
Example C318_case : well_formed library /\
  map (by_name (program library)) ["DetectorModel"; "IntervalDetectorModel"; "TwoSampleIntervalDetectorModel"; "TwoSampleProportionIntervalDetectorModel"; "CUSUMDetectorModel"; "Half"]%string
    = [None; None; None; Some 5; Some 6; Some 8] /\
  (exists c, nth_error library 8 = Some c /\ attribute library c "predict"%string = Some true) /\ (exists c, nth_error library 5 = Some c /\ implemented library c).
Proof.
  split; [| split; [reflexivity | split]].
  - intros i c E. do 9 (destruct i as [|i]; [injection E as <-; split; [cbn; intros b H; lia | cbn; repeat constructor; cbn; intuition discriminate] |]). destruct i; discriminate.
  - eexists. split; reflexivity.
  - eexists. split; [reflexivity |]. intros n. unfold attribute. cbn. repeat match goal with |- context [if ?b then _ else _] => destruct b eqn:? end; try discriminate.
Qed.
(** An instance of TwoSampleProportionIntervalDetectorModel: the order of two questions decides whether it is a one-sample, respectively no
    two-sample detector. *)
Example C318_isinstance_case : is_a library 5 3 /\ ~ is_a library 5 4 /\
  snd (ask library no_caches [(5, 3); (5, 4)]) = [Some true; Some true] /\ snd (ask library no_caches [(5, 4); (5, 3)]) = [Some false; Some false] /\
  derives_abc library 3 /\ ~ derives_abc library 6 /\ is_a library 7 6 /\ snd (instance library no_caches 7 6) = None.
Proof.
  assert (D : forall i, has_impl library i = false -> ~ derives_abc library i) by (intros i H X; apply has_impl_spec in X; congruence).
  split; [right; eexists; split; [reflexivity | cbn; tauto] |]. split; [intros [H|(k & E & H)]; [discriminate | injection E as <-; cbn in H; lia] |]. split; [reflexivity |]. split; [reflexivity |].
  split; [apply has_impl_spec; reflexivity |]. split; [apply D; reflexivity |]. split; [right; eexists; split; [reflexivity | cbn; tauto] | reflexivity].
Qed.

Print Assumptions C318_by_name.
Print Assumptions C318_attribute.
Print Assumptions C318_complete.
Print Assumptions C318_abstract_partial.
Print Assumptions C318_inherited_refuted.
Print Assumptions C318_isinstance_refuted.
Print Assumptions C318_fresh_partial.
Print Assumptions C318_first_question.
