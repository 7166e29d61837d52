(** Lemmas for C22 and C77-C79. *)
From Verif Require Import Common DTWModel DTWSpec DTWProofs.
From Coq Require Import Lqa Lia FinFun.
Open Scope nat_scope.

Lemma le_inf_total a b : le_inf a b \/ le_inf b a.
Proof. destruct a as [x|], b as [y|]; cbn; auto. destruct (Qlt_le_dec x y); [left|right]; lra. Qed.

(** *** first minimum and maximum *)
Section Extremes.
  Context {A : Type} (key : A -> option Q).
  Lemma first_min_from_in l : forall b, first_min_from key b l = b \/ In (first_min_from key b l) l.
  Proof.
    induction l as [|x t IH]; intros b; cbn; [left; reflexivity|].
    destruct (IH (if elt (key x) (key b) then x else b)) as [E|E]; [|right; right; exact E].
    rewrite E. destruct (elt (key x) (key b)); auto.
  Qed.
  Lemma first_min_from_le l : forall b,
    le_inf (key (first_min_from key b l)) (key b)
    /\ forall x, In x l -> le_inf (key (first_min_from key b l)) (key x).
  Proof.
    induction l as [|y t IH]; intros b; cbn; [split; [apply le_inf_refl|contradiction]|].
    destruct (IH (if elt (key y) (key b) then y else b)) as [H1 H2].
    assert (H3 : le_inf (key (if elt (key y) (key b) then y else b)) (key b)
              /\ le_inf (key (if elt (key y) (key b) then y else b)) (key y)).
    { destruct (elt (key y) (key b)) eqn:E; split; try apply le_inf_refl.
      - apply elt_lt, E.
      - apply elt_le, E. }
    split; [eapply le_inf_trans; [exact H1|apply H3]|].
    intros x [<-|Hx]; [eapply le_inf_trans; [exact H1|apply H3]|apply H2, Hx].
  Qed.
  Lemma first_min_spec l m : first_min key l = Some m ->
    In m l /\ forall x, In x l -> le_inf (key m) (key x).
  Proof.
    destruct l as [|b t]; [discriminate|]. cbn. intros E. injection E as <-.
    destruct (first_min_from_le t b) as [H1 H2]. split.
    - destruct (first_min_from_in t b) as [-> |H]; auto.
    - intros x [<-|Hx]; auto.
  Qed.
  Lemma first_min_from_split l : forall b,
    (first_min_from key b l = b /\ forall x, In x l -> le_inf (key b) (key x))
    \/ exists l1 m l2, l = l1 ++ m :: l2 /\ first_min_from key b l = m
         /\ ~ le_inf (key b) (key m) /\ (forall x, In x l1 -> ~ le_inf (key x) (key m))
         /\ (forall x, In x l2 -> le_inf (key m) (key x)).
  Proof.
    induction l as [|y t IH]; intros b; cbn; [left; split; [reflexivity|contradiction]|].
    destruct (elt (key y) (key b)) eqn:E.
    - assert (NE : ~ le_inf (key b) (key y)) by (intros C; apply elt_le in C; congruence).
      right. destruct (IH y) as [[E1 H]|(l1 & m & l2 & -> & E1 & N & H1 & H2)].
      + exists [], y, t. split; [reflexivity|]. split; [exact E1|]. split; [exact NE|]. split; [intros x []|exact H].
      + exists (y :: l1), m, l2. split; [reflexivity|]. split; [exact E1|]. split; [|split; [|exact H2]].
        * intros C. apply NE. eapply le_inf_trans; [exact C|]. destruct (first_min_from_le (l1 ++ m :: l2) y) as [F _].
          rewrite E1 in F. exact F.
        * intros x [<-|Hx]; [exact N|apply H1, Hx].
    - apply elt_le in E. destruct (IH b) as [[E1 H]|(l1 & m & l2 & -> & E1 & N & H1 & H2)].
      + left. split; [exact E1|]. intros x [<-|Hx]; [exact E|apply H, Hx].
      + right. exists (y :: l1), m, l2. split; [reflexivity|]. split; [exact E1|]. split; [exact N|]. split; [|exact H2].
        intros x [<-|Hx]; [|apply H1, Hx]. intros C. apply N. eapply le_inf_trans; [exact E|exact C].
  Qed.
  Lemma first_min_split l m : first_min key l = Some m ->
    exists l1 l2, l = l1 ++ m :: l2 /\ (forall x, In x l1 -> ~ le_inf (key x) (key m))
      /\ (forall x, In x l2 -> le_inf (key m) (key x)).
  Proof.
    destruct l as [|b t]; [discriminate|]. cbn. intros E. injection E as E.
    destruct (first_min_from_split t b) as [[E1 H]|(l1 & m' & l2 & -> & E1 & N & H1 & H2)].
    - rewrite E in E1. subst b. exists [], t. split; [reflexivity|]. split; [intros x []|exact H].
    - rewrite E in E1. subst m'. exists (b :: l1), l2. split; [reflexivity|]. split; [|exact H2].
      intros x [<-|Hx]; [exact N|apply H1, Hx].
  Qed.
  Lemma first_max_from_in l : forall b, first_max_from key b l = b \/ In (first_max_from key b l) l.
  Proof.
    induction l as [|x t IH]; intros b; cbn; [left; reflexivity|].
    destruct (IH (if elt (key b) (key x) then x else b)) as [E|E]; [|right; right; exact E].
    rewrite E. destruct (elt (key b) (key x)); auto.
  Qed.
  Lemma first_max_from_ge l : forall b,
    le_inf (key b) (key (first_max_from key b l))
    /\ forall x, In x l -> le_inf (key x) (key (first_max_from key b l)).
  Proof.
    induction l as [|y t IH]; intros b; cbn; [split; [apply le_inf_refl|contradiction]|].
    destruct (IH (if elt (key b) (key y) then y else b)) as [H1 H2].
    assert (H3 : le_inf (key b) (key (if elt (key b) (key y) then y else b))
              /\ le_inf (key y) (key (if elt (key b) (key y) then y else b))).
    { destruct (elt (key b) (key y)) eqn:E; split; try apply le_inf_refl.
      - apply elt_lt, E.
      - apply elt_le, E. }
    split; [eapply le_inf_trans; [apply H3|exact H1]|].
    intros x [<-|Hx]; [eapply le_inf_trans; [apply H3|exact H1]|apply H2, Hx].
  Qed.
  Lemma first_max_spec l m : first_max key l = Some m ->
    In m l /\ forall x, In x l -> le_inf (key x) (key m).
  Proof.
    destruct l as [|b t]; [discriminate|]. cbn. intros E. injection E as <-.
    destruct (first_max_from_ge t b) as [H1 H2]. split.
    - destruct (first_max_from_in t b) as [-> |H]; auto.
    - intros x [<-|Hx]; auto.
  Qed.
End Extremes.

(** *** the exhaustive search *)
Definition exh (a : list Q) (name inda : nat) (c : nat * nat * list Q) : dmatch :=
  MkMatch name inda (fst (fst c)) (snd (fst c)) (dtw a (snd c) (length (snd c) / 3)).

Lemma pruned_from a name inda : forall cands bsf best,
  (forall c, In c cands -> length (snd c) = length a) -> 3 <= length a ->
  m_dist best = bsf ->
  exists l, pruned a name inda cands bsf = Some l
    /\ first_min_from m_dist best l = first_min_from m_dist best (map (exh a name inda) cands).
Proof.
  induction cands as [|[[nb ib] b] t IH]; intros bsf best Hl H3 Hb; cbn [pruned map].
  - exists []. split; reflexivity.
  - assert (Lb : length b = length a) by (apply (Hl (nb, ib, b)); left; reflexivity).
    assert (Hw : 1 <= length b / 3) by (rewrite Lb; change 1 with (3 / 3); apply Nat.div_le_mono; lia).
    destruct (c21_bound a b (length b / 3) (eq_sym Lb) Hw) as (lb & -> & LB). cbv zeta.
    set (d := if elt (Some lb) bsf then dtw a b (length b / 3) else None).
    set (bsf' := if elt d bsf then d else bsf).
    set (x := MkMatch name inda nb ib d).
    destruct (IH bsf' (if elt d bsf then x else best)) as (l & -> & E).
    + intros c Hc. apply Hl. right. exact Hc.
    + exact H3.
    + unfold bsf'. destruct (elt d bsf); [reflexivity|exact Hb].
    + eexists. split; [reflexivity|]. cbn [first_min_from]. change (m_dist x) with d. rewrite Hb.
      rewrite E. f_equal. unfold exh at 1 2. cbn [fst snd m_dist]. unfold d, x, d.
      destruct (elt (Some lb) bsf) eqn:El; [reflexivity|].
      replace (elt None bsf) with false by reflexivity.
      replace (elt (dtw a b (length b / 3)) bsf) with false; [reflexivity|]. symmetry.
      apply elt_le. apply elt_le in El. eapply le_inf_trans; [exact El|exact LB].
Qed.
Lemma pruned_exhaustive a name inda cands :
  (forall c, In c cands -> length (snd c) = length a) -> 3 <= length a ->
  exists l, pruned a name inda cands None = Some l
    /\ first_min m_dist l = first_min m_dist (map (exh a name inda) cands).
Proof.
  intros Hl H3. destruct cands as [|[[nb ib] b] t]; [exists []; split; reflexivity|].
  assert (Lb : length b = length a) by (apply (Hl (nb, ib, b)); left; reflexivity).
  assert (Hw : 1 <= length b / 3) by (rewrite Lb; change 1 with (3 / 3); apply Nat.div_le_mono; lia).
  destruct (c21_bound a b (length b / 3) (eq_sym Lb) Hw) as (lb & E1 & LB).
  cbn [pruned]. rewrite E1. cbv zeta. cbn [elt].
  destruct (pruned_from a name inda t (dtw a b (length b / 3)) (exh a name inda (nb, ib, b)))
    as (l & E & F); [intros; apply Hl; right; assumption|exact H3|reflexivity|].
  replace (if elt (dtw a b (length b / 3)) None then dtw a b (length b / 3) else None)
    with (dtw a b (length b / 3)) by (destruct (dtw a b (length b / 3)); reflexivity).
  rewrite E. eexists. split; [reflexivity|]. cbn [first_min map]. f_equal. exact F.
Qed.

(** *** candidates *)
Lemma overlap_spec win a b : 1 <= win -> overlap win a b = false <-> (a + win <= b \/ b + win <= a).
Proof.
  intros H. unfold overlap. rewrite orb_false_iff, !andb_false_iff, !Nat.leb_gt. lia.
Qed.
Lemma candidates_in win same all name inda nb ib b : 1 <= win ->
  In (nb, ib, b) (candidates win same all name inda) <-> admissible all win same name inda nb ib b.
Proof.
  intros Hw. unfold candidates, admissible, has_window. rewrite in_flat_map. split.
  - intros ((n & ss) & Hin & H). cbn [fst snd] in H.
    destruct (negb (Nat.eqb name n) || same) eqn:E; [|contradiction].
    apply in_map_iff in H as ((i & v) & Q & H). cbn [fst snd] in *. injection Q as -> -> ->.
    apply filter_In in H as [H F]. cbn [fst snd] in F. split; [exists ss; split; assumption|].
    apply negb_true_iff, andb_false_iff in F. apply orb_true_iff in E.
    destruct (Nat.eqb_spec name nb) as [->|N]; [|left; congruence].
    destruct F as [F|F]; [discriminate|]. destruct E as [E|E]; [discriminate|].
    right. split; [exact E|]. apply overlap_spec; assumption.
  - intros ((ss & Hin & H) & A). exists (nb, ss). split; [exact Hin|]. cbn [fst snd].
    assert (E : negb (Nat.eqb name nb) || same = true).
    { destruct A as [A|[-> _]]; [|apply orb_true_r].
      destruct (Nat.eqb_spec name nb); [congruence|reflexivity]. }
    rewrite E. apply in_map_iff. exists (ib, b). split; [reflexivity|]. apply filter_In. split; [exact H|].
    cbn [fst snd]. apply negb_true_iff, andb_false_iff.
    destruct A as [A|[_ A]]; [left; apply Nat.eqb_neq; congruence|right; apply overlap_spec; assumption].
Qed.

(** the distance between windows *)
Definition wdist (a b : list Q) : option Q := dtw a b (length b / 3).

Lemma filter_splits {A} (P : A -> bool) x r : forall w l, filter P w = l ++ x :: r ->
  exists w1 w2, w = w1 ++ x :: w2 /\ filter P w1 = l /\ filter P w2 = r.
Proof.
  induction w as [|y t IH]; intros l E; cbn in E; [destruct l; discriminate|].
  destruct (P y) eqn:Py.
  - destruct l as [|z l]; cbn in E.
    + injection E as -> E. exists [], t. repeat split. exact E.
    + injection E as -> E. destruct (IH l E) as (w1 & w2 & -> & F1 & F2).
      exists (z :: w1), w2. cbn. rewrite Py, F1. auto.
  - destruct (IH l E) as (w1 & w2 & -> & F1 & F2). exists (y :: w1), w2. cbn. rewrite Py. auto.
Qed.
Definition adm (win : nat) (same : bool) (name inda : nat) (c : nat * nat * list Q) : bool :=
  (negb (Nat.eqb name (fst (fst c))) || same)
  && negb (Nat.eqb name (fst (fst c)) && overlap win inda (snd (fst c))).
Lemma candidates_filter win same all name inda :
  candidates win same all name inda = filter (adm win same name inda) (windows all).
Proof.
  unfold candidates, windows. induction all as [|[n ss] t IH]; [reflexivity|].
  cbn [flat_map fst snd]. rewrite filter_app, IH. f_equal. clear IH.
  induction ss as [|s ss IH].
  - destruct (_ || _); reflexivity.
  - cbn [map filter]. unfold adm at 1. cbn [fst snd].
    destruct (negb (Nat.eqb name n) || same) eqn:E; cbn [andb] in *; [|exact IH].
    destruct (negb (Nat.eqb name n && overlap win inda (fst s))) eqn:F; cbn [map]; rewrite IH; reflexivity.
Qed.

Lemma closest_spec win same all name inda a :
  3 <= win -> (forall n i v, has_window all n i v -> length v = win) -> length a = win ->
  exists r, closest win same all name inda a = Some r
    /\ match r with
       | None => forall n i u, ~ admissible all win same name inda n i u
       | Some m => m_name m = name /\ m_index m = inda
                   /\ is_nearest wdist all win same name inda a (o_name m) (o_index m) (m_dist m)
       end.
Proof.
  intros Hw Hl La. unfold closest.
  destruct (pruned_exhaustive a name inda (candidates win same all name inda)) as (l & -> & E).
  - intros [[n i] v] Hc. apply candidates_in in Hc; [|lia]. cbn [snd]. rewrite La. apply (Hl n i). apply Hc.
  - lia.
  - cbn [option_map]. eexists. split; [reflexivity|]. rewrite E.
    destruct (first_min m_dist (map (exh a name inda) (candidates win same all name inda))) as [m|] eqn:F.
    + apply first_min_split in F as (l1 & l2 & Ec & F1 & F2).
      apply map_eq_app in Ec as (c1 & c2 & Ec & <- & E2). destruct c2 as [|[[n i] v] c2]; [discriminate|].
      cbn [map] in E2. injection E2 as <- <-.
      assert (Hc : In (n, i, v) (candidates win same all name inda)) by (rewrite Ec; apply in_or_app; right; left; reflexivity).
      apply candidates_in in Hc; [|lia].
      pose proof Ec as Ef. rewrite candidates_filter in Ef. apply filter_splits in Ef as (w1 & w2 & Ew & W1 & W2).
      unfold exh at 1 2 3 4 5. cbn [m_name m_index o_name o_index m_dist fst snd].
      split; [reflexivity|]. split; [reflexivity|].
      assert (A : forall c, In c (windows all) -> admissible all win same name inda (fst (fst c)) (snd (fst c)) (snd c) ->
                    adm win same name inda c = true).
      { intros [[n' i'] u] Hw' Hu. cbn [fst snd] in Hu. apply (candidates_in win same all name inda) in Hu; [|lia].
        rewrite candidates_filter in Hu. apply filter_In in Hu. apply Hu. }
      exists w1, v, w2. split; [exact Ew|]. split; [exact Hc|]. split; [reflexivity|]. split.
      * intros n' i' u Hu Ha. apply (F1 (exh a name inda (n', i', u))). apply in_map. rewrite <- W1.
        apply filter_In. split; [exact Hu|]. apply A; [rewrite Ew; apply in_or_app; left; exact Hu|exact Ha].
      * intros n' i' u Hu Ha. apply (F2 (exh a name inda (n', i', u))). apply in_map. rewrite <- W2.
        apply filter_In. split; [exact Hu|]. apply A; [rewrite Ew; apply in_or_app; right; right; exact Hu|exact Ha].
    + intros n i u Hu. apply (candidates_in win same all name inda) in Hu; [|lia].
      destruct (candidates win same all name inda); [contradiction|discriminate].
Qed.

Lemma mapM_total {A B} (f : A -> option B) l : (forall x, In x l -> exists y, f x = Some y) ->
  exists r, mapM f l = Some r.
Proof.
  induction l as [|x t IH]; intros H; [exists []; reflexivity|]. cbn.
  destruct (H x (or_introl eq_refl)) as [y ->]. destruct IH as [r ->]; [intros; apply H; right; assumption|].
  exists (y :: r). reflexivity.
Qed.
Lemma mapM_forall2 {A B} (f : A -> option B) l : forall r, mapM f l = Some r ->
  Forall2 (fun x y => f x = Some y) l r.
Proof.
  induction l as [|x t IH]; intros r H; cbn in H; [injection H as <-; constructor|].
  destruct (f x) as [y|] eqn:E; [|discriminate]. destruct (mapM f t) as [r'|]; [|discriminate].
  injection H as <-. constructor; [exact E|apply IH; reflexivity].
Qed.
Lemma forall2_in_l {A B} (R : A -> B -> Prop) l r x : Forall2 R l r -> In x l -> exists y, In y r /\ R x y.
Proof. induction 1; [contradiction|]. intros [->|H1]; [eexists; split; [left; reflexivity|assumption]|]. destruct (IHForall2 H1) as (z & ? & ?). exists z. split; [right; assumption|assumption]. Qed.
Lemma forall2_in_r {A B} (R : A -> B -> Prop) l r y : Forall2 R l r -> In y r -> exists x, In x l /\ R x y.
Proof. induction 1; [contradiction|]. intros [->|H1]; [eexists; split; [left; reflexivity|assumption]|]. destruct (IHForall2 H1) as (z & ? & ?). exists z. split; [right; assumption|assumption]. Qed.
Lemma keep_some_in {A} (l : list (option A)) x : In x (keep_some l) <-> In (Some x) l.
Proof.
  induction l as [|[y|] t IH]; cbn; [reflexivity| |].
  - rewrite IH. split; intros [H|H]; auto; [left; congruence|left; injection H; auto].
  - rewrite IH. split; [auto|]. intros [H|H]; [discriminate|exact H].
Qed.

Lemma nearest_unique D all win same name ind v n i d n' i' d' :
  is_nearest D all win same name ind v n i d -> is_nearest D all win same name ind v n' i' d' ->
  le_inf d' d.
Proof.
  intros (b1 & w & a1 & E1 & A & -> & _ & _) (b2 & w' & a2 & E2 & A' & -> & H1 & H2).
  assert (I : In (n, i, w) (windows all)) by (rewrite E1; apply in_or_app; right; left; reflexivity).
  rewrite E2 in I. apply in_app_iff in I as [I|[I|I]].
  - destruct (le_inf_total (D v w) (D v w')) as [L|L]; [|exact L]. exfalso. exact (H1 _ _ _ I A L).
  - injection I as <- <- <-. apply le_inf_refl.
  - exact (H2 _ _ _ I A).
Qed.

Lemma farthest_spec win same all name ss :
  3 <= win -> (forall n i v, has_window all n i v -> length v = win) -> In (name, ss) all ->
  (exists i v n' i' u, In (i, v) ss /\ admissible all win same name i n' i' u) ->
  exists m, farthest_of win same all (name, ss) = Some (name, m)
    /\ m_name m = name
    /\ is_farthest wdist all win same name ss (m_index m) (o_name m) (o_index m) (m_dist m).
Proof.
  intros Hw Hl Hin (i0 & v0 & n0 & j0 & u0 & Hs0 & Ha0). unfold farthest_of. cbn [fst snd].
  set (f := fun s : nat * list Q => closest win same all name (fst s) (snd s)).
  assert (Hf : forall s, In s ss -> exists r, f s = Some r /\ match r with
       | None => forall n i u, ~ admissible all win same name (fst s) n i u
       | Some m => m_name m = name /\ m_index m = fst s
                   /\ is_nearest wdist all win same name (fst s) (snd s) (o_name m) (o_index m) (m_dist m)
       end).
  { intros [i v] Hs. apply closest_spec; try assumption. apply (Hl name i). exists ss. split; assumption. }
  destruct (mapM_total f ss) as [l El]; [intros s Hs; destruct (Hf s Hs) as (r & E & _); exists r; exact E|].
  rewrite El. apply mapM_forall2 in El.
  destruct (first_max m_dist (keep_some l)) as [m|] eqn:F.
  - apply first_max_spec in F as [Fi Fl]. apply keep_some_in in Fi.
    destruct (forall2_in_r _ _ _ _ El Fi) as (s & Hs & Es).
    destruct (Hf s Hs) as (r & Er & Hr). rewrite Es in Er. injection Er as <-.
    destruct Hr as (N1 & N2 & N3). exists m. split; [reflexivity|]. split; [exact N1|].
    rewrite N2. split.
    + exists (snd s). split; [rewrite <- surjective_pairing; exact Hs|exact N3].
    + intros i u n' i' e Hi He. destruct (forall2_in_l _ _ _ _ El Hi) as (r & Hr & Er).
      destruct (Hf (i, u) Hi) as (r' & Er' & Hr'). rewrite Er in Er'. injection Er' as <-. cbn [fst snd] in Hr'.
      destruct r as [m'|]; [|exfalso; destruct He as (b1 & w & a1 & _ & A & _); exact (Hr' _ _ _ A)].
      destruct Hr' as (_ & _ & N). eapply le_inf_trans; [exact (nearest_unique _ _ _ _ _ _ _ _ _ _ _ _ _ N He)|].
      apply Fl, keep_some_in, Hr.
  - exfalso. destruct (forall2_in_l _ _ _ _ El Hs0) as (r & Hr & Er).
    destruct (Hf _ Hs0) as (r' & Er' & Hr'). rewrite Er in Er'. injection Er' as <-. cbn [fst snd] in Hr'.
    destruct r as [m'|]; [|exact (Hr' _ _ _ Ha0)].
    apply keep_some_in in Hr. destruct (keep_some l); [contradiction|discriminate].
Qed.

Lemma max_min_spec win same all :
  3 <= win -> (forall n i v, has_window all n i v -> length v = win) ->
  (forall name ss, In (name, ss) all ->
     exists i v n' i' u, In (i, v) ss /\ admissible all win same name i n' i' u) ->
  exists r, max_min_dists win same all = Some r
    /\ Forall2 (fun a b => fst b = fst a /\ m_name (snd b) = fst a
         /\ is_farthest wdist all win same (fst a) (snd a)
              (m_index (snd b)) (o_name (snd b)) (o_index (snd b)) (m_dist (snd b))) all r.
Proof.
  intros Hw Hl Hc. unfold max_min_dists.
  assert (G : forall l, incl l all -> exists r, mapM (farthest_of win same all) l = Some r
    /\ Forall2 (fun a b => fst b = fst a /\ m_name (snd b) = fst a
         /\ is_farthest wdist all win same (fst a) (snd a)
              (m_index (snd b)) (o_name (snd b)) (o_index (snd b)) (m_dist (snd b))) l r).
  { induction l as [|[n ss] t IH]; intros Hi; [exists []; split; [reflexivity|constructor]|].
    assert (Hin : In (n, ss) all) by (apply Hi; left; reflexivity).
    destruct (farthest_spec win same all n ss Hw Hl Hin (Hc n ss Hin)) as (m & E & N & F).
    destruct IH as (r & Er & Fr); [intros x Hx; apply Hi; right; exact Hx|].
    exists ((n, m) :: r). cbn [mapM]. rewrite E, Er. split; [reflexivity|].
    constructor; [|exact Fr]. cbn [fst snd]. auto. }
  apply G, incl_refl.
Qed.

(** *** C77: windows *)
Lemma range_step_in n step k : 1 <= step -> In k (range_step n step) <-> k < n /\ exists q, k = q * step.
Proof.
  intros Hs. unfold range_step. destruct (Nat.eqb_spec n 0) as [->|N].
  - cbn. split; [contradiction|lia].
  - rewrite in_map_iff. split.
    + intros (q & <- & Hq). apply in_seq in Hq. split; [|exists q; reflexivity].
      assert (q <= (n - 1) / step) by lia.
      assert (q * step <= (n - 1) / step * step) by (apply Nat.mul_le_mono_r; lia).
      pose proof (Nat.mul_div_le (n - 1) step). lia.
    + intros (Hk & q & ->). exists q. split; [reflexivity|]. apply in_seq.
      assert (q <= (n - 1) / step) by (apply Nat.div_le_lower_bound; lia). lia.
Qed.
Lemma list_max_in l m : list_max l = Some m -> In m l.
Proof.
  revert m. induction l as [|x t IH]; intros m; cbn; [discriminate|].
  destruct (list_max t) as [y|]; intros E; injection E as <-; [|left; reflexivity].
  destruct (Qle_bool y x); [left; reflexivity|right; apply IH; reflexivity].
Qed.
Lemma list_max_above l low : (exists m, list_max l = Some m /\ (low < m)%Q) <-> exists x, In x l /\ (low < x)%Q.
Proof.
  split.
  - intros (m & E & L). exists m. split; [apply list_max_in, E|exact L].
  - intros (x & Hx & L). destruct (list_max_ge l x Hx) as (m & E & G). exists m. split; [exact E|lra].
Qed.
Lemma c77_windows win skip low ts ind v : 1 <= win -> 1 <= skip -> win <= length ts ->
  In (ind, v) (nonzero_subs win skip low ts) <-> active_window win skip low ts ind v.
Proof.
  intros Hw Hs Hl. unfold nonzero_subs, active_window. rewrite in_flat_map. split.
  - intros (k & Hk & H). apply range_step_in in Hk as (Hk & Hq); [|exact Hs]. cbv zeta in H.
    destruct (list_max (firstn win (skipn k ts))) as [m|] eqn:E; [|contradiction].
    destruct (Qle_bool m low) eqn:Em; [contradiction|]. destruct H as [H|[]]. injection H as -> <-.
    split; [exact Hq|]. split; [rewrite firstn_length, skipn_length; lia|]. split.
    + exists (firstn ind ts), (skipn win (skipn ind ts)).
      rewrite firstn_skipn, firstn_skipn, firstn_length. split; [reflexivity|lia].
    + apply list_max_above. exists m. split; [exact E|].
      destruct (Qlt_le_dec low m) as [L|L]; [exact L|]. apply Qle_bool_iff in L. congruence.
  - intros (Hq & Lv & (b & a & Ets & Lb) & Hx). exists ind. split.
    + apply range_step_in; [exact Hs|]. split; [|exact Hq].
      assert (length ts = length b + length v + length a) by (rewrite Ets, !app_length; lia). lia.
    + cbv zeta. assert (W : firstn win (skipn ind ts) = v).
      { rewrite Ets, <- Lb, skipn_app, skipn_all, Nat.sub_diag. cbn [app skipn].
        rewrite <- Lv, firstn_app, firstn_all, Nat.sub_diag. cbn [firstn]. apply app_nil_r. }
      rewrite W. apply list_max_above in Hx as (m & -> & L).
      destruct (Qle_bool m low) eqn:Em; [apply Qle_bool_iff in Em; lra|]. left. reflexivity.
Qed.
Lemma c77_once win skip low ts : 1 <= skip -> NoDup (map fst (nonzero_subs win skip low ts)).
Proof.
  intros Hs. unfold nonzero_subs.
  assert (N : NoDup (range_step (length ts - win + 1) skip)).
  { unfold range_step. destruct (Nat.eqb _ 0); [constructor|].
    apply FinFun.Injective_map_NoDup; [|apply seq_NoDup]. intros a b E. apply Nat.mul_cancel_r in E; lia. }
  induction (range_step (length ts - win + 1) skip) as [|k t IH]; [constructor|].
  apply NoDup_cons_iff in N as [N1 N2]. cbn [flat_map]. rewrite map_app.
  destruct (list_max (firstn win (skipn k ts))) as [m|]; [|apply IH, N2].
  destruct (negb (Qle_bool m low)); [|apply IH, N2]. cbn. constructor; [|apply IH, N2].
  intros H. apply N1. apply in_map_iff in H as ((i & v) & <- & H). cbn [fst].
  apply in_flat_map in H as (k' & Hk' & H). cbv zeta in H.
  destruct (list_max (firstn win (skipn k' ts))); [|contradiction].
  destruct (negb (Qle_bool q low)); [|contradiction]. destruct H as [H|[]]. injection H as <- _. exact Hk'.
Qed.

(** *** C78: how many series can be reported *)
Lemma qabs_nonneg x : (0 <= Qabs x)%Q.
Proof. apply Qabs_nonneg. Qed.
Lemma qsum_filter_le {A} (f : A -> Q) (P : A -> bool) l :
  (forall x, In x l -> 0 <= f x)%Q -> (qsum (map f (filter P l)) <= qsum (map f l))%Q.
Proof.
  induction l as [|x t IH]; intros H; cbn; [lra|].
  assert (0 <= f x)%Q by (apply H; left; reflexivity).
  assert (qsum (map f (filter P t)) <= qsum (map f t))%Q by (apply IH; intros; apply H; right; assumption).
  destruct (P x); cbn; lra.
Qed.
Lemma qsum_gt_const {A} (f : A -> Q) c l : l <> [] -> (forall x, In x l -> c < f x)%Q ->
  (inject_Z (Z.of_nat (length l)) * c < qsum (map f l))%Q.
Proof.
  induction l as [|x t IH]; intros N H; [congruence|].
  cbn [length map qsum]. rewrite Nat2Z.inj_succ. unfold Z.succ. rewrite inject_Z_plus.
  assert (c < f x)%Q by (apply H; left; reflexivity).
  destruct t as [|y t]; [cbn [length map qsum]; change (inject_Z (Z.of_nat 0)) with 0%Q; change (inject_Z 1) with 1%Q; lra|].
  assert (inject_Z (Z.of_nat (length (y :: t))) * c < qsum (map f (y :: t)))%Q
    by (apply IH; [discriminate|intros; apply H; right; assumption]).
  set (k := inject_Z (Z.of_nat (length (y :: t)))) in *. clearbody k.
  setoid_replace ((k + inject_Z 1) * c)%Q with (k * c + c)%Q by ring. cbn [map qsum] in *. lra.
Qed.
Lemma c78_count med cutoff dists : (0 <= cutoff)%Q -> anomalies med cutoff dists <> [] ->
  (inject_Z (Z.of_nat (length (anomalies med cutoff dists))) * cutoff < inject_Z (Z.of_nat (length dists)))%Q.
Proof.
  intros Hc N. unfold anomalies in *.
  set (ds := map snd dists) in *. set (mad := mean_dev med ds).
  set (P := fun p : nat * Q => anomalous med cutoff ds (snd p)) in *.
  assert (HP : forall p, In p (filter P dists) -> (0 < mad)%Q /\ (cutoff * mad < Qabs (med - snd p))%Q).
  { intros p Hp. apply filter_In in Hp as [_ Hp]. unfold P, anomalous in Hp. cbv zeta in Hp. fold mad in Hp.
    destruct (Qeq_bool mad 0) eqn:E; [discriminate|].
    assert (M : (0 <= mad)%Q).
    { unfold mad, mean_dev. apply Qmult_le_0_compat.
      - apply qsum_nonneg. intros x Hx. apply in_map_iff in Hx as (y & <- & _). apply qabs_nonneg.
      - apply Qinv_le_0_compat. rewrite <- (Zle_Qle 0). lia. }
    assert (M' : (0 < mad)%Q).
    { destruct (Qlt_le_dec 0 mad) as [L|L]; [exact L|].
      assert (mad == 0)%Q as Z by lra. apply Qeq_bool_iff in Z. congruence. }
    split; [exact M'|]. apply negb_true_iff in Hp.
    destruct (Qlt_le_dec (cutoff * mad) (Qabs (med - snd p))) as [L|L]; [exact L|].
    assert (Qabs (med - snd p) / mad <= cutoff)%Q by (apply Qle_shift_div_r; assumption).
    apply Qle_bool_iff in H. congruence. }
  assert (M : (0 < mad)%Q).
  { destruct (filter P dists) as [|p t] eqn:F; [congruence|]. apply (HP p). left. reflexivity. }
  assert (S1 : (inject_Z (Z.of_nat (length (filter P dists))) * (cutoff * mad)
               < qsum (map (fun p => Qabs (med - snd p)) (filter P dists)))%Q)
    by (apply qsum_gt_const; [exact N|intros; apply HP; assumption]).
  assert (S2 : (qsum (map (fun p => Qabs (med - snd p)) (filter P dists))
               <= qsum (map (fun p => Qabs (med - snd p)) dists))%Q)
    by (apply qsum_filter_le; intros; apply qabs_nonneg).
  assert (L0 : (0 < inject_Z (Z.of_nat (length dists)))%Q).
  { destruct dists; [cbn in N; congruence|]. rewrite <- (Zlt_Qlt 0). cbn [length]. lia. }
  assert (S3 : (qsum (map (fun p => Qabs (med - snd p)) dists) == inject_Z (Z.of_nat (length dists)) * mad)%Q).
  { unfold mad, mean_dev, ds. rewrite map_map, map_length. field. lra. }
  rewrite S3 in S2.
  apply Qmult_lt_r with (z := mad); [exact M|]. lra.
Qed.
Lemma c78_equal med cutoff dists : (forall p, In p dists -> snd p == med)%Q ->
  anomalies med cutoff dists = [].
Proof.
  intros H. unfold anomalies.
  assert (Z : Qeq_bool (mean_dev med (map snd dists)) 0 = true).
  { apply Qeq_bool_iff. unfold mean_dev. rewrite map_map.
    assert (qsum (map (fun p : nat * Q => Qabs (med - snd p)) dists) == 0)%Q as ->.
    { clear - H. induction dists as [|p t IH]; [reflexivity|]. cbn [map qsum].
      rewrite IH by (intros; apply H; right; assumption).
      assert (med - snd p == 0)%Q as -> by (rewrite (H p) by (left; reflexivity); ring). reflexivity. }
    unfold Qdiv. ring. }
  assert (G : forall l, filter (fun p : nat * Q => anomalous med cutoff (map snd dists) (snd p)) l = []).
  { induction l as [|p t IH]; [reflexivity|]. cbn [filter]. unfold anomalous at 1. cbv zeta. rewrite Z. exact IH. }
  apply G.
Qed.
