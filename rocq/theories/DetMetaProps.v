(** C294: reading the metadata of the detector meta-learners *)
From Coq Require Import List Bool Arith ZArith QArith String Lia.
From Verif Require Import Common DetMetaModel.
Import ListNotations.
Open Scope nat_scope.

(** ** Specification *)
(** the dictionary in a cell of the data frame *)
Definition content {A} (h : list A) (c : cell A) : option A := match c with Held a => nth_error h a | Written x => x | Else => None end.
(** no two rows hold the same dictionary object *)
Definition held {A} (cs : list (cell A)) : list nat := flat_map (fun c => match c with Held a => [a] | _ => [] end) cs.
Definition feats_cells (fr : frame) := map (fun r => fst (fst r)) (f_rows fr).
Definition hres_cells (fr : frame) := map (fun r => snd (fst r)) (f_rows fr).
(** a feature as a number *)
Definition number_is (a b : string * fv) : Prop :=
  fst b = fst a /\ match snd a with FNum x => snd b = FNum x | FText (Some x) => snd b = FNum x | FText None => False end.
(** a parameter in days instead of seconds, if it is one of [down]; every other parameter as it is *)
Definition in_days (down : string -> bool) (a b : string * pv) : Prop :=
  fst b = fst a /\ (down (fst a) = true -> exists x y, snd a = Num x /\ snd b = Num y /\ (y * 86400 == x)%Q) /\ (down (fst a) = false -> snd b = snd a).
(** what the preprocessing can digest *)
Definition numeric (d : feats) : Prop := forall k v, In (k, v) d -> v <> FText None.
Definition scalable (down : string -> bool) (r : hres) : Prop := forall alg p e k v, In (alg, (p, e)) r -> In (k, v) p -> down k = true -> exists x, v = Num x.
Definition digestible (down : string -> bool) (fr : frame) : Prop :=
  (forall c, In c (feats_cells fr) -> exists d, content (f_feats fr) c = Some d /\ numeric d) /\
  (forall c, In c (hres_cells fr) -> exists r, content (f_hres fr) c = Some r /\ scalable down r).

(** ** Lists and heaps *)
Lemma nth_write {A} (h : list A) : forall a x b, a < List.length h -> nth_error (write h a x) b = if b =? a then Some x else nth_error h b.
Proof.
  induction h as [|y h IH]; intros a x b L; cbn [List.length] in L; [lia |].
  destruct a as [|a]; cbn [write]; destruct b as [|b]; cbn [nth_error Nat.eqb]; try reflexivity. apply IH. lia.
Qed.
Lemma length_write {A} (h : list A) : forall a x, List.length (write h a x) = List.length h.
Proof. induction h as [|y h IH]; intros [|a] x; cbn; [reflexivity | reflexivity | reflexivity | rewrite IH; reflexivity]. Qed.

Fixpoint times {A} (f : A -> option A) (n : nat) (x : option A) : option A :=
  match n with 0 => x | S n => match x with Some x => times f n (f x) | None => None end end.
Lemma update_all_spec {A} (f : A -> option A) : forall l h h', update_all f h l = Some h' ->
  List.length h' = List.length h /\ forall a, nth_error h' a = times f (count_occ Nat.eq_dec l a) (nth_error h a).
Proof.
  induction l as [|b l IH]; intros h h' E; cbn [update_all] in E.
  - injection E as <-. split; [reflexivity |]. intros a. reflexivity.
  - destruct (nth_error h b) as [x|] eqn:X; [| discriminate]. destruct (f x) as [y|] eqn:F; [| discriminate].
    assert (L : b < List.length h) by (apply nth_error_Some; congruence).
    destruct (IH _ _ E) as [IL IV]. rewrite length_write in IL. split; [exact IL |]. intros a. rewrite IV, (nth_write h b y a L).
    destruct (a =? b) eqn:AB.
    + apply Nat.eqb_eq in AB. subst a. rewrite count_occ_cons_eq by reflexivity. cbn [times]. rewrite X, F. reflexivity.
    + apply Nat.eqb_neq in AB. rewrite count_occ_cons_neq by congruence. reflexivity.
Qed.
Lemma update_all_ok {A} (f : A -> option A) (ok : A -> Prop) : (forall x, ok x -> exists y, f x = Some y /\ ok y) ->
  forall l h, (forall a, In a l -> exists x, nth_error h a = Some x /\ ok x) -> exists h', update_all f h l = Some h'.
Proof.
  intros F. induction l as [|b l IH]; intros h H; cbn [update_all]; [eexists; reflexivity |].
  destruct (H b (or_introl eq_refl)) as (x & X & O). rewrite X. destruct (F x O) as (y & Y & OY). rewrite Y.
  assert (L : b < List.length h) by (apply nth_error_Some; congruence).
  apply IH. intros a I. rewrite (nth_write h b y a L). destruct (a =? b); [exists y; split; [reflexivity | exact OY] | apply H; right; exact I].
Qed.

Lemma open_spec {A} : forall (cs : list (cell A)) h, (forall c, In c cs -> content h c <> None) ->
  exists h' l, open_column h cs = Some (h', l) /\ List.length l = List.length cs /\
    (forall a, a < List.length h -> nth_error h' a = nth_error h a) /\
    (forall i c, nth_error cs i = Some c -> exists a, nth_error l i = Some a /\ nth_error h' a = content h c) /\
    (forall a, In a l -> In a (held cs) \/ List.length h <= a) /\ (NoDup (held cs) -> (forall a, In a (held cs) -> a < List.length h) -> NoDup l).
Proof.
  induction cs as [|c cs IH]; intros h H.
  - exists h, []. split; [reflexivity |]. split; [reflexivity |]. split; [reflexivity |]. split; [intros [|i] c E; discriminate E |]. split; [intros a [] |]. intros _ _. constructor.
  - destruct c as [a|x|].
    + destruct (IH h (fun c I => H c (or_intror I))) as (h' & l & E & L & P & C & W & N). exists h', (a :: l). cbn [open_column]. rewrite E.
      assert (R : a < List.length h) by (apply nth_error_Some; exact (H (Held a) (or_introl eq_refl))).
      split; [reflexivity |]. split; [cbn; congruence |]. split; [exact P |]. split; [| split].
      * intros [|i] c I; cbn in I; [injection I as <-; exists a; split; [reflexivity | exact (P a R)] | exact (C i c I)].
      * intros b [<-|I]; [left; left; reflexivity |]. destruct (W b I) as [V|V]; [left; right; exact V | right; exact V].
      * intros D B. cbn [held flat_map app] in D. inversion D as [|u v D1 D2]. subst u v. constructor.
        -- intros I. destruct (W a I) as [V|V]; [exact (D1 V) | lia].
        -- apply N; [exact D2 | intros b I; apply B; right; exact I].
    + destruct x as [x|]; [| destruct (H (Written None) (or_introl eq_refl) eq_refl)].
      destruct (IH (h ++ [x])) as (h' & l & E & L & P & C & W & N).
      { intros c I. specialize (H c (or_intror I)). destruct c as [b|y|]; cbn [content] in *; [| exact H | exact H]. rewrite nth_error_app1; [exact H | apply nth_error_Some; exact H]. }
      rewrite app_length in P, W, N. cbn [List.length] in P, W, N. exists h', (List.length h :: l). cbn [open_column]. rewrite E.
      split; [reflexivity |]. split; [cbn; congruence |]. split; [| split; [| split]].
      * intros a R. rewrite P by lia. apply nth_error_app1. exact R.
      * intros [|i] c I; cbn in I.
        -- injection I as <-. exists (List.length h). split; [reflexivity |]. rewrite P by lia. rewrite nth_error_app2, Nat.sub_diag by lia. reflexivity.
        -- destruct (C i c I) as (a & Ia & V). exists a. split; [exact Ia |]. rewrite V. pose proof (H c (or_intror (nth_error_In _ _ I))) as Hc.
           destruct c as [b|y|]; cbn [content] in *; [| reflexivity | reflexivity]. apply nth_error_app1. apply nth_error_Some. exact Hc.
      * intros a [<-|I]; [right; lia |]. destruct (W a I) as [V|V]; [left; exact V | right; lia].
      * intros D B. change (held (Written (Some x) :: cs)) with (held cs) in *. constructor.
        -- intros I. destruct (W _ I) as [V|V]; [specialize (B _ V); lia | lia].
        -- apply N; [exact D | intros a I; specialize (B a I); lia].
    + destruct (H Else (or_introl eq_refl) eq_refl).
Qed.
Lemma held_lt {A} (cs : list (cell A)) h : (forall c, In c cs -> content h c <> None) -> forall a, In a (held cs) -> a < List.length h.
Proof.
  intros H a I. unfold held in I. apply in_flat_map in I. destruct I as ([b|x|] & J & K); cbn in K; try contradiction. destruct K as [<-|[]].
  apply nth_error_Some. exact (H _ J).
Qed.

(** ** Values *)
Lemma on_values_spec {A} (f : string -> A -> option A) : forall d, (forall k v, In (k, v) d -> exists w, f k v = Some w) ->
  exists d', on_values f d = Some d' /\ Forall2 (fun a b => fst b = fst a /\ f (fst a) (snd a) = Some (snd b)) d d'.
Proof.
  induction d as [|[k v] d IH]; intros H; [exists []; split; [reflexivity | constructor] |].
  destruct (IH (fun k v I => H k v (or_intror I))) as (d' & E & F). destruct (H k v (or_introl eq_refl)) as (w & W).
  exists ((k, w) :: d'). cbn [on_values]. rewrite W, E. split; [reflexivity |]. constructor; [split; [reflexivity | exact W] | exact F].
Qed.
Lemma get_forall2 {A B} (R : string * A -> string * B -> Prop) : (forall a b, R a b -> fst b = fst a) -> forall d d', Forall2 R d d' ->
  forall k v, get k d = Some v -> exists w, get k d' = Some w /\ R (k, v) (k, w).
Proof.
  intros HR d d' F. induction F as [|[k1 v1] [k2 v2] d d' R1 F IH]; intros k v E; [discriminate E |].
  pose proof (HR _ _ R1) as K. cbn [fst] in K. subst k2. cbn [get] in E |- *. destruct (String.eqb k1 k) eqn:EK.
  - apply String.eqb_eq in EK. subst k1. injection E as <-. exists v2. split; [reflexivity | exact R1].
  - exact (IH k v E).
Qed.
Lemma dtype_ok d : numeric d -> exists d', change_dtype d = Some d' /\ Forall2 number_is d d' /\ numeric d' /\ change_dtype d' = Some d'.
Proof.
  intros N. destruct (on_values_spec (fun _ => to_float) d) as (d' & E & F).
  { intros k v I. specialize (N k v I). destruct v as [x|[x|]]; [eexists; reflexivity | eexists; reflexivity | congruence]. }
  exists d'. split; [exact E |]. clear E N. induction F as [|[k v] [k' w] d d' [E1 E2] F IH]; cbn [fst snd] in *.
  - split; [constructor |]. split; [intros k v [] | reflexivity].
  - destruct IH as (I1 & I2 & I3). subst k'. assert (W : exists x, w = FNum x) by (destruct v as [x|[x|]]; cbn in E2; try discriminate; injection E2 as <-; eexists; reflexivity).
    destruct W as (x & ->). split; [| split].
    + constructor; [| exact I1]. split; [reflexivity |]. destruct v as [y|[y|]]; cbn in E2 |- *; try discriminate; congruence.
    + intros k1 v1 [J|J]; [congruence | exact (I2 k1 v1 J)].
    + unfold change_dtype in *. cbn [on_values to_float]. rewrite I3. reflexivity.
Qed.

Lemma scale_param_ok down k v : (down k = true -> exists x, v = Num x) -> exists w, scale_param down k v = Some w /\ in_days down (k, v) (k, w) /\ (down k = true -> exists x, w = Num x).
Proof.
  intros H. unfold scale_param. destruct (down k) eqn:D.
  - destruct (H eq_refl) as (x & ->). eexists. split; [reflexivity |]. split; [| intros _; eexists; reflexivity].
    split; [reflexivity |]. cbn [fst snd]. split; [intros _; exists x, (x / secs_in_day)%Q; split; [reflexivity |]; split; [reflexivity | unfold secs_in_day; cbn; field] | congruence].
  - exists v. split; [reflexivity |]. split; [| congruence]. split; [reflexivity |]. split; cbn [fst snd]; [congruence | reflexivity].
Qed.
(** one row: every algorithm keeps its place and its error, the parameters are in days *)
Definition row_in_days (down : string -> bool) (r r' : hres) : Prop :=
  Forall2 (fun a b => fst b = fst a /\ snd (snd b) = snd (snd a) /\ Forall2 (in_days down) (fst (snd a)) (fst (snd b))) r r'.
Lemma scale_row_ok down r : scalable down r -> exists r', scale_row down r = Some r' /\ row_in_days down r r' /\ scalable down r'.
Proof.
  intros H.
  assert (P : forall p, (forall k v, In (k, v) p -> down k = true -> exists x, v = Num x) ->
    exists p', on_values (scale_param down) p = Some p' /\ Forall2 (in_days down) p p' /\ forall k v, In (k, v) p' -> down k = true -> exists x, v = Num x).
  { induction p as [|[k v] p IH]; intros G; [exists []; split; [reflexivity |]; split; [constructor | intros k v []] |].
    destruct (IH (fun k v I => G k v (or_intror I))) as (p' & E & F & N). destruct (scale_param_ok down k v (G k v (or_introl eq_refl))) as (w & W & D & Nw).
    exists ((k, w) :: p'). cbn [on_values]. rewrite W, E. split; [reflexivity |]. split; [constructor; assumption |].
    intros k1 v1 [I|I]; [injection I as <- <-; exact Nw | exact (N k1 v1 I)]. }
  induction r as [|[alg [p e]] r IH]; [exists []; split; [reflexivity |]; split; [constructor | intros alg p e k v []] |].
  destruct IH as (r' & E & F & N); [intros alg1 p1 e1 k v I; exact (H alg1 p1 e1 k v (or_intror I)) |].
  destruct (P p (fun k v => H alg p e k v (or_introl eq_refl))) as (p' & E1 & F1 & N1).
  exists ((alg, (p', e)) :: r'). unfold scale_row in *. cbn [on_values fst snd]. rewrite E1, E. split; [reflexivity |]. split.
  - constructor; [| exact F]. cbn [fst snd]. split; [reflexivity |]. split; [reflexivity | exact F1].
  - intros alg1 p1 e1 k v [I|I]; [injection I as <- <- <-; exact (N1 k v) | exact (N alg1 p1 e1 k v I)].
Qed.

Lemma all_some_map {A B} (f : A -> option B) (l : list A) : (forall x, In x l -> f x <> None) ->
  exists ys, all_some (map f l) = Some ys /\ List.length ys = List.length l /\ forall i x, nth_error l i = Some x -> nth_error ys i = f x.
Proof.
  induction l as [|x l IH]; intros H; [exists []; split; [reflexivity |]; split; [reflexivity |]; intros [|i] x E; discriminate E |].
  destruct IH as (ys & E & L & N); [intros y I; apply H; right; exact I |]. specialize (H x (or_introl eq_refl)). destruct (f x) as [y|] eqn:F; [| congruence].
  exists (y :: ys). cbn [map all_some]. rewrite F, E. split; [reflexivity |]. split; [cbn; congruence |]. intros [|i] z I; cbn in I |- *; [congruence | exact (N i z I)].
Qed.
Lemma nth_combine {A B} (l : list A) : forall (m : list B) i a b, nth_error l i = Some a -> nth_error m i = Some b -> nth_error (combine l m) i = Some (a, b).
Proof. induction l as [|x l IH]; intros [|y m] [|i] a b E F; cbn in *; try discriminate; [congruence | exact (IH m i a b E F)]. Qed.
Lemma nth_combine_inv {A B} (l : list A) : forall (m : list B) i a b, nth_error (combine l m) i = Some (a, b) -> nth_error l i = Some a /\ nth_error m i = Some b.
Proof. induction l as [|x l IH]; intros [|y m] [|i] a b E; cbn in *; try discriminate; [injection E as -> ->; split; reflexivity | exact (IH m i a b E)]. Qed.
Lemma nth_map_inv {A B} (f : A -> B) l i y : nth_error (map f l) i = Some y -> exists x, nth_error l i = Some x /\ f x = y.
Proof. rewrite nth_error_map. destruct (nth_error l i) as [x|]; cbn; [intros E; injection E as <-; exists x; split; reflexivity | discriminate]. Qed.
Lemma nth_some {A} (l : list A) i : i < List.length l -> exists x, nth_error l i = Some x.
Proof. intros H. destruct (nth_error l i) as [x|] eqn:E; [exists x; reflexivity | apply nth_error_None in E; lia]. Qed.
Lemma nth_lt {A} (l : list A) i x : nth_error l i = Some x -> i < List.length l.
Proof. intros E. apply nth_error_Some. congruence. Qed.

(** ** The preprocessing *)
Lemma preprocess_spec down fr : digestible down fr -> NoDup (held (hres_cells fr)) ->
  exists fr' table, preprocess down fr = Some (fr', table) /\ List.length table = List.length (f_rows fr) /\
    f_rows fr' = map (fun t => (Held (fst (fst t)), Held (snd (fst t)), snd t)) table /\ NoDup (map (fun t => snd (fst t)) table) /\
    forall i cf ch b, nth_error (f_rows fr) i = Some (cf, ch, b) -> exists fa ha d d' r r',
      nth_error table i = Some (fa, ha, b) /\ content (f_feats fr) cf = Some d /\ nth_error (f_feats fr') fa = Some d' /\ Forall2 number_is d d' /\ numeric d' /\ change_dtype d' = Some d' /\
      content (f_hres fr) ch = Some r /\ nth_error (f_hres fr') ha = Some r' /\ row_in_days down r r' /\ scalable down r'.
Proof.
  intros [DF DH] ND. unfold preprocess.
  change (map (fun r => fst (fst r)) (f_rows fr)) with (feats_cells fr). change (map (fun r => snd (fst r)) (f_rows fr)) with (hres_cells fr).
  destruct (open_spec (feats_cells fr) (f_feats fr)) as (hf & fa & E1 & L1 & P1 & C1 & W1 & N1); [intros c I; destruct (DF c I) as (d & -> & _); discriminate |]. rewrite E1.
  assert (RF : forall a, In a fa -> exists x, nth_error hf a = Some x /\ numeric x).
  { intros a I. destruct (In_nth_error _ _ I) as (i & Ni). destruct (nth_some (feats_cells fr) i) as (c & Nc); [rewrite <- L1; exact (nth_lt _ _ _ Ni) |].
    destruct (C1 i c Nc) as (a' & Na & V). rewrite Ni in Na. injection Na as <-. destruct (DF c (nth_error_In _ _ Nc)) as (d & Dc & Nd). exists d. split; [congruence | exact Nd]. }
  destruct (update_all_ok change_dtype numeric) with (l := fa) (h := hf) as (hf' & E2); [intros x Nx; destruct (dtype_ok x Nx) as (y & Y & _ & NY & _); exists y; split; assumption | exact RF |]. rewrite E2.
  destruct (open_spec (hres_cells fr) (f_hres fr)) as (hh & ha & E3 & L3 & P3 & C3 & W3 & N3); [intros c I; destruct (DH c I) as (d & -> & _); discriminate |]. rewrite E3.
  assert (RH : forall a, In a ha -> exists x, nth_error hh a = Some x /\ scalable down x).
  { intros a I. destruct (In_nth_error _ _ I) as (i & Ni). destruct (nth_some (hres_cells fr) i) as (c & Nc); [rewrite <- L3; exact (nth_lt _ _ _ Ni) |].
    destruct (C3 i c Nc) as (a' & Na & V). rewrite Ni in Na. injection Na as <-. destruct (DH c (nth_error_In _ _ Nc)) as (d & Dc & Nd). exists d. split; [congruence | exact Nd]. }
  destruct (update_all_ok (scale_row down) (scalable down)) with (l := ha) (h := hh) as (hh' & E4); [intros x Nx; destruct (scale_row_ok down x Nx) as (y & Y & _ & NY); exists y; split; assumption | exact RH |]. rewrite E4.
  assert (NH : NoDup ha) by (apply N3; [exact ND | apply held_lt; intros c I; destruct (DH c I) as (d & -> & _); discriminate]).
  assert (LF : List.length fa = List.length (f_rows fr)) by (rewrite L1; apply map_length). assert (LH : List.length ha = List.length (f_rows fr)) by (rewrite L3; apply map_length).
  cbv zeta. eexists _, _. split; [reflexivity |]. split; [rewrite !combine_length, map_length; lia |]. split; [reflexivity |]. split.
  - assert (G : map (fun t : nat * nat * string => snd (fst t)) (combine (combine fa ha) (map snd (f_rows fr))) = ha); [| rewrite G; exact NH].
    assert (LM : List.length (map snd (f_rows fr)) = List.length ha) by (rewrite map_length; lia). assert (LL : List.length fa = List.length ha) by lia.
    generalize dependent (map snd (f_rows fr)). clear - LL. revert fa LL. induction ha as [|a ha IH]; intros [|f fa] LL [|m ms] LM; cbn in *; try lia; [reflexivity |]. f_equal. apply IH; lia.
  - intros i cf ch b R. cbn [f_feats f_hres].
    assert (Nf : nth_error (feats_cells fr) i = Some cf) by (unfold feats_cells; rewrite nth_error_map, R; reflexivity).
    assert (Nh : nth_error (hres_cells fr) i = Some ch) by (unfold hres_cells; rewrite nth_error_map, R; reflexivity).
    destruct (C1 i cf Nf) as (a & Na & Va). destruct (C3 i ch Nh) as (c & Nc & Vc).
    destruct (DF cf (nth_error_In _ _ Nf)) as (d & Dc & Nd). destruct (DH ch (nth_error_In _ _ Nh)) as (r & Rc & Sr).
    destruct (dtype_ok d Nd) as (d' & D1 & D2 & D3 & D4). destruct (scale_row_ok down r Sr) as (r' & R1 & R2 & R3).
    exists a, c, d, d', r, r'. split; [apply nth_combine; [apply nth_combine; assumption | rewrite nth_error_map, R; reflexivity] |]. split; [exact Dc |].
    split; [| split; [exact D2 | split; [exact D3 | split; [exact D4 | split; [exact Rc | split; [| split; [exact R2 | exact R3]]]]]]].
    + destruct (update_all_spec _ _ _ _ E2) as [_ U]. rewrite U, Va, Dc.
      pose proof (proj1 (count_occ_In Nat.eq_dec fa a) (nth_error_In _ _ Na)) as K. destruct (count_occ Nat.eq_dec fa a) as [|m]; [lia |]. cbn [times]. rewrite D1.
      clear - D4. induction m as [|m IH]; [reflexivity |]. cbn [times]. rewrite D4. exact IH.
    + destruct (update_all_spec _ _ _ _ E4) as [_ U]. rewrite U, Vc, Rc. rewrite (proj1 (NoDup_count_occ' Nat.eq_dec ha) NH c (nth_error_In _ _ Nc)). cbn [times]. exact R1.
Qed.

Lemma preprocess_again down fr fr' table : digestible down fr -> NoDup (held (hres_cells fr)) -> preprocess down fr = Some (fr', table) -> digestible down fr' /\ NoDup (held (hres_cells fr')).
Proof.
  intros D N E. destruct (preprocess_spec down fr D N) as (fr1 & table1 & E1 & L & R & NT & C). rewrite E in E1. injection E1 as <- <-.
  assert (T : forall t, In t table -> exists i, exists d' r', nth_error table i = Some t /\ nth_error (f_feats fr') (fst (fst t)) = Some d' /\ numeric d' /\ nth_error (f_hres fr') (snd (fst t)) = Some r' /\ scalable down r').
  { intros t I. destruct (In_nth_error _ _ I) as (i & Ni). destruct (nth_some (f_rows fr) i) as ([[cf ch] b] & Nr); [rewrite <- L; exact (nth_lt _ _ _ Ni) |].
    destruct (C i cf ch b Nr) as (fa & ha & d & d' & r & r' & H1 & _ & H3 & _ & H5 & _ & _ & H8 & _ & H10). rewrite Ni in H1. injection H1 as ->. exists i, d', r'. cbn [fst snd]. repeat (split; [assumption |]). assumption. }
  split; [split |].
  - intros c I. unfold feats_cells in I. rewrite R, map_map in I. apply in_map_iff in I. destruct I as (t & <- & I). destruct (T t I) as (i & d' & r' & _ & H1 & H2 & _). exists d'. split; [exact H1 | exact H2].
  - intros c I. unfold hres_cells in I. rewrite R, map_map in I. apply in_map_iff in I. destruct I as (t & <- & I). destruct (T t I) as (i & d' & r' & _ & _ & _ & H3 & H4). exists r'. split; [exact H3 | exact H4].
  - unfold hres_cells. rewrite R, map_map. cbn [fst snd]. assert (G : held (map (fun t : nat * nat * string => @Held hres (snd (fst t))) table) = map (fun t => snd (fst t)) table); [| rewrite G; exact NT].
    unfold held. clear. induction table as [|t l IH]; [reflexivity |]. cbn. f_equal. exact IH.
Qed.

(** ** Theorems *)
(** data_x has the features of every row as numbers, data_y the parameters of the algorithm in every row with the windows in days, when
    no two rows share a dictionary *)
Theorem C294_read_partial down alg fr : digestible down fr -> NoDup (held (hres_cells fr)) ->
  (forall ch r, In ch (hres_cells fr) -> content (f_hres fr) ch = Some r -> get alg r <> None) ->
  exists fr' xs ys, reader down alg fr = Some (fr', xs, ys) /\ List.length xs = List.length (f_rows fr) /\ List.length ys = List.length (f_rows fr) /\
    forall i cf ch b, nth_error (f_rows fr) i = Some (cf, ch, b) ->
      exists d x r p e y, content (f_feats fr) cf = Some d /\ nth_error xs i = Some x /\ Forall2 number_is d x /\
        content (f_hres fr) ch = Some r /\ get alg r = Some (p, e) /\ nth_error ys i = Some y /\ Forall2 (in_days down) p y.
Proof.
  intros D N A. destruct (preprocess_spec down fr D N) as (fr' & table & E & L & R & _ & C). unfold reader. rewrite E.
  assert (T : forall i t, nth_error table i = Some t -> exists cf ch b, nth_error (f_rows fr) i = Some (cf, ch, b)).
  { intros i t Ni. destruct (nth_some (f_rows fr) i) as ([[cf ch] b] & Nr); [rewrite <- L; exact (nth_lt _ _ _ Ni) |]. exists cf, ch, b. exact Nr. }
  assert (Y : forall i cf ch b, nth_error (f_rows fr) i = Some (cf, ch, b) -> exists fa ha r p e r' p', nth_error table i = Some (fa, ha, b) /\ content (f_hres fr) ch = Some r /\ get alg r = Some (p, e) /\
     nth_error (f_hres fr') ha = Some r' /\ get alg r' = Some (p', e) /\ Forall2 (in_days down) p p').
  { intros i cf ch b Nr. destruct (C i cf ch b Nr) as (fa & ha & d & d' & r & r' & H1 & _ & _ & _ & _ & _ & H7 & H8 & H9 & _).
    assert (I : In ch (hres_cells fr)) by (apply (nth_error_In _ i); unfold hres_cells; rewrite nth_error_map, Nr; reflexivity).
    specialize (A ch r I H7). destruct (get alg r) as [[p e]|] eqn:G; [| congruence].
    destruct (get_forall2 _ (fun a b HR => proj1 HR) r r' H9 alg (p, e) G) as ([p' e'] & G' & _ & X1 & X2). cbn [fst snd] in X1, X2. subst e'.
    exists fa, ha, r, p, e, r', p'. repeat (split; [assumption |]). assumption. }
  destruct (all_some_map (fun t : nat * nat * string => nth_error (f_feats fr') (fst (fst t))) table) as (xs & EX & LX & NX).
  { intros t I. destruct (In_nth_error _ _ I) as (i & Ni). destruct (T i t Ni) as (cf & ch & b & Nr). destruct (C i cf ch b Nr) as (fa & ha & d & d' & r & r' & H1 & _ & H3 & _). rewrite Ni in H1. injection H1 as ->. cbn [fst]. congruence. }
  destruct (all_some_map (fun t : nat * nat * string => match nth_error (f_hres fr') (snd (fst t)) with Some r => option_map fst (get alg r) | None => None end) table) as (ys & EY & LY & NY).
  { intros t I. destruct (In_nth_error _ _ I) as (i & Ni). destruct (T i t Ni) as (cf & ch & b & Nr). destruct (Y i cf ch b Nr) as (fa & ha & r & p & e & r' & p' & H1 & _ & _ & H4 & H5 & _). rewrite Ni in H1. injection H1 as ->. cbn [fst snd]. rewrite H4, H5. discriminate. }
  rewrite EX, EY. exists fr', xs, ys. split; [reflexivity |]. split; [congruence |]. split; [congruence |].
  intros i cf ch b Nr. destruct (C i cf ch b Nr) as (fa & ha & d & d' & r & r' & H1 & H2 & H3 & H4 & _). destruct (Y i cf ch b Nr) as (fa1 & ha1 & r1 & p & e & r1' & p' & G1 & G2 & G3 & G4 & G5 & G6).
  rewrite H1 in G1. injection G1 as <- <-. exists d, d', r1, p, e, p'. split; [exact H2 |]. split; [rewrite (NX i _ H1); exact H3 |]. split; [exact H4 |]. split; [exact G2 |]. split; [exact G3 |]. split; [| exact G6].
  rewrite (NY i _ H1). cbn [fst snd]. rewrite G4, G5. reflexivity.
Qed.

(** a frame that gives every row its own text is such a frame *)
Theorem C294_texts fr : (forall c, In c (hres_cells fr) -> exists x, c = Written x) -> NoDup (held (hres_cells fr)).
Proof.
  intros H. assert (G : held (hres_cells fr) = []); [| rewrite G; constructor]. induction (hres_cells fr) as [|c l IH]; [reflexivity |].
  destruct (H c (or_introl eq_refl)) as (x & ->). apply IH. intros c I. apply H. right. exact I.
Qed.

(** the same frame read again, say for another algorithm: the windows are divided by the seconds of a day a second time *)
Theorem C294_second_read_refuted down alg fr fr' xs ys alg2 : digestible down fr -> NoDup (held (hres_cells fr)) ->
  (forall ch r, In ch (hres_cells fr) -> content (f_hres fr) ch = Some r -> get alg r <> None /\ get alg2 r <> None) ->
  reader down alg fr = Some (fr', xs, ys) ->
  exists fr2 xs2 ys2, reader down alg2 fr' = Some (fr2, xs2, ys2) /\
    forall i cf ch b k x, nth_error (f_rows fr) i = Some (cf, ch, b) -> down k = true ->
      forall r p e, content (f_hres fr) ch = Some r -> get alg2 r = Some (p, e) -> get k p = Some (Num x) ->
      exists y z, nth_error ys2 i = Some y /\ get k y = Some (Num z) /\ (z * (86400 * 86400) == x)%Q.
Proof.
  intros D N A E. unfold reader in E. destruct (preprocess down fr) as [[fr1 table]|] eqn:EP; [| discriminate].
  assert (EF : fr1 = fr') by (destruct (all_some _); [| discriminate]; destruct (all_some _); [injection E as ->; reflexivity | discriminate]). subst fr1. clear E.
  destruct (preprocess_again down fr fr' table D N EP) as [D' N'].
  destruct (preprocess_spec down fr D N) as (fr1 & table1 & E1 & L & R & NT & C). rewrite EP in E1. injection E1 as <- <-.
  assert (Y : forall i cf ch b, nth_error (f_rows fr) i = Some (cf, ch, b) -> exists fa ha r p e r' p', nth_error (f_rows fr') i = Some (Held fa, Held ha, b) /\ content (f_hres fr) ch = Some r /\ get alg2 r = Some (p, e) /\
     nth_error (f_hres fr') ha = Some r' /\ get alg2 r' = Some (p', e) /\ Forall2 (in_days down) p p').
  { intros i cf ch b Nr. destruct (C i cf ch b Nr) as (fa & ha & d & d' & r & r' & H1 & _ & _ & _ & _ & _ & H7 & H8 & H9 & _).
    assert (I : In ch (hres_cells fr)) by (apply (nth_error_In _ i); unfold hres_cells; rewrite nth_error_map, Nr; reflexivity).
    destruct (A ch r I H7) as [_ A2]. destruct (get alg2 r) as [[p e]|] eqn:G; [| congruence].
    destruct (get_forall2 _ (fun a b HR => proj1 HR) r r' H9 alg2 (p, e) G) as ([p' e'] & G' & _ & X1 & X2). cbn [fst snd] in X1, X2. subst e'.
    exists fa, ha, r, p, e, r', p'. split; [rewrite R, nth_error_map, H1; reflexivity |]. repeat (split; [assumption |]). assumption. }
  destruct (C294_read_partial down alg2 fr' D' N') as (fr2 & xs2 & ys2 & E2 & _ & _ & C2).
  { intros ch r I Hc. apply In_nth_error in I. destruct I as (i & Ni). unfold hres_cells in Ni. apply nth_map_inv in Ni. destruct Ni as ([[cf1 ch1] b1] & Nr1 & K). cbn in K. subst ch1.
    destruct (nth_some (f_rows fr) i) as ([[cf0 ch0] b0] & Nr0); [pose proof (nth_lt _ _ _ Nr1) as K; rewrite R, map_length, L in K; exact K |].
    destruct (Y i cf0 ch0 b0 Nr0) as (fa & ha & r0 & p & e & r' & p' & H1 & _ & _ & H4 & H5 & _). rewrite Nr1 in H1. injection H1 as -> -> ->. cbn [content] in Hc. rewrite Hc in H4. injection H4 as ->. congruence. }
  exists fr2, xs2, ys2. split; [exact E2 |]. intros i cf ch b k x Nr Dk r p e Hr Hg Hk.
  destruct (Y i cf ch b Nr) as (fa & ha & r0 & p0 & e0 & r' & p' & H1 & H2 & H3 & H4 & H5 & H6). rewrite Hr in H2. injection H2 as <-. rewrite Hg in H3. injection H3 as <- <-.
  destruct (C2 i _ _ _ H1) as (d1 & x1 & r1 & p1 & e1 & y1 & _ & _ & _ & G4 & G5 & G6 & G7). cbn [content] in G4. rewrite H4 in G4. injection G4 as <-. rewrite H5 in G5. injection G5 as <- <-.
  destruct (get_forall2 _ (fun a b HR => proj1 HR) _ _ H6 k _ Hk) as (w & W & _ & W1 & _). destruct (W1 Dk) as (u & v & U & V & UV). cbn [fst snd] in U, V. injection U as <-. subst w.
  destruct (get_forall2 _ (fun a b HR => proj1 HR) _ _ G7 k _ W) as (w & W2 & _ & W3 & _). destruct (W3 Dk) as (u & z & U & Z & UZ). cbn [fst snd] in U, Z. injection U as <-. subst w.
  exists y1, z. split; [exact G6 |]. split; [exact W2 |]. rewrite Qmult_assoc, UZ. exact UV.
Qed.

(** two rows that hold the same dictionary: divided twice in one call *)
Theorem C294_shared_refuted : exists fr fr' xs ys, digestible default_down fr /\ reader default_down "A" fr = Some (fr', xs, ys) /\
  f_hres fr = [[("A", ([("scan_window", Num 86400)], 0%Q))]]%string /\
  exists y, nth_error ys 0 = Some [("scan_window"%string, Num y)] /\ (y * (86400 * 86400) == 86400)%Q.
Proof.
  eexists {| f_feats := [[]]; f_hres := [[("A", ([("scan_window", Num 86400)], 0%Q))]]; f_rows := [(Held 0, Held 0, "A"); (Held 0, Held 0, "A")] |}%string, _, _, _.
  split; [split |].
  - intros c I. exists []. split; [destruct I as [<-|[<-|[]]]; reflexivity | intros k v []].
  - intros c I. eexists. split; [destruct I as [<-|[<-|[]]]; reflexivity |]. intros alg p e k v [J|[]] K _. injection J as <- <- <-. destruct K as [K|[]]. injection K as <- <-. eexists. reflexivity.
  - split; [vm_compute; reflexivity |]. split; [reflexivity |]. eexists. split; [vm_compute; reflexivity | reflexivity].
Qed.

(** what cannot be read raises *)
Theorem C294_unreadable down alg fr c : In c (feats_cells fr) -> (c = Else \/ c = Written None \/ exists d k, c = Written (Some d) /\ In (k, FText None) d) -> reader down alg fr = None.
Proof.
  intros I H. unfold reader, preprocess. change (map (fun r => fst (fst r)) (f_rows fr)) with (feats_cells fr).
  destruct (open_column (f_feats fr) (feats_cells fr)) as [[h l]|] eqn:E; [| reflexivity].
  assert (G : forall cs h0 h1 l1, open_column h0 cs = Some (h1, l1) -> In c cs ->
     (exists m, h1 = h0 ++ m) /\ c <> Else /\ c <> Written None /\ forall d, c = Written (Some d) -> exists a, In a l1 /\ nth_error h1 a = Some d).
  { assert (P : forall (cs : list (cell feats)) h0 h1 l1, open_column h0 cs = Some (h1, l1) -> exists m, h1 = h0 ++ m).
    { clear. induction cs as [|[a|[x|]|] cs IH]; intros h0 h1 l1 E; cbn [open_column] in E; try discriminate.
      - injection E as <- <-. exists []. rewrite app_nil_r. reflexivity.
      - destruct (open_column h0 cs) as [[h2 l2]|] eqn:E2; [| discriminate]. injection E as <- <-. exact (IH _ _ _ E2).
      - destruct (open_column (h0 ++ [x]) cs) as [[h2 l2]|] eqn:E2; [| discriminate]. injection E as <- <-. destruct (IH _ _ _ E2) as (m & ->). exists ([x] ++ m). rewrite app_assoc. reflexivity. }
    clear E h l H I. induction cs as [|c0 cs IH]; intros h0 h1 l1 E I; [destruct I |]. split; [exact (P _ _ _ _ E) |]. destruct c0 as [a|[x|]|]; cbn [open_column] in E; try discriminate.
    - destruct (open_column h0 cs) as [[h2 l2]|] eqn:E2; [| discriminate]. injection E as <- <-. destruct I as [<-|I]; [split; [discriminate |]; split; [discriminate |]; intros d J; discriminate |].
      destruct (IH _ _ _ E2 I) as (_ & A & B & K). split; [exact A |]. split; [exact B |]. intros d J. destruct (K d J) as (a1 & X1 & X2). exists a1. split; [right; exact X1 | exact X2].
    - destruct (open_column (h0 ++ [x]) cs) as [[h2 l2]|] eqn:E2; [| discriminate]. injection E as <- <-. destruct I as [<-|I].
      + split; [discriminate |]. split; [discriminate |]. intros d J. injection J as <-. exists (List.length h0). split; [left; reflexivity |]. destruct (P _ _ _ _ E2) as (m & ->). rewrite <- app_assoc. rewrite nth_error_app2, Nat.sub_diag by lia. reflexivity.
      + destruct (IH _ _ _ E2 I) as (_ & A & B & K). split; [exact A |]. split; [exact B |]. intros d J. destruct (K d J) as (a1 & X1 & X2). exists a1. split; [right; exact X1 | exact X2]. }
  destruct (G _ _ _ _ E I) as (_ & A & B & K). destruct H as [H|[H|H]]; [contradiction | contradiction |]. destruct H as (d & k & Hd & Hk). destruct (K d Hd) as (a & Ia & Na).
  assert (F : forall d, In (k, FText None) d -> change_dtype d = None).
  { clear. induction d as [|[k1 v1] d IH]; intros J; [destruct J |]. unfold change_dtype in *. cbn [on_values]. destruct J as [J|J]; [injection J as -> ->; reflexivity |]. rewrite (IH J). destruct (to_float v1); reflexivity. }
  assert (U : update_all change_dtype h l = None); [| rewrite U; reflexivity].
  destruct (update_all change_dtype h l) as [h'|] eqn:EU; [exfalso | reflexivity]. clear - Ia Na Hk F EU.
  assert (Q0 : forall l (h h' : list feats) (d : feats), In a l -> nth_error h a = Some d -> In (k, FText None) d -> update_all change_dtype h l = Some h' -> False); [| exact (Q0 l h h' d Ia Na Hk EU)].
  clear - F. induction l as [|b l IH]; intros h h' d Ia Na Hk EU; [destruct Ia |]. cbn [update_all] in EU. match type of EU with (match ?e with _ => _ end) = _ => destruct e as [x|] eqn:X end; [| discriminate EU].
  match type of EU with (match ?e with _ => _ end) = _ => destruct e as [y|] eqn:Y end; [| discriminate EU].
  destruct (Nat.eq_dec a b) as [->|NE]; [rewrite X in Na; injection Na as ->; rewrite (F d Hk) in Y; discriminate Y |]. destruct Ia as [->|Ia]; [congruence |].
  apply (IH (write h b y) h' d Ia); [| exact Hk | exact EU]. rewrite nth_write by (apply nth_error_Some; congruence). destruct (a =? b) eqn:AB; [apply Nat.eqb_eq in AB; contradiction | exact Na].
Qed.

(** so does a word in the place of one of the parameters that are given in seconds *)
Lemma opened {A} (cs : list (cell A)) : forall h h' l, open_column h cs = Some (h', l) ->
  (exists m, h' = h ++ m) /\ forall c x, In c cs -> content h c = Some x -> exists a, In a l /\ nth_error h' a = Some x.
Proof.
  induction cs as [|[a|[x|]|] cs IH]; intros h h' l E; cbn [open_column] in E; try discriminate.
  - injection E as <- <-. split; [exists []; rewrite app_nil_r; reflexivity | intros c x []].
  - destruct (open_column h cs) as [[h2 l2]|] eqn:E2; [| discriminate]. injection E as <- <-. destruct (IH _ _ _ E2) as (M & C). split; [exact M |].
    intros c x [<-|I] Hc; [| destruct (C c x I Hc) as (b & B1 & B2); exists b; split; [right; exact B1 | exact B2]].
    exists a. split; [left; reflexivity |]. destruct M as (m & ->). cbn [content] in Hc. rewrite nth_error_app1 by (apply nth_error_Some; congruence). exact Hc.
  - destruct (open_column (h ++ [x]) cs) as [[h2 l2]|] eqn:E2; [| discriminate]. injection E as <- <-. destruct (IH _ _ _ E2) as ((m & ->) & C).
    split; [exists ([x] ++ m); rewrite app_assoc; reflexivity |]. intros c y [<-|I] Hc.
    + cbn [content] in Hc. injection Hc as <-. exists (List.length h). split; [left; reflexivity |]. rewrite <- app_assoc, nth_error_app2, Nat.sub_diag by lia. reflexivity.
    + destruct (C c y I) as (b & B1 & B2); [| exists b; split; [right; exact B1 | exact B2]].
      destruct c as [b|z|]; cbn [content] in *; [| exact Hc | exact Hc]. rewrite nth_error_app1 by (apply nth_error_Some; congruence). exact Hc.
Qed.
Lemma on_values_none {A} (f : string -> A -> option A) d k v : In (k, v) d -> f k v = None -> on_values f d = None.
Proof. intros I F. induction d as [|[k1 v1] d IH]; [destruct I |]. cbn [on_values]. destruct I as [I|I]; [injection I as -> ->; rewrite F; reflexivity |]. rewrite (IH I). destruct (f k1 v1); reflexivity. Qed.
Lemma update_none {A} (f : A -> option A) a x : f x = None -> forall l h, In a l -> nth_error h a = Some x -> update_all f h l = None.
Proof.
  intros F. induction l as [|b l IH]; intros h I N; [destruct I |]. cbn [update_all].
  destruct (nth_error h b) as [y|] eqn:Y; [| reflexivity]. destruct (f y) as [z|] eqn:Z; [| reflexivity].
  assert (NE : a <> b) by (intros ->; rewrite Y in N; injection N as ->; congruence). destruct I as [->|I]; [congruence |]. apply IH; [exact I |].
  rewrite nth_write by (apply nth_error_Some; congruence). destruct (a =? b) eqn:AB; [apply Nat.eqb_eq in AB; contradiction | exact N].
Qed.
Theorem C294_word down alg fr c r alg0 p e k s : In c (hres_cells fr) -> content (f_hres fr) c = Some r -> In (alg0, (p, e)) r -> In (k, Word s) p ->
  down k = true -> reader down alg fr = None.
Proof.
  intros I C R P D. unfold reader, preprocess. destruct (open_column (f_feats fr) _) as [[h l]|]; [| reflexivity]. destruct (update_all change_dtype h l); [| reflexivity].
  change (map (fun r => snd (fst r)) (f_rows fr)) with (hres_cells fr). destruct (open_column (f_hres fr) (hres_cells fr)) as [[hh ha]|] eqn:E; [| reflexivity].
  destruct (opened _ _ _ _ E) as (_ & O). destruct (O c r I C) as (a & A1 & A2).
  rewrite (update_none (scale_row down) a r); [reflexivity | | exact A1 | exact A2].
  unfold scale_row. apply (on_values_none _ r alg0 (p, e) R). cbn [fst snd]. rewrite (on_values_none (scale_param down) p k (Word s) P); [reflexivity |].
  unfold scale_param. rewrite D. reflexivity.
Qed.
Example C294_word_case : let fr := {| f_feats := [[]]; f_hres := [[("CUSUM", ([("scan_window", Word "3d")], 1#2))]]; f_rows := [(Held 0, Held 0, "CUSUM")] |}%string in
  default_down "scan_window" = true /\ reader default_down "CUSUM" fr = None /\ reader (fun _ => false) "CUSUM" fr <> None.
Proof. split; [reflexivity |]. split; [reflexivity | discriminate]. Qed.

(** two rows, one given as a text and one as a dictionary *)
Example C294_case : let fr := {| f_feats := [[("mean", FText (Some (Some (3#2)))); ("std", FNum None)]];
    f_hres := [[("CUSUM", ([("scan_window", Num 172800); ("score_func", Word "z")], 1#2)); ("BOCPD", ([], 1#3))]];
    f_rows := [(Held 0, Held 0, "CUSUM"); (Written (Some [("mean", FNum (Some 1%Q))]), Written (Some [("CUSUM", ([("scan_window", Num 86400)], 1#4))]), "BOCPD")] |}%string in
  digestible default_down fr /\ NoDup (held (hres_cells fr)) /\ exists fr' y1 y2, reader default_down "CUSUM" fr = Some (fr',
    [[("mean", FNum (Some (3#2))); ("std", FNum None)]; [("mean", FNum (Some 1%Q))]], [[("scan_window", Num y1); ("score_func", Word "z")]; [("scan_window", Num y2)]])%string /\ (y1 == 2)%Q /\ (y2 == 1)%Q.
Proof.
  cbv zeta. split; [split |].
  - intros c [<-|[<-|[]]]; eexists; (split; [reflexivity |]); intros k v I; cbn in I; [destruct I as [I|[I|[]]] | destruct I as [I|[]]]; injection I as <- <-; intros K; discriminate K.
  - intros c [<-|[<-|[]]]; eexists; (split; [reflexivity |]); intros alg p e k v I J Dk; cbn in I.
    + destruct I as [I|[I|[]]]; injection I as <- <- <-; cbn in J; [destruct J as [J|[J|[]]]; injection J as <- <-; [eexists; reflexivity | discriminate Dk] | destruct J].
    + destruct I as [I|[]]. injection I as <- <- <-. destruct J as [J|[]]. injection J as <- <-. eexists. reflexivity.
  - split; [constructor; [intros [] | constructor] |]. eexists _, _, _. split; [vm_compute; reflexivity |]. split; reflexivity.
Qed.

Print Assumptions C294_read_partial.
Print Assumptions C294_texts.
Print Assumptions C294_second_read_refuted.
Print Assumptions C294_shared_refuted.
Print Assumptions C294_unreadable.

Print Assumptions C294_word.
