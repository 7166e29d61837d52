(** Properties of the [TimeSeriesData] object: C258 (cached bounds), C259 (equality). *)
From Verif Require Import Common PySlice TSDataModel TSDataSpec TSDataProofs TsObjModel TsObjSpec.
Require Import Lqa.
Open Scope Z_scope.

(** ** Bounds of one column *)
Lemma cells_min_spec l : is_least l (cells_min l).
Proof.
  induction l as [|[x|] t IH]; simpl.
  - intros x [].
  - destruct (cells_min t) as [m|] eqn:E; simpl in *.
    + destruct IH as [I L]. destruct (Qle_bool x m) eqn:B; simpl; split.
      * left; reflexivity.
      * apply Qle_bool_iff in B. intros y [H|H]; [injection H as <-; lra|].
        specialize (L y H). lra.
      * right; exact I.
      * intros y [H|H]; [injection H as <-|exact (L y H)].
        destruct (Qlt_le_dec x m) as [K|K]; [|exact K].
        apply Qlt_le_weak, Qle_bool_iff in K. congruence.
    + split; [left; reflexivity|]. intros y [H|H]; [injection H as <-; lra|].
      destruct (IH y H).
  - destruct (cells_min t) as [m|]; simpl in *.
    + destruct IH as [I L]. split; [right; exact I|]. intros y [H|H]; [discriminate|auto].
    + intros y [H|H]; [discriminate|]. exact (IH y H).
Qed.
Lemma cells_max_spec l : is_greatest l (cells_max l).
Proof.
  induction l as [|[x|] t IH]; simpl.
  - intros x [].
  - destruct (cells_max t) as [m|] eqn:E; simpl in *.
    + destruct IH as [I L]. destruct (Qle_bool m x) eqn:B; simpl; split.
      * left; reflexivity.
      * apply Qle_bool_iff in B. intros y [H|H]; [injection H as <-; lra|].
        specialize (L y H). lra.
      * right; exact I.
      * intros y [H|H]; [injection H as <-|exact (L y H)].
        destruct (Qlt_le_dec m x) as [K|K]; [|exact K].
        apply Qlt_le_weak, Qle_bool_iff in K. congruence.
    + split; [left; reflexivity|]. intros y [H|H]; [injection H as <-; lra|].
      destruct (IH y H).
  - destruct (cells_max t) as [m|]; simpl in *.
    + destruct IH as [I L]. split; [right; exact I|]. intros y [H|H]; [discriminate|auto].
    + intros y [H|H]; [discriminate|]. exact (IH y H).
Qed.

Lemma per_column (f : list (option Q) -> option Q) (best : list (option Q) -> option Q -> Prop) cs :
  (forall l, best l (f l)) ->
  Forall2 (fun c nm => fst nm = cname c /\ best (cells c) (snd nm)) cs
          (map (fun c => (cname c, f (cells c))) cs).
Proof. intros H. induction cs; simpl; constructor; simpl; auto. Qed.

Lemma calc_describes v n : rect v n ->
  describes is_least v (calc_min v) /\ describes is_greatest v (calc_max v).
Proof.
  intros R. unfold calc_min, calc_max, vrows.
  destruct v as [c|cs]; cbn [cols_of] in *.
  - destruct (Nat.eqb_spec (length (cells c)) 0) as [E|E]; simpl.
    + apply length_zero_iff_nil in E. rewrite E. split; intros x [].
    + split; [apply cells_min_spec|apply cells_max_spec].
  - destruct cs as [|c cs]; [simpl; split; (split; [reflexivity|intros ? []])|].
    destruct (Nat.eqb_spec (length (cells c)) 0) as [E|E].
    + simpl. assert (Z0 : forall d, c = d \/ In d cs -> cells d = []).
      { intros d H. pose proof (R d H) as Rd. pose proof (R c (or_introl eq_refl)) as Rc. simpl in Rc.
        apply length_zero_iff_nil. lia. }
      split; (split; [reflexivity|exact Z0]).
    + split; apply per_column; auto using cells_min_spec, cells_max_spec.
Qed.

Lemma set_value_right o v n : rect v n -> bounds_right (set_value o v).
Proof. intros R. exact (calc_describes v n R). Qed.

(** ** Rows taken in another order *)
Lemma order_rows_perm sort t :
  Permutation (combine t (seq 0 (length t))) (order_rows sort false t).
Proof. unfold order_rows. destruct sort; [apply sort_rows_perm|apply Permutation_refl]. Qed.

Lemma combine_snd {A B} (l : list A) (m : list B) :
  length l = length m -> map snd (combine l m) = m.
Proof.
  revert m. induction l as [|x l IH]; intros [|y m] H; simpl in *; try discriminate; auto.
  f_equal. apply IH. lia.
Qed.
Lemma order_positions sort t :
  Permutation (seq 0 (length t)) (map snd (order_rows sort false t)).
Proof.
  rewrite <- (combine_snd t (seq 0 (length t))) at 1 by (now rewrite seq_length).
  apply Permutation_map, order_rows_perm.
Qed.

Lemma seq_nth_id (l : list (option Q)) : map (fun i => nth i l None) (seq 0 (length l)) = l.
Proof.
  induction l as [|x l IH]; [reflexivity|]. simpl. f_equal.
  rewrite <- seq_shift, map_map. exact IH.
Qed.

Lemma take_rows_perm p c :
  Permutation (seq 0 (length (cells c))) p -> Permutation (cells c) (cells (take_rows p c)).
Proof.
  intros H. simpl. rewrite <- (seq_nth_id (cells c)) at 1. apply Permutation_map. exact H.
Qed.

Lemma least_perm l l' m : Permutation l l' -> is_least l m -> is_least l' m.
Proof.
  intros P. destruct m as [q|]; simpl.
  - intros [I L]. split; [eapply Permutation_in; eauto|].
    intros x H. apply L. eapply Permutation_in; [apply Permutation_sym|]; eauto.
  - intros L x H. apply (L x). eapply Permutation_in; [apply Permutation_sym|]; eauto.
Qed.
Lemma greatest_perm l l' m : Permutation l l' -> is_greatest l m -> is_greatest l' m.
Proof.
  intros P. destruct m as [q|]; simpl.
  - intros [I L]. split; [eapply Permutation_in; eauto|].
    intros x H. apply L. eapply Permutation_in; [apply Permutation_sym|]; eauto.
  - intros L x H. apply (L x). eapply Permutation_in; [apply Permutation_sym|]; eauto.
Qed.

Lemma univariate_cols v : cols_of (univariate v) = cols_of v.
Proof. destruct v as [c|[|c [|d cs]]]; reflexivity. Qed.

Lemma rect_taken p cs : rect (VFrame (map (take_rows p) cs)) (length p).
Proof.
  intros c H. simpl in H. apply in_map_iff in H as (d & <- & _). simpl. apply map_length.
Qed.
Lemma rect_uni v n : rect v n -> rect (univariate v) n.
Proof. intros R c H. rewrite univariate_cols in H. auto. Qed.

Lemma some_inj {A} (a b : A) : Some a = Some b -> b = a.
Proof. congruence. Qed.
Lemma finish_right sort drop cat tname zone t cs o :
  finish sort drop cat tname zone t cs = Some o -> bounds_right o.
Proof.
  unfold finish. destruct (_ || _); [|discriminate]. intros H.
  apply some_inj in H. subst o. unfold bounds_right. cbn [ovals omin omax].
  eapply calc_describes. apply rect_uni, rect_taken.
Qed.

Lemma describes_perm (best : list (option Q) -> option Q -> Prop) v p b :
  (forall l l' m, Permutation l l' -> best l m -> best l' m) ->
  rect v (length p) -> Permutation (seq 0 (length p)) p ->
  describes best v b ->
  match v with VFrame _ => describes best (VFrame (map (take_rows p) (cols_of v))) b
             | VSeries c => describes best (VSeries (take_rows p c)) b end.
Proof.
  intros BP R P D. destruct v as [c|cs]; simpl in *.
  - destruct b as [m|ms]; [|exact D]. eapply BP; [|exact D].
    apply (take_rows_perm p c). rewrite R by (now left). exact P.
  - destruct b as [m|ms].
    + destruct D as [E D]. split; [exact E|]. intros c H.
      apply in_map_iff in H as (d & <- & H). specialize (D d H).
      specialize (R d H). rewrite D in R. simpl in R.
      assert (p = []) as -> by (destruct p; [reflexivity|discriminate]). reflexivity.
    + clear -BP R P D. induction D as [|c nm cs ms H D IH]; simpl; constructor.
      * destruct H as [E H]. split; [exact E|]. eapply BP; [|exact H].
        apply (take_rows_perm p c). rewrite R by (now left). exact P.
      * apply IH. intros d Hd. apply R. now right.
Qed.

Lemma order_len sort t : length (map snd (order_rows sort false t)) = length t.
Proof.
  rewrite <- (Permutation_length (order_positions sort t)). apply seq_length.
Qed.

Lemma all_some_len {A} (l : list (option A)) r : all_some l = Some r -> length r = length l.
Proof.
  revert r. induction l as [|[x|] l IH]; simpl; intros r H; [|destruct (all_some l)|]; try discriminate.
  - injection H as <-. reflexivity.
  - injection H as <-. simpl. f_equal. auto.
Qed.

(** ** C258 *)

(** Whatever calls are made, raising or not, the cached bounds are those of the stored
    values: for a Series the least and greatest present values, for a frame those of
    each column, and the missing number exactly when nothing is present. *)
Theorem C258_bounds : forall o, history o -> bounds_right o.
Proof.
  intros o H. induction H as [sort drop cat tname zone t cs o R E
    |sort drop cat tname argname zone t v n o R E|o v n H IH R|o t H IH
    |regular validate o p n m Ho IHo Hp IHp Ro Rp HC|z o H IH|loc z sort o o' H IH R E].
  - simpl in E. destruct t as [|t0 t].
    + injection E as <-. split; simpl; intros x [].
    + exact (finish_right _ _ _ _ _ _ _ _ E).
  - unfold of_parts in E. destruct t as [|t0 t].
    + destruct (vrows v); [|discriminate]. injection E as <-. split; simpl; intros x [].
    + destruct (vrows v) as [|k]; [discriminate|].
      destruct (Nat.eqb _ _); [|discriminate]. exact (finish_right _ _ _ _ _ _ _ _ E).
  - exact (set_value_right o v n R).
  - exact IH.
  - unfold extend_obj. cbn [fst].
    assert (RA : rect (VFrame (append_cells (cols_of (ovals o)) (cols_of (ovals p)))) (n + m)).
    { intros c H. simpl in H. apply in_map_iff in H as (d & <- & H). simpl.
      rewrite app_length, (Ro d H). f_equal.
      destruct (find _ _) as [e|] eqn:F.
      - apply find_some in F as [F _]. exact (Rp e F).
      - destruct (HC d H) as (e & He & En).
        pose proof (find_none _ _ F e He) as K. simpl in K.
        rewrite En, Nat.eqb_refl in K. discriminate. }
    unfold set_univariate. cbn [ovals set_value].
    destruct (append_cells _ _) as [|c [|d cs]] eqn:A;
      try exact (set_value_right _ _ _ RA).
    exact (set_value_right _ (VSeries c) _ RA).
  - unfold convert_timezone. destruct (is_aware o); [|exact IH]. exact IH.
  - unfold set_timezone in E. destruct (is_aware o); [injection E as <-; exact IH|].
    destruct (all_some _) as [il|] eqn:L; [|discriminate].
    assert (LL : length il = length (otime o)).
    { rewrite (all_some_len _ _ L). apply map_length. }
    set (p := map snd (order_rows sort false il)) in *.
    assert (Lp : length p = length (otime o)) by (unfold p; rewrite order_len; exact LL).
    assert (Pp : Permutation (seq 0 (length p)) p).
    { rewrite Lp, <- LL. unfold p. apply order_positions. }
    assert (RT : forall cs, rect (VFrame (map (take_rows p) cs)) (length p)).
    { intros cs c Hc. simpl in Hc. apply in_map_iff in Hc as (d & <- & _). simpl.
      apply map_length. }
    rewrite <- Lp in R.
    destruct (univariate _) as [c|cs] eqn:U.
    + injection E as <-. apply (set_value_right _ (VSeries c) (length p)).
      rewrite <- U. apply rect_uni, RT.
    + injection E as <-. unfold bounds_right; simpl.
      destruct IH as [I1 I2].
      pose proof (describes_perm is_least (ovals o) p (omin o) least_perm R Pp I1) as D1.
      pose proof (describes_perm is_greatest (ovals o) p (omax o) greatest_perm R Pp I2) as D2.
      destruct (ovals o) as [c|cs0]; simpl in *; [discriminate|].
      destruct cs0 as [|c [|d t]]; simpl in *; try discriminate;
        injection U as <-; split; assumption.
Qed.

(** A write through the returned Series leaves the cached bounds as they were. *)
Theorem C258_in_place_refuted : exists o i x,
  history o /\ ~ bounds_right (write_cell o i x).
Proof.
  destruct (of_frame true false [] 0 None (Some [10; 20]) [MkCol 1 true [Some 1%Q; Some 2%Q]])
    as [o|] eqn:E; [|discriminate].
  exists o, 1%nat, (Some 5%Q). split.
  - eapply h_frame; [|exact E]. intros c [<-|[]]. reflexivity.
  - injection E as <-. intros [_ D]. cbn in D. destruct D as [_ D].
    specialize (D 5%Q (or_intror (or_introl eq_refl))). revert D. vm_compute. congruence.
Qed.

(** A history: two columns, extended by a later piece, whose validation fails. *)
Example C258_case : exists o,
  history o /\ omin o = BMany [(1%nat, Some 1%Q); (2%nat, None)]
  /\ omax o = BMany [(1%nat, Some 9%Q); (2%nat, None)]
  /\ otime o = [10; 20; 25].
Proof.
  destruct (of_frame true false [] 0 None (Some [20; 10])
     [MkCol 1 true [Some 3%Q; Some 1%Q]; MkCol 2 true [None; None]]) as [o|] eqn:E; [|discriminate].
  destruct (of_frame true false [] 0 None (Some [25])
     [MkCol 2 true [None]; MkCol 1 true [Some 9%Q]]) as [p|] eqn:F; [|discriminate].
  exists (fst (extend_obj (fun _ => false) true o p)). split.
  - eapply (h_extend _ _ o p 2 1).
    + eapply h_frame; [|exact E]. intros c [<-|[<-|[]]]; reflexivity.
    + eapply h_frame; [|exact F]. intros c [<-|[<-|[]]]; reflexivity.
    + injection E as <-. intros c [<-|[<-|[]]]; reflexivity.
    + injection F as <-. intros c [<-|[<-|[]]]; reflexivity.
    + injection E as <-. injection F as <-. intros c [<-|[<-|[]]];
        [exists (MkCol 1 true [Some 9%Q])|exists (MkCol 2 true [None])];
        (split; [simpl; auto|reflexivity]).
  - injection E as <-. injection F as <-. repeat split; reflexivity.
Qed.

(** ** C259 *)
Lemma all2_forall2 {A B} (f : A -> B -> bool) (R : A -> B -> Prop) l m :
  (forall x y, f x y = true <-> R x y) -> (all2 f l m = true <-> Forall2 R l m).
Proof.
  intros H. revert m. induction l as [|x l IH]; intros [|y m]; simpl.
  - split; auto.
  - split; [discriminate|inversion 1].
  - split; [discriminate|inversion 1].
  - rewrite andb_true_iff, H, IH. split; [intros [? ?]; constructor; auto|inversion 1; auto].
Qed.
Lemma forall2_eq {A} (l m : list A) : Forall2 eq l m <-> l = m.
Proof.
  split; [induction 1; congruence|]. intros ->. induction m; constructor; auto.
Qed.

Lemma qmax2_le a b c : (c <= qmax2 a b <-> c <= a \/ c <= b)%Q.
Proof.
  unfold qmax2. destruct (Qle_bool a b) eqn:E.
  - apply Qle_bool_iff in E. split; [right; assumption|]. intros [H|H]; lra.
  - assert (b <= a)%Q.
    { destruct (Qlt_le_dec a b) as [K|K]; [|exact K].
      apply Qlt_le_weak, Qle_bool_iff in K. congruence. }
    split; [left; assumption|]. intros [K|K]; lra.
Qed.
Lemma close_near a b : close_cell a b = true <-> near a b.
Proof.
  destruct a as [x|], b as [y|]; simpl; try (split; [discriminate|tauto]); [|tauto].
  rewrite Qle_bool_iff, qmax2_le. unfold rtol, atol.
  assert (M : (Qabs (x - y) <= (1 # 100000) * qmax2 (Qabs x) (Qabs y) <->
              Qabs (x - y) <= (1 # 100000) * Qabs x \/ Qabs (x - y) <= (1 # 100000) * Qabs y)%Q).
  { unfold qmax2. pose proof (Qabs_nonneg x). pose proof (Qabs_nonneg y).
    destruct (Qle_bool (Qabs x) (Qabs y)) eqn:E.
    - apply Qle_bool_iff in E. split; [auto|]. intros [H1|H1]; lra.
    - assert (Qabs y <= Qabs x)%Q.
      { destruct (Qlt_le_dec (Qabs x) (Qabs y)) as [K|K]; [|exact K].
        apply Qlt_le_weak, Qle_bool_iff in K. congruence. }
      split; [auto|]. intros [H2|H2]; lra. }
  tauto.
Qed.
Lemma same_col_near c d : same_col c d = true <-> near_cols c d.
Proof.
  unfold same_col, near_cols. rewrite andb_true_iff, Nat.eqb_eq.
  rewrite (all2_forall2 close_cell near _ _ close_near). tauto.
Qed.
Lemma zone_eqb_eq a b : zone_eqb a b = true <-> a = b.
Proof.
  destruct a, b; simpl; try (split; congruence). rewrite Nat.eqb_eq. split; congruence.
Qed.

Lemma obj_eqb_iff a b : obj_eqb a b = true <->
  otname a = otname b /\ ozone a = ozone b /\ olabels a = olabels b /\ otime a = otime b
  /\ match ovals a, ovals b with
     | VSeries c, VSeries d => near_cols c d
     | VFrame cs, VFrame ds => Forall2 near_cols (sort_cols cs) (sort_cols ds)
     | _, _ => False
     end.
Proof.
  unfold obj_eqb. rewrite !andb_true_iff, Nat.eqb_eq, zone_eqb_eq.
  rewrite (all2_forall2 Nat.eqb eq) by (intros; apply Nat.eqb_eq).
  rewrite (all2_forall2 Z.eqb eq) by (intros; apply Z.eqb_eq).
  rewrite !forall2_eq.
  destruct (ovals a), (ovals b); rewrite ?same_col_near;
    rewrite ?(all2_forall2 same_col near_cols _ _ same_col_near); intuition discriminate.
Qed.

Lemma near_refl a : near a a.
Proof.
  destruct a as [x|]; unfold near; [left|exact I].
  setoid_replace (x - x)%Q with 0%Q by ring. vm_compute. discriminate.
Qed.
Lemma near_sym a b : near a b -> near b a.
Proof.
  destruct a as [x|], b as [y|]; simpl; auto.
  assert (E : (Qabs (x - y) == Qabs (y - x))%Q).
  { rewrite <- Qabs_opp. setoid_replace (- (x - y))%Q with (y - x)%Q by ring. reflexivity. }
  rewrite E. tauto.
Qed.
Lemma forall2_refl {A} (R : A -> A -> Prop) l : (forall x, R x x) -> Forall2 R l l.
Proof. intros H. induction l; constructor; auto. Qed.
Lemma forall2_sym {A} (R : A -> A -> Prop) l m :
  (forall x y, R x y -> R y x) -> Forall2 R l m -> Forall2 R m l.
Proof. intros H. induction 1; constructor; auto. Qed.
Lemma near_cols_refl c : near_cols c c.
Proof. split; [reflexivity|]. apply forall2_refl, near_refl. Qed.
Lemma near_cols_sym c d : near_cols c d -> near_cols d c.
Proof. intros [E H]. split; [auto|]. exact (forall2_sym _ _ _ near_sym H). Qed.

Lemma insert_col_perm c l : Permutation (c :: l) (insert_col c l).
Proof.
  induction l as [|x t IH]; simpl; [constructor; constructor|].
  destruct (Nat.leb _ _); [apply Permutation_refl|].
  eapply perm_trans; [apply perm_swap|]. constructor. exact IH.
Qed.
Lemma sort_cols_perm l : Permutation l (sort_cols l).
Proof.
  induction l as [|x t IH]; simpl; [constructor|].
  eapply perm_trans; [constructor; exact IH|]. apply insert_col_perm.
Qed.

(** Equality of objects: every series equals itself, and the order does not matter. *)
Theorem C259_reflexive_symmetric : forall a b,
  obj_eqb a a = true /\ (obj_eqb a b = true -> obj_eqb b a = true).
Proof.
  intros a b. rewrite !obj_eqb_iff. split.
  - repeat split. destruct (ovals a); [apply near_cols_refl|].
    apply forall2_refl, near_cols_refl.
  - intros (H1 & H2 & H3 & H4 & H5). repeat split; auto.
    destruct (ovals a), (ovals b); auto using near_cols_sym.
    exact (forall2_sym _ _ _ near_cols_sym H5).
Qed.

(** Univariate series are equal exactly when names, zone, index and stamps are the same
    and the values are near each other. *)
Theorem C259_univariate : forall a b c d,
  ovals a = VSeries c -> ovals b = VSeries d ->
  (obj_eqb a b = true <->
   otname a = otname b /\ ozone a = ozone b /\ olabels a = olabels b /\
   otime a = otime b /\ cname c = cname d /\ Forall2 near (cells c) (cells d)).
Proof.
  intros a b c d Ha Hb. rewrite obj_eqb_iff, Ha, Hb. unfold near_cols. tauto.
Qed.

(** Multivariate series that are equal have, for every column of one, a column of the
    same name in the other with near values; a univariate series never equals a
    multivariate one. *)
Lemma forall2_in {A B} (R : A -> B -> Prop) l m x :
  Forall2 R l m -> In x l -> exists y, In y m /\ R x y.
Proof.
  induction 1 as [|a b l m H F IH]; [intros []|]. intros [<-|I].
  - exists b. split; [now left|exact H].
  - destruct (IH I) as (y & Iy & Ry). exists y. split; [now right|exact Ry].
Qed.
Theorem C259_multivariate : forall a b cs,
  obj_eqb a b = true -> ovals a = VFrame cs ->
  otime a = otime b /\
  exists ds, ovals b = VFrame ds /\ length ds = length cs /\
    forall c, In c cs -> exists d, In d ds /\ cname c = cname d
                                   /\ Forall2 near (cells c) (cells d).
Proof.
  intros a b cs H Ha. apply obj_eqb_iff in H as (_ & _ & _ & Ht & H). rewrite Ha in H.
  split; [exact Ht|]. destruct (ovals b) as [d|ds]; [destruct H|].
  exists ds. split; [reflexivity|].
  assert (L : length (sort_cols cs) = length (sort_cols ds)).
  { clear -H. induction H; simpl; congruence. }
  rewrite <- (Permutation_length (sort_cols_perm cs)),
    <- (Permutation_length (sort_cols_perm ds)) in L.
  split; [auto|]. intros c Hc.
  apply (Permutation_in _ (sort_cols_perm cs)) in Hc.
  destruct (forall2_in _ _ _ _ H Hc) as (d & Hd & N & F).
  exists d. split; [|auto]. eapply Permutation_in; [apply Permutation_sym, sort_cols_perm|exact Hd].
Qed.

Lemma insert_col_swap c d l : cname c <> cname d ->
  insert_col c (insert_col d l) = insert_col d (insert_col c l).
Proof.
  intros N. induction l as [|x t IH]; simpl.
  - destruct (Nat.leb_spec (cname c) (cname d)), (Nat.leb_spec (cname d) (cname c));
      try reflexivity; lia.
  - destruct (Nat.leb_spec (cname d) (cname x)), (Nat.leb_spec (cname c) (cname x)); simpl;
      repeat match goal with |- context [Nat.leb ?a ?b] => destruct (Nat.leb_spec a b) end;
      try reflexivity; try lia; rewrite ?IH; reflexivity.
Qed.
Lemma sort_cols_unique l m : Permutation l m -> NoDup (map cname l) ->
  sort_cols l = sort_cols m.
Proof.
  intros P. induction P as [|x l m P IH|x y l|l m k P1 IH1 P2 IH2]; intros N; simpl.
  - reflexivity.
  - inversion N; subst. rewrite IH; auto.
  - inversion N as [|? ? N1 N2]; subst. apply insert_col_swap.
    intros E. apply N1. simpl. left. now rewrite E.
  - rewrite IH1 by assumption. apply IH2.
    eapply Permutation_NoDup; [apply Permutation_map; exact P1|exact N].
Qed.

(** The order of the columns does not matter. *)
Theorem C259_column_order : forall a cs ds,
  ovals a = VFrame cs -> NoDup (map cname cs) -> Permutation cs ds ->
  obj_eqb a (set_value a (VFrame ds)) = true.
Proof.
  intros a cs ds Ha N P. apply obj_eqb_iff. simpl. repeat split. rewrite Ha.
  rewrite (sort_cols_unique cs ds P N). apply forall2_refl, near_cols_refl.
Qed.

(** Equality is not transitive: it is up to a tolerance. *)
Theorem C259_transitive_refuted : exists a b c,
  history a /\ history b /\ history c /\
  obj_eqb a b = true /\ obj_eqb b c = true /\ obj_eqb a c = false.
Proof.
  set (mk := fun x => of_frame true false [] 0 None (Some [10]) [MkCol 1 true [Some x]]).
  destruct (mk 1%Q) as [a|] eqn:A; [|discriminate].
  destruct (mk (1000009 # 1000000)%Q) as [b|] eqn:B; [|discriminate].
  destruct (mk (1000018 # 1000000)%Q) as [c|] eqn:C; [|discriminate].
  exists a, b, c. repeat split.
  - eapply h_frame; [|exact A]. intros d [<-|[]]; reflexivity.
  - eapply h_frame; [|exact B]. intros d [<-|[]]; reflexivity.
  - eapply h_frame; [|exact C]. intros d [<-|[]]; reflexivity.
  - injection A as <-. injection B as <-. vm_compute. reflexivity.
  - injection C as <-. injection B as <-. vm_compute. reflexivity.
  - injection A as <-. injection C as <-. vm_compute. reflexivity.
Qed.

(** Two series of the same rows and names differ when one was built with repeated times
    to be dropped and without sorting: the labels of the dropped rows are left out. *)
Theorem C259_same_rows_refuted : exists a b,
  history a /\ history b /\ otime a = otime b /\ ozone a = ozone b /\
  otname a = otname b /\ ovals a = ovals b /\ obj_eqb a b = false.
Proof.
  destruct (of_frame false true [] 0 None (Some [10; 10; 20])
     [MkCol 1 true [Some 1%Q; Some 2%Q; Some 3%Q]]) as [a|] eqn:A; [|discriminate].
  destruct (of_frame false true [] 0 None (Some [10; 20])
     [MkCol 1 true [Some 1%Q; Some 3%Q]]) as [b|] eqn:B; [|discriminate].
  exists a, b. split; [|split].
  - eapply h_frame; [|exact A]. intros d [<-|[]]; reflexivity.
  - eapply h_frame; [|exact B]. intros d [<-|[]]; reflexivity.
  - injection A as <-. injection B as <-. repeat split.
Qed.

Example C259_case : exists a b,
  history a /\ history b /\ obj_eqb a b = true /\ ovals a <> ovals b.
Proof.
  destruct (of_frame true false [] 0 None (Some [20; 10])
     [MkCol 1 true [Some 3%Q; Some 1%Q]; MkCol 2 true [None; Some 100000%Q]]) as [a|] eqn:A;
    [|discriminate].
  destruct (of_frame true false [] 0 None (Some [10; 20])
     [MkCol 2 true [Some 100001%Q; None]; MkCol 1 true [Some 1%Q; Some 3%Q]]) as [b|] eqn:B;
    [|discriminate].
  exists a, b. split; [|split].
  - eapply h_frame; [|exact A]. intros d [<-|[<-|[]]]; reflexivity.
  - eapply h_frame; [|exact B]. intros d [<-|[<-|[]]]; reflexivity.
  - injection A as <-. injection B as <-. split; [vm_compute; reflexivity|discriminate].
Qed.

Print Assumptions C258_bounds.
Print Assumptions C258_in_place_refuted.
Print Assumptions C259_reflexive_symmetric.
Print Assumptions C259_univariate.
Print Assumptions C259_multivariate.
Print Assumptions C259_column_order.
Print Assumptions C259_transitive_refuted.
Print Assumptions C259_same_rows_refuted.
