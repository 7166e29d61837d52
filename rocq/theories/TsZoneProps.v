(** Properties of the [TimeSeriesData] object: C262 (slices and categorical columns),
    C263 (time zones). *)
From Verif Require Import Common PySlice TSDataModel TSDataSpec TSDataProofs TsObjModel TsObjSpec TsObjProps TsRowProps.
Open Scope Z_scope.

(** ** C262 *)
Lemma order_sorted t : StronglySorted Z.le t -> order_rows true false t = base t.
Proof.
  intros S. rewrite order_kept. apply sort_rows_id. unfold in_time_order, kept.
  rewrite base_fst. exact S.
Qed.
Lemma take_all n c : length (cells c) = n -> take_rows (seq 0 n) c = c.
Proof. intros <-. destruct c as [a b l]. unfold take_rows. simpl. now rewrite seq_nth_id. Qed.

Lemma finish_sorted cat tname zone t cs :
  StronglySorted Z.le t -> rect (VFrame cs) (length t) ->
  (forall c, In c cs -> cnum c = true) ->
  exists o, finish true false cat tname zone t cs = Some o /\
    otime o = t /\ cols_of (ovals o) = cs /\ ozone o = zone /\ otname o = tname.
Proof.
  intros S R C. unfold finish. rewrite (order_sorted t S), base_snd, base_fst.
  assert (M : map (take_rows (seq 0 (length t))) cs = cs).
  { rewrite <- (map_id cs) at 2. apply map_ext_in. intros c Hc. apply take_all, R. exact Hc. }
  rewrite M, univariate_cols. cbn [cols_of].
  assert (F : forallb (numeric_or_declared cat) cs = true).
  { apply forallb_forall. intros c Hc. unfold numeric_or_declared. rewrite C by exact Hc. reflexivity. }
  rewrite F, orb_true_r. eexists. split; [reflexivity|]. cbn [otime ovals ozone otname].
  rewrite univariate_cols. auto.
Qed.

Definition cut (a b : Z) (c : col) : col :=
  MkCol (cname c) (cnum c) (py_slice (cells c) (Some a) (Some b)).
Lemma item_rows_cut o a b : item_rows o (Some a) (Some b) =
  of_parts true false [] (Some (otname o)) (otname o) (ozone o) (py_slice (otime o) (Some a) (Some b))
    (match ovals o with VSeries c => VSeries (cut a b c) | VFrame cs => VFrame (map (cut a b) cs) end).
Proof. reflexivity. Qed.
Lemma cut_cols a b v :
  cols_of (match v with VSeries c => VSeries (cut a b c) | VFrame cs => VFrame (map (cut a b) cs) end)
  = map (cut a b) (cols_of v).
Proof. destruct v; reflexivity. Qed.

Lemma sorted_skipn {A} (R : A -> A -> Prop) n : forall l, StronglySorted R l -> StronglySorted R (skipn n l).
Proof. induction n as [|n IH]; intros [|x l] H; simpl; auto. inversion H; auto. Qed.
Lemma sorted_firstn {A} (R : A -> A -> Prop) n : forall l, StronglySorted R l -> StronglySorted R (firstn n l).
Proof.
  induction n as [|n IH]; intros [|x l] H; simpl; auto; [constructor|].
  inversion H as [|? ? H1 H2]; subst. constructor; [auto|].
  rewrite Forall_forall in *. intros y Hy. apply H2. rewrite <- (firstn_skipn n l).
  apply in_app_iff. now left.
Qed.

(** A slice of rows a to b of a sorted series of numeric columns keeps the names and
    holds those rows in order, in the times and in every column. *)
Theorem C262_slice_partial : forall o a b,
  StronglySorted Z.le (otime o) -> rect (ovals o) (length (otime o)) ->
  cols_of (ovals o) <> [] -> (forall c, In c (cols_of (ovals o)) -> cnum c = true) ->
  0 <= a -> a < b -> b <= Z.of_nat (length (otime o)) ->
  exists p, item_rows o (Some a) (Some b) = Some p /\
    otname p = otname o /\ ozone p = ozone o /\ Z.of_nat (length (otime p)) = b - a /\
    map cname (cols_of (ovals p)) = map cname (cols_of (ovals o)) /\
    forall i, 0 <= i < b - a ->
      nth (Z.to_nat i) (otime p) 0 = nth (Z.to_nat (a + i)) (otime o) 0 /\
      map (fun c => nth (Z.to_nat i) (cells c) None) (cols_of (ovals p)) =
      map (fun c => nth (Z.to_nat (a + i)) (cells c) None) (cols_of (ovals o)).
Proof.
  intros o a b S R N C Ha Hab Hb. rewrite item_rows_cut. unfold of_parts.
  pose proof (py_slice_length (otime o) a b Ha ltac:(lia) Hb) as L.
  destruct (py_slice (otime o) (Some a) (Some b)) as [|x t] eqn:T; [simpl in L; lia|].
  assert (RC : forall c, In c (map (cut a b) (cols_of (ovals o))) -> length (cells c) = length (x :: t)).
  { intros c Hc. apply in_map_iff in Hc as (d & <- & Hd). specialize (R d Hd). simpl cells.
    pose proof (py_slice_length (cells d) a b Ha ltac:(lia) ltac:(lia)). lia. }
  unfold vrows. rewrite cut_cols. destruct (cols_of (ovals o)) as [|c cs] eqn:V; [congruence|].
  cbn [map]. rewrite (RC (cut a b c)) by (now left). cbn [length]. rewrite Nat.eqb_refl.
  destruct (finish_sorted [] (otname o) (ozone o) (x :: t) (map (cut a b) (c :: cs)))
    as (p & P & P1 & P2 & P3 & P4).
  - rewrite <- T. unfold py_slice. apply sorted_firstn, sorted_skipn, S.
  - exact RC.
  - intros d Hd. apply in_map_iff in Hd as (e & <- & He). simpl. auto.
  - exists p. split; [exact P|]. rewrite P1, P2, P3, P4. repeat split; auto.
    + rewrite map_map. reflexivity.
    + rewrite <- T. apply py_slice_nth; lia.
    + rewrite map_map. refine (map_ext_in _ _ (c :: cs) _). intros d Hd. simpl cells.
      apply py_slice_nth; try lia. rewrite (R d) by (rewrite V; exact Hd). exact Hb.
Qed.

(** A slice with at least one row of a series with a categorical column raises, although
    the series itself was accepted: the declaration is not passed on.  So does taking the
    column by its name. *)
Theorem C262_categorical_refuted : forall sort drop cat tname zone t cs o c a b,
  t <> [] -> of_frame sort drop cat tname zone (Some t) cs = Some o ->
  In c cs -> cnum c = false ->
  0 <= a -> a < b -> b <= Z.of_nat (length (otime o)) ->
  item_rows o (Some a) (Some b) = None /\ item_col o (cname c) = None.
Proof.
  intros sort drop cat tname zone t cs o c a b NT H I C Ha Hab Hb.
  destruct (C261_frame _ _ _ _ _ _ _ _ NT H) as ((pos & _ & Lp & _ & F & _) & _).
  assert (RO : rect (ovals o) (length (otime o))).
  { intros d Hd. rewrite Lp. clear -F Hd. induction F as [|e f es fs K F IH]; [destruct Hd|].
    destruct Hd as [<-|Hd]; [|auto]. destruct K as (_ & _ & ->). apply map_length. }
  destruct (forall2_in _ _ _ _ F I) as (d & Id & En & Eu & Ec). rewrite C in Eu.
  split.
  - rewrite item_rows_cut. unfold of_parts.
    pose proof (py_slice_length (otime o) a b Ha ltac:(lia) Hb) as L.
    destruct (py_slice (otime o) (Some a) (Some b)) as [|x t'] eqn:T; [simpl in L; lia|].
    match goal with |- context [vrows ?v] => destruct (vrows v) as [|n] eqn:VR; [reflexivity|] end.
    destruct (Nat.eqb_spec (length (x :: t')) (Datatypes.S n)) as [E|]; [|reflexivity].
    rewrite cut_cols.
    apply (proj2 (proj2 (C261_refused true false [] None 0%nat (otname o) (ozone o) (x :: t')
             (map (cut a b) (cols_of (ovals o))) (ovals o))) (cut a b d)); auto; try discriminate.
    + apply in_map. exact Id.
    + intros e He. simpl in He. apply in_map_iff in He as (f & <- & Hf). simpl cells.
      pose proof (py_slice_length (cells f) a b Ha ltac:(lia)) as LS.
      rewrite (RO f Hf) in LS. specialize (LS Hb). lia.
  - unfold item_col. destruct (ovals o) as [e|es] eqn:V; [reflexivity|].
    destruct (filter _ es) as [|e [|f fs]] eqn:FL; try reflexivity.
    assert (Ie : In d [e]).
    { rewrite <- FL. apply filter_In. split; [exact Id|]. rewrite En. apply Nat.eqb_refl. }
    destruct Ie as [->|[]]. unfold of_parts.
    assert (Ld : length (cells d) = length (otime o)) by (apply RO; exact Id).
    unfold vrows. cbn [cols_of]. rewrite Ld.
    destruct (otime o) as [|x t'] eqn:T; [simpl in Hb; lia|]. cbn [length]. rewrite Nat.eqb_refl.
    apply (proj2 (proj2 (C261_refused true false [] None 0%nat (otname o) (ozone o) (x :: t')
             [d] (VSeries d))) d); auto; try discriminate.
    + now left.
    + intros f [<-|[]]. exact Ld.
Qed.

(** An empty slice of a series of several columns is a series of one column "value". *)
Theorem C262_empty_slice_refuted : forall o cs a,
  ovals o = VFrame cs -> rect (VFrame cs) (length (otime o)) ->
  0 <= a <= Z.of_nat (length (otime o)) ->
  exists p, item_rows o (Some a) (Some a) = Some p /\ otime p = [] /\
    ovals p = VSeries (MkCol name_value true []).
Proof.
  intros o cs a V R H. rewrite item_rows_cut, V. unfold of_parts.
  assert (E : forall A (l : list A), (a <= Z.of_nat (length l)) -> py_slice l (Some a) (Some a) = []).
  { intros A l L. rewrite py_slice_in by lia. rewrite Z.sub_diag. reflexivity. }
  rewrite E by lia.
  assert (Z0 : vrows (VFrame (map (cut a a) cs)) = 0%nat).
  { unfold vrows. cbn [cols_of]. destruct cs as [|c cs]; [reflexivity|]. cbn [map cells cut].
    unfold cut. cbn [cells]. rewrite E; [reflexivity|]. rewrite (R c) by (now left). lia. }
  rewrite Z0. eexists. split; [reflexivity|]. split; reflexivity.
Qed.

Example C262_case : exists o p,
  of_frame true false [] 3 None (Some [30; 10; 20])
    [MkCol 1 true [Some 3%Q; Some 1%Q; Some 2%Q]; MkCol 2 true [None; Some 5%Q; Some 6%Q]] = Some o /\
  item_rows o (Some 1) (Some 3) = Some p /\ otime p = [20; 30] /\
  ovals p = VFrame [MkCol 1 true [Some 2%Q; Some 3%Q]; MkCol 2 true [Some 6%Q; None]].
Proof. eexists. eexists. split; [reflexivity|]. split; [reflexivity|]. split; reflexivity. Qed.

(** ** C263 *)
Lemma all_some_nth {A} (l : list (option A)) r k : all_some l = Some r ->
  nth_error l k = option_map Some (nth_error r k).
Proof.
  revert r k. induction l as [|[x|] l IH]; simpl; intros r k H; try discriminate.
  - injection H as <-. destruct k; reflexivity.
  - destruct (all_some l) as [s|]; [|discriminate]. injection H as <-. destruct k; simpl; auto.
Qed.
Lemma all_some_none {A} (l : list (option A)) : all_some l = None <-> In None l.
Proof.
  induction l as [|[x|] l IH]; simpl.
  - split; [discriminate|intros []].
  - destruct (all_some l) as [r|].
    + split; [discriminate|]. intros [H|H]; [discriminate|]. apply IH in H. discriminate.
    + split; [|reflexivity]. intros _. right. apply IH. reflexivity.
  - split; auto.
Qed.

(** Conversion keeps instants and values; of several conversions the last one counts;
    a series without zone is left as it is. *)
Theorem C263_convert : forall z1 z2 o,
  otime (convert_timezone z1 o) = otime o /\ ovals (convert_timezone z1 o) = ovals o /\
  convert_timezone z2 (convert_timezone z1 o) = convert_timezone z2 o /\
  ozone (convert_timezone z1 o) = match ozone o with Some _ => Some z1 | None => None end /\
  (ozone o = None -> convert_timezone z1 o = o).
Proof.
  intros z1 z2 o. unfold convert_timezone, is_aware.
  destruct (ozone o) as [z|] eqn:Z0; cbn [otime ovals ozone]; repeat split; auto; try discriminate.
  rewrite Z0. reflexivity.
Qed.

(** Giving a series without zone a zone: every row then shows, in that zone, the wall
    clock it had; rows keep their values; sorted, the instants do not decrease. *)
Theorem C263_set : forall off loc z sort o o',
  localiser off loc -> ozone o = None ->
  set_timezone loc z sort o = Some o' ->
  ozone o' = Some z /\
  exists pos, Permutation (seq 0 (length (otime o))) pos /\
    (forall k i, nth_error pos k = Some i ->
       exists x, nth_error (otime o') k = Some x /\
                 nth_error (otime o) i = Some (x + off z x)) /\
    length (otime o') = length pos /\
    Forall2 (fun c d => cname d = cname c /\ cells d = map (fun i => nth i (cells c) None) pos)
            (cols_of (ovals o)) (cols_of (ovals o')) /\
    (sort = true -> StronglySorted Z.le (otime o')) /\
    (sort = false -> pos = seq 0 (length (otime o))).
Proof.
  intros off loc z sort o o' HL Z0 H. unfold set_timezone, is_aware in H. rewrite Z0 in H.
  destruct (all_some (map (loc z) (otime o))) as [il|] eqn:L; [|discriminate].
  pose proof (all_some_len _ _ L) as LL. rewrite map_length in LL.
  apply some_inj in H. set (r := order_rows sort false il) in *.
  set (v := univariate _) in *.
  assert (O : ozone o' = Some z /\ otime o' = map fst r /\ ovals o' = v).
  { subst o'. destruct v; repeat split. }
  destruct O as (O1 & O2 & O3). split; [exact O1|]. exists (map snd r).
  rewrite O2, O3. unfold v. rewrite univariate_cols. cbn [cols_of].
  split; [|split; [|split; [|split; [|split]]]].
  - rewrite <- LL. unfold r. apply order_positions.
  - intros k i K. rewrite nth_error_map in K. destruct (nth_error r k) as [[x j]|] eqn:E; [|discriminate].
    injection K as ->. exists x. rewrite nth_error_map, E. split; [reflexivity|].
    assert (B : nth_error il i = Some x).
    { apply base_in. eapply Permutation_in; [apply Permutation_sym, (order_perm sort false)|].
      eapply nth_error_In. exact E. }
    pose proof (all_some_nth _ _ i L) as K. rewrite nth_error_map, B in K.
    destruct (nth_error (otime o) i) as [w|]; [|discriminate]. simpl in K.
    injection K as K. apply HL in K as [K _]. now rewrite K.
  - now rewrite !map_length.
  - clear. induction (cols_of (ovals o)); simpl; constructor; auto.
  - intros ->. unfold r. rewrite order_kept. apply sort_rows_sorted.
  - intros ->. unfold r. rewrite order_kept. unfold kept. rewrite base_snd, LL. reflexivity.
Qed.

(** It raises exactly when some wall clock is not shown by exactly one instant of the
    zone; a series that has a zone already is left as it is. *)
Theorem C263_set_raises : forall off loc z sort o,
  localiser off loc ->
  (ozone o <> None -> set_timezone loc z sort o = Some o) /\
  (ozone o = None ->
   (set_timezone loc z sort o = None <->
    exists w, In w (otime o) /\
      ~ exists i, i + off z i = w /\ forall j, j + off z j = w -> j = i)).
Proof.
  intros off loc z sort o HL. split.
  - intros N. unfold set_timezone, is_aware. destruct (ozone o); [reflexivity|congruence].
  - intros Z0. unfold set_timezone, is_aware. rewrite Z0.
    destruct (all_some (map (loc z) (otime o))) as [il|] eqn:L.
    + split; [discriminate|]. intros (w & I & N). destruct N.
      destruct (loc z w) as [i|] eqn:E; [exists i; apply HL; exact E|].
      assert (K : all_some (map (loc z) (otime o)) = None).
      { apply all_some_none. rewrite <- E. apply in_map. exact I. }
      congruence.
    + split; [|reflexivity]. intros _. apply all_some_none in L.
      apply in_map_iff in L as (w & E & I). exists w. split; [exact I|].
      intros (i & K). apply HL in K. congruence.
Qed.

(** Parsing: numbers are instants whatever the zone asked for; strings show, in the zone
    asked for, the clock they were written with. *)
Theorem C263_parse : forall off loc unit tz l zone ts,
  localiser off loc ->
  (set_time_format loc unit true tz (RUnix l) = Some (zone, ts) ->
   zone = tz /\ ts = map (fun x => unit * x) l) /\
  (set_time_format loc unit false tz (RText l) = Some (zone, ts) ->
   zone = tz /\ map (wall off zone) ts = l).
Proof.
  intros off loc unit tz l zone ts HL. split; cbn [set_time_format].
  - intros H. injection H as <- <-. auto.
  - destruct tz as [z|].
    + destruct (all_some _) as [il|] eqn:E; [|discriminate]. intros H. injection H as <- <-.
      split; [reflexivity|]. revert il E. induction l as [|w l IH]; simpl; intros il E.
      * injection E as <-. reflexivity.
      * destruct (loc z w) as [i|] eqn:W; [|discriminate].
        destruct (all_some _) as [r|]; [|discriminate]. injection E as <-. simpl.
        rewrite (IH r eq_refl). f_equal. apply HL in W as [W _]. exact W.
    + intros H. injection H as <- <-. split; [reflexivity|]. apply map_id.
Qed.

(** The zone asked for is ignored for a column of datetimes. *)
Theorem C263_datetimes_refuted : forall loc unit use_unix z l,
  set_time_format loc unit use_unix (Some z) (RDate None l) = Some (None, l).
Proof. reflexivity. Qed.

(** A zone of +2 up to instant 100 and +1 from there: the clock 101 is shown
    twice. *)
Definition zone_off (z : nat) (i : Z) : Z := if i <? 100 then 2 else 1.
Definition zone_loc (z : nat) (w : Z) : option Z :=
  if w <? 101 then Some (w - 2) else if w =? 101 then None else Some (w - 1).
Lemma zone_ok : localiser zone_off zone_loc.
Proof.
  intros z w i. unfold zone_loc, zone_off.
  destruct (Z.ltb_spec w 101) as [L|L].
  - split.
    + intros H. injection H as <-. destruct (Z.ltb_spec (w - 2) 100); [|lia].
      split; [lia|]. intros j. destruct (Z.ltb_spec j 100); lia.
    + intros [H K]. f_equal. destruct (Z.ltb_spec i 100); lia.
  - destruct (Z.eqb_spec w 101) as [->|N].
    + split; [discriminate|]. intros [H K].
      pose proof (K 99) as K1. pose proof (K 100) as K2. simpl in K1, K2.
      specialize (K1 eq_refl). specialize (K2 eq_refl). lia.
    + split.
      * intros H. injection H as <-. destruct (Z.ltb_spec (w - 1) 100); [lia|].
        split; [lia|]. intros j. destruct (Z.ltb_spec j 100); lia.
      * intros [H K]. f_equal. destruct (Z.ltb_spec i 100); lia.
Qed.
Example C263_case : exists o o',
  of_frame true false [] 0 None (Some [103; 50]) [MkCol 1 true [Some 3%Q; Some 1%Q]] = Some o /\
  set_timezone zone_loc 4 true o = Some o' /\ otime o' = [48; 102] /\
  set_timezone zone_loc 4 true (set_time o [50; 101]) = None.
Proof. eexists. eexists. split; [reflexivity|]. split; [reflexivity|]. split; reflexivity. Qed.

Print Assumptions C262_slice_partial.
Print Assumptions C262_categorical_refuted.
Print Assumptions C262_empty_slice_refuted.
Print Assumptions C263_convert.
Print Assumptions C263_set.
Print Assumptions C263_set_raises.
Print Assumptions C263_parse.
Print Assumptions C263_datetimes_refuted.
