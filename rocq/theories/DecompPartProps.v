(** C267-C268: the components of a series. *)
From Verif Require Import Common TSDataModel TSDataProofs TsObjModel TsObjSpec TsObjProps TsZoneProps TsInterpProps DecompModel DecompProps.
Require Import Reals Lra Sorted Permutation.
Open Scope Z_scope.

(** ** The values at the times of the data *)

(** positions of the wanted times. *)
Fixpoint wanted (ts keep : list Z) (i : nat) : list nat :=
  match ts with
  | [] => []
  | t :: ts => if existsb (Z.eqb t) keep then i :: wanted ts keep (S i) else wanted ts keep (S i)
  end.
Lemma at_times_wanted keep d : forall ts pre l, length l = length ts ->
  at_times ts keep l = map (fun j => nth j (pre ++ l) d) (wanted ts keep (length pre)).
Proof.
  induction ts as [|t ts IH]; intros pre [|x l] H; simpl in *; try discriminate; auto.
  assert (X : pre ++ x :: l = (pre ++ [x]) ++ l) by (rewrite <- app_assoc; reflexivity).
  assert (Y : S (length pre) = length (pre ++ [x])) by (rewrite app_length; simpl; lia).
  destruct (existsb (Z.eqb t) keep); simpl.
  - rewrite app_nth2, Nat.sub_diag by lia. simpl. f_equal. rewrite X, Y. apply IH. lia.
  - rewrite X, Y. apply IH. lia.
Qed.
Lemma wanted_times keep d : forall ts pre,
  map (fun j => nth j (pre ++ ts) d) (wanted ts keep (length pre)) = filter (fun t => existsb (Z.eqb t) keep) ts.
Proof.
  induction ts as [|t ts IH]; intros pre; [reflexivity|]. simpl.
  assert (X : pre ++ t :: ts = (pre ++ [t]) ++ ts) by (rewrite <- app_assoc; reflexivity).
  assert (Y : S (length pre) = length (pre ++ [t])) by (rewrite app_length; simpl; lia).
  destruct (existsb (Z.eqb t) keep); simpl.
  - rewrite app_nth2, Nat.sub_diag by lia. simpl. f_equal. rewrite X, Y. apply IH.
  - rewrite X, Y. apply IH.
Qed.
Lemma wanted_lt keep : forall ts i j, In j (wanted ts keep i) -> (i <= j < i + length ts)%nat.
Proof.
  induction ts as [|t ts IH]; intros i j H; [destruct H|]. simpl in *.
  destruct (existsb (Z.eqb t) keep); [destruct H as [<-|H]; [lia|]|]; apply IH in H; lia.
Qed.
Lemma zip_add_nth : forall a b i x y, nth_error a i = Some x -> nth_error b i = Some y ->
  nth_error (zip_add a b) i = Some (x + y)%Q.
Proof.
  induction a as [|p a IH]; intros [|q b] [|i] x y A B; simpl in *; try discriminate.
  - injection A as ->. injection B as ->. reflexivity.
  - apply IH; assumption.
Qed.
Lemma zip_add_len : forall a b, length a = length b -> length (zip_add a b) = length a.
Proof. induction a as [|p a IH]; intros [|q b] H; simpl in *; try discriminate; auto. Qed.

(** ** Cleaning *)
Lemma clean_spec poly l ys : poly_law poly -> clean poly l = Some ys ->
  length ys = length l /\
  forall i v, nth_error l i = Some (Some v) -> nth_error ys i = Some v.
Proof.
  intros PL H. unfold clean in H. destruct (PL l) as [LL K]. cbv zeta in H.
  pose proof (all_some_len _ _ H) as L. rewrite map_length, seq_length in L.
  split; [lia|]. intros i v E. specialize (K i v E).
  assert (Li : (i < length (poly l))%nat) by (apply nth_error_Some; congruence).
  pose proof (nth_error_nth (poly l) i None K) as N.
  pose proof (all_some_nth _ _ i H) as X.
  rewrite nth_error_map, (nth_error_nth' (seq 0 (length (poly l))) 0%nat) in X by (rewrite seq_length; exact Li).
  rewrite seq_nth in X by exact Li. cbn [option_map Nat.add] in X. unfold fill_both in X.
  rewrite (fill_known _ _ _ N) in X. destruct (nth_error ys i); simpl in X; congruence.
Qed.
Lemma fill_both_known l j i v : nth_error l j = Some (Some v) -> (i < length l)%nat -> fill_both l i <> None.
Proof.
  intros E Li. assert (N : nth j l None = Some v) by (apply nth_error_nth; exact E).
  unfold fill_both, fill_at.
  pose proof (known_before_spec l i) as B. pose proof (known_after_spec l (length l - i) i ltac:(lia)) as A.
  destruct (known_before l i) as [[p u]|]; destruct (known_after l (length l - i) i) as [[q w]|]; try (destruct (Nat.eqb _ _)); try discriminate.
  destruct (Nat.le_ge_cases j i) as [J|J]; [rewrite B in N by exact J|rewrite A in N by exact J]; discriminate.
Qed.
Lemma all_some_total {A} : forall l : list (option A), (forall x, In x l -> x <> None) -> exists ys, all_some l = Some ys.
Proof.
  induction l as [|[x|] l IH]; intros H; [exists []; reflexivity| |destruct (H None); [now left|reflexivity]].
  destruct IH as [ys E]; [intros y Iy; apply H; now right|]. exists (x :: ys). simpl. rewrite E. reflexivity.
Qed.
Lemma clean_total poly l j v : poly_law poly -> nth_error l j = Some (Some v) -> clean poly l <> None.
Proof.
  intros PL E. destruct (PL l) as [LL K]. specialize (K j v E). unfold clean. cbv zeta.
  destruct (all_some_total (map (fill_both (poly l)) (seq 0 (length (poly l))))) as [ys Y]; [|congruence].
  intros x I. apply in_map_iff in I as (i & <- & I). apply in_seq in I.
  apply (fill_both_known (poly l) j i v K). lia.
Qed.

(** ** The handler *)

(** Asking twice, or in another order, gives the same answers. *)
Theorem C267_history : forall poly S h ks k,
  handler_calls poly S h None ks k = handler_calls poly S h None [] k.
Proof.
  intros poly S h ks k.
  assert (W : forall c, decompose poly S h = Some c -> forall ks,
    handler_calls poly S h (Some c) ks k = option_map fst (handler_call poly S h None k)).
  { intros [[tr se] re] D ks0. induction ks0 as [|k' l IH]; simpl; [|exact IH].
    unfold handler_call. rewrite D. reflexivity. }
  destruct ks as [|k' ks]; [reflexivity|]. simpl. destruct (decompose poly S h) as [[[tr se] re]|] eqn:D.
  - unfold handler_call at 1. rewrite D. apply W. reflexivity.
  - unfold handler_call. rewrite D. reflexivity.
Qed.

(** The series without its season and the season have as many rows as the data and add up
    to every known value of the data, whatever was asked before; both are defined as soon
    as one value is known. *)
Theorem C267_sum : forall inferred kind dom arg ignore rows h poly S ks1 ks2,
  infers inferred -> poly_law poly -> stl_law S ->
  StronglySorted Z.le (map fst rows) ->
  make_handler inferred kind dom arg ignore rows = Some h ->
  (exists t v, In (t, Some v) rows) ->
  exists a b, handler_calls poly S h None ks1 Remove = Some a /\
    handler_calls poly S h None ks2 Get = Some b /\
    length a = length rows /\ length b = length rows /\
    forall i t v, nth_error rows i = Some (t, Some v) ->
      exists x y, nth_error a i = Some x /\ nth_error b i = Some y /\ (x + y == v)%Q.
Proof.
  intros inferred kind dom arg ignore rows h poly S ks1 ks2 HI PL SL SR H (t1 & v1 & I1).
  rewrite (C267_history poly S h ks1), (C267_history poly S h ks2). simpl.
  destruct (make_inv _ _ _ _ _ _ _ H) as (_ & HR & _).
  destruct (make_facts _ _ _ _ _ _ _ HI H) as (ND & (g & f & F & _ & G) & A & B).
  set (input := h_input h) in *. set (ts := map fst input).
  assert (GS : StronglySorted Z.lt ts).
  { apply (grid_sorted g f F). intros i t E. unfold ts in E. rewrite nth_error_map in E.
    destruct (nth_error input i) as [r|] eqn:Er; [|discriminate]. simpl in E. apply some_inj in E. subst t. apply G. exact Er. }
  assert (SL' : StronglySorted Z.lt (map fst rows)).
  { clear -SR ND. induction (map fst rows) as [|x l IH]; [constructor|]. inversion SR as [|? ? S1 S2]; inversion ND as [|? ? N1 N2]; subst.
    constructor; [auto|]. rewrite Forall_forall in *. intros y Iy. specialize (S2 _ Iy).
    assert (x <> y) by (intros ->; contradiction). lia. }
  assert (FT : filter (fun t => existsb (Z.eqb t) (map fst rows)) ts = map fst rows).
  { apply sorted_unique; [apply sorted_filter; exact GS|exact SL'|]. intros x. rewrite filter_In, exists_in.
    split; [tauto|]. intros Ix. split; [apply A; exact Ix|exact Ix]. }
  destruct (In_nth_error _ _ (B _ _ I1)) as (j1 & E1).
  assert (E1' : nth_error (map snd input) j1 = Some (Some v1)) by (rewrite nth_error_map, E1; reflexivity).
  destruct (clean poly (map snd input)) as [ys|] eqn:C; [|exfalso; apply (clean_total _ _ _ _ PL E1' C)].
  destruct (clean_spec _ _ _ PL C) as [LY KY]. rewrite map_length in LY.
  unfold handler_call, decompose. fold input. rewrite C.
  specialize (SL (Z.max (h_period h) 2) ys). destruct (S (Z.max (h_period h) 2) ys) as [[tr se] re].
  destruct SL as (L1 & L2 & L3 & SUM). simpl. fold ts. rewrite HR.
  assert (LT : length ts = length input) by apply map_length.
  set (w := wanted ts (map fst rows) 0).
  assert (AT : forall l, length l = length ys -> at_times ts (map fst rows) l = map (fun j => nth j l 0%Q) w).
  { intros l Ll. apply (at_times_wanted (map fst rows) 0%Q ts [] l). lia. }
  assert (WT : map (fun j => nth j ts 0) w = map fst rows).
  { rewrite <- FT. apply (wanted_times (map fst rows) 0 ts []). }
  assert (WL : length w = length rows).
  { rewrite <- (map_length (fun j => nth j ts 0) w), WT. apply map_length. }
  rewrite !AT by assumption.
  eexists. eexists. split; [reflexivity|]. split; [reflexivity|].
  split; [rewrite zip_add_len; rewrite !map_length; auto|]. split; [rewrite map_length; exact WL|].
  intros i t v E.
  assert (Lw : (i < length w)%nat) by (rewrite WL; apply nth_error_Some; congruence).
  destruct (nth_error w i) as [j|] eqn:Ej; [|apply nth_error_None in Ej; lia].
  assert (Lj : (j < length ts)%nat).
  { apply nth_error_In in Ej. apply wanted_lt in Ej. lia. }
  assert (Tj : nth_error ts j = Some t).
  { assert (X : nth_error (map (fun j => nth j ts 0) w) i = Some t) by (rewrite WT, nth_error_map, E; reflexivity).
    rewrite nth_error_map, Ej in X. simpl in X. rewrite (nth_error_nth' ts 0 Lj). exact X. }
  assert (Yj : nth_error ys j = Some v).
  { apply KY. rewrite nth_error_map. apply nth_error_In in E. specialize (B _ _ E).
    apply In_nth_error in B as (j' & B).
    assert (j' = j) as ->.
    { apply (proj1 (NoDup_nth_error ts) (lt_sorted_nodup _ GS) j' j).
      - unfold ts. rewrite map_length. apply nth_error_Some. congruence.
      - rewrite Tj. unfold ts. rewrite nth_error_map, B. reflexivity. }
    rewrite B. reflexivity. }
  assert (Q1 : forall l, length l = length ys -> nth_error l j = Some (nth j l 0%Q)).
  { intros l Ll. apply nth_error_nth'. lia. }
  exists (nth j re 0%Q + nth j tr 0%Q)%Q, (nth j se 0%Q).
  split; [apply zip_add_nth; rewrite nth_error_map, Ej; reflexivity|].
  split; [rewrite nth_error_map, Ej; reflexivity|].
  specialize (SUM j v _ _ _ Yj (Q1 tr L1) (Q1 se L2) (Q1 re L3)).
  rewrite <- SUM. ring.
Qed.

(** The results for several columns are written into the object's cells: its lowest and
    highest values remain those of the data. *)
Theorem C267_bounds_refuted : exists o new, history o /\ ~ bounds_right (write_columns o new).
Proof.
  destruct (of_frame true false [] 0 None (Some [10; 20])
     [MkCol 1 true [Some 3%Q; Some 1%Q]; MkCol 2 true [Some 4%Q; Some 4%Q]]) as [o|] eqn:E; [|discriminate].
  exists o, [[Some 9%Q; Some 0%Q]; [Some 0%Q; Some 0%Q]]. split.
  - eapply h_frame; [|exact E]. intros c [<-|[<-|[]]]; reflexivity.
  - injection E as <-. intros [_ D]. cbn in D. inversion D as [|? ? ? ? D1 D2]; subst. clear D D2.
    destruct D1 as [_ [_ D1]]. specialize (D1 9%Q (or_introl eq_refl)). revert D1. vm_compute. congruence.
Qed.

(** A toy STL (everything is trend and residual) meets the laws. *)
Definition half_stl : stl := fun _ ys =>
  (map (fun y => y * (1 # 2))%Q ys, map (fun _ => 1%Q) ys, map (fun y => y * (1 # 2) - 1)%Q ys).
Lemma half_stl_law : stl_law half_stl.
Proof.
  intros p ys. simpl. rewrite !map_length. repeat split.
  intros i y a b c Y. rewrite !nth_error_map, Y. simpl. intros A B C.
  apply some_inj in A. apply some_inj in B. apply some_inj in C. subst. ring.
Qed.
Lemma id_poly_law : poly_law (fun l => l).
Proof. intros l. split; auto. Qed.
Example C267_case : exists h a b,
  make_handler simple_inferred pandas_kind january (PInt 14400) false gappy = Some h /\
  handler_calls (fun l => l) half_stl h None [Get; Remove] Remove = Some a /\
  handler_calls (fun l => l) half_stl h None [] Get = Some b /\
  length a = 11%nat /\ length b = 11%nat.
Proof.
  eexists. eexists. eexists. split; [vm_compute; reflexivity|]. split; [vm_compute; reflexivity|].
  split; [vm_compute; reflexivity|]. split; reflexivity.
Qed.

(** ** TimeSeriesDecomposition *)
Open Scope R_scope.

Definition stl_real_law (S : stl_real) : Prop :=
  forall ys, let '(t, s, r) := S ys in
    length t = length ys /\ length s = length ys /\ length r = length ys /\
    forall i y a b c, nth_error ys i = Some y -> nth_error t i = Some a ->
      nth_error s i = Some b -> nth_error r i = Some c -> a + b + c = y.

(** The components add up to the data, or multiply to them if they are positive. *)
Theorem C268_parts : forall S mult ys t s r,
  stl_real_law S -> (mult = true -> forall y, In y ys -> 0 < y) ->
  decompose_stl S mult ys = (t, s, r) ->
  length t = length ys /\ length s = length ys /\ length r = length ys /\
  forall i y, nth_error ys i = Some y -> exists a b c,
    nth_error t i = Some a /\ nth_error s i = Some b /\ nth_error r i = Some c /\
    y = if mult then a * b * c else a + b + c.
Proof.
  intros S mult ys t s r HS P H. unfold decompose_stl in H. destruct mult.
  - specialize (HS (map ln ys)). destruct (S (map ln ys)) as [[t' s'] r'].
    destruct HS as (L1 & L2 & L3 & SUM). rewrite map_length in L1, L2, L3.
    injection H as <- <- <-. rewrite !map_length. repeat split; auto.
    intros i y E. assert (Li : (i < length ys)%nat) by (apply nth_error_Some; congruence).
    pose proof (nth_error_nth' (n := i) t' 0 ltac:(lia)) as E1.
    pose proof (nth_error_nth' (n := i) s' 0 ltac:(lia)) as E2.
    pose proof (nth_error_nth' (n := i) r' 0 ltac:(lia)) as E3.
    exists (exp (nth i t' 0)), (exp (nth i s' 0)), (exp (nth i r' 0)).
    rewrite !nth_error_map, E1, E2, E3. repeat split.
    rewrite <- !exp_plus.
    rewrite (SUM i (ln y) _ _ _ ltac:(rewrite nth_error_map, E; reflexivity) E1 E2 E3).
    symmetry. apply exp_ln. apply P; [reflexivity|]. eapply nth_error_In. exact E.
  - specialize (HS ys). rewrite H in HS. destruct HS as (L1 & L2 & L3 & SUM). repeat split; auto.
    intros i y E. assert (Li : (i < length ys)%nat) by (apply nth_error_Some; congruence).
    pose proof (nth_error_nth' (n := i) t 0 ltac:(lia)) as E1.
    pose proof (nth_error_nth' (n := i) s 0 ltac:(lia)) as E2.
    pose proof (nth_error_nth' (n := i) r 0 ltac:(lia)) as E3.
    exists (nth i t 0), (nth i s 0), (nth i r 0). repeat split; auto.
    symmetry. exact (SUM i y _ _ _ E E1 E2 E3).
Qed.

(** Zero or negative data are decomposed all the same: the product of the components is
    positive, whatever the logarithm of such a number is taken to be. *)
Theorem C268_positive_refuted : forall S ys t s r i y a b c,
  decompose_stl S true ys = (t, s, r) -> nth_error ys i = Some y -> y <= 0 ->
  nth_error t i = Some a -> nth_error s i = Some b -> nth_error r i = Some c ->
  a * b * c <> y.
Proof.
  intros S ys t s r i y a b c H E Y A B C. unfold decompose_stl in H.
  destruct (S (map ln ys)) as [[t' s'] r']. injection H as <- <- <-.
  rewrite nth_error_map in A, B, C.
  destruct (nth_error t' i) as [a'|]; [|discriminate]. destruct (nth_error s' i) as [b'|]; [|discriminate].
  destruct (nth_error r' i) as [c'|]; [|discriminate]. simpl in *.
  injection A as <-. injection B as <-. injection C as <-.
  rewrite <- !exp_plus. pose proof (exp_pos (a' + b' + c')). lra.
Qed.

(** A series of one column is never refused: an unknown name of a decomposition means
    "additive", an unknown name of a method means "STL".  Several columns need
    "seasonal_decompose". *)
Theorem C268_options : forall d m,
  (exists o, dec_options true d m = Some o /\ (fst o = true <-> d = DMul) /\ (snd o = true <-> m = MSeasonal)) /\
  (dec_options false d m <> None <-> m = MSeasonal).
Proof.
  intros d m. split; [|destruct d, m; cbv; split; intros X; try reflexivity; try discriminate; exfalso; apply X; reflexivity].
  destruct d, m; eexists; (split; [reflexivity|]); simpl; split; split; congruence.
Qed.

(** Without a period, data faster than a day are decomposed with the period 2: hourly data
    do not get the 24 hours of a day. *)
Theorem C268_period_refuted : forall f, (0 < f < day)%Z ->
  get_period None f = Some 2%Z /\ forall p, get_period (Some p) f = Some p.
Proof.
  intros f F. split; [|reflexivity]. unfold get_period. rewrite Z.div_small by lia. reflexivity.
Qed.

Example C268_case : exists t s r,
  decompose_stl (fun ys => (ys, map (fun _ => 1) ys, map (fun _ => - 1) ys)) true [2; 3] = (t, s, r) /\ length t = 2%nat.
Proof. eexists. eexists. eexists. split; reflexivity. Qed.

Print Assumptions C267_history.
Print Assumptions C267_sum.
Print Assumptions C267_bounds_refuted.
Print Assumptions C268_parts.
Print Assumptions C268_positive_refuted.
Print Assumptions C268_options.
Print Assumptions C268_period_refuted.
