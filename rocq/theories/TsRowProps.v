(** Properties of the [TimeSeriesData] object: C260 (iteration), C261 (construction),
    C262 (slices and categorical columns), C263 (time zones). *)
From Verif Require Import Common PySlice TSDataModel TSDataSpec TSDataProofs TsObjModel TsObjSpec TsObjProps.
Open Scope Z_scope.

(** ** The order of the rows *)
Definition base (t : list Z) : list (Z * nat) := combine t (seq 0 (length t)).
Definition kept (drop : bool) (t : list Z) : list (Z * nat) :=
  if drop then drop_dup (base t) else base t.

Lemma combine_seq_in {A} (t : list A) : forall s x i,
  In (x, i) (combine t (seq s (length t))) <-> (s <= i)%nat /\ nth_error t (i - s) = Some x.
Proof.
  induction t as [|y t IH]; intros s x i; simpl.
  - split; [intros []|]. intros [_ H]. destruct (i - s)%nat; discriminate.
  - rewrite IH. split.
    + intros [H|[H1 H2]].
      * injection H as -> ->. rewrite Nat.sub_diag. auto.
      * split; [lia|]. replace (i - s)%nat with (S (i - S s)) by lia. exact H2.
    + intros [H1 H2]. destruct (Nat.eq_dec i s) as [->|N].
      * rewrite Nat.sub_diag in H2. simpl in H2. injection H2 as ->. auto.
      * right. split; [lia|]. replace (i - s)%nat with (S (i - S s)) in H2 by lia. exact H2.
Qed.
Lemma base_in t x i : In (x, i) (base t) <-> nth_error t i = Some x.
Proof. unfold base. rewrite combine_seq_in, Nat.sub_0_r. split; [tauto|]. intros H. split; [lia|exact H]. Qed.
Lemma base_snd t : map snd (base t) = seq 0 (length t).
Proof. apply combine_snd. now rewrite seq_length. Qed.
Lemma base_fst t : map fst (base t) = t.
Proof.
  unfold base. generalize 0%nat. induction t as [|x t IH]; intros s; simpl; [reflexivity|].
  now rewrite IH.
Qed.

Lemma subsequence_map {A B} (f : A -> B) l m : subsequence l m -> subsequence (map f l) (map f m).
Proof. induction 1; simpl; constructor; auto. Qed.
Lemma subsequence_in {A} (l m : list A) x : subsequence l m -> In x l -> In x m.
Proof. induction 1; simpl; intuition. Qed.
Lemma subsequence_sorted {A} (R : A -> A -> Prop) l m :
  subsequence l m -> StronglySorted R m -> StronglySorted R l.
Proof.
  induction 1 as [|x m l S IH|x m l S IH]; intros H; inversion H as [|? ? H1 H2]; subst; auto.
  constructor; [auto|]. rewrite Forall_forall in *. intros y Hy.
  apply H2. eapply subsequence_in; eauto.
Qed.
Lemma subsequence_refl {A} (l : list A) : subsequence l l.
Proof. induction l; constructor; auto. Qed.
Lemma seq_lt_sorted n : forall s, StronglySorted lt (seq s n).
Proof.
  induction n as [|n IH]; intros s; simpl; constructor; [apply IH|].
  rewrite Forall_forall. intros y H. apply in_seq in H. lia.
Qed.
Lemma lt_sorted_nodup l : StronglySorted lt l -> NoDup l.
Proof.
  induction 1 as [|x l S IH F]; constructor; [|exact IH].
  intros H. rewrite Forall_forall in F. specialize (F x H). lia.
Qed.

Lemma kept_sub drop t : subsequence (kept drop t) (base t).
Proof. destruct drop; [apply drop_dup_aux_sub|apply subsequence_refl]. Qed.
Lemma kept_snd_sorted drop t : StronglySorted lt (map snd (kept drop t)).
Proof.
  eapply subsequence_sorted; [apply subsequence_map, kept_sub|]. rewrite base_snd.
  apply seq_lt_sorted.
Qed.
Lemma kept_first drop t x i : nth_error t i = Some x ->
  exists j, (j <= i)%nat /\ In (x, j) (kept drop t).
Proof.
  intros H. apply base_in in H. destruct drop; simpl; [|exists i; auto].
  destruct (first_exists (base t) x) as ([y j] & E & F).
  { apply in_map_iff. exists (x, i). auto. }
  simpl in E. subst y. exists j. split; [|apply drop_dup_in; exact F].
  destruct F as (b & a & E & N). rewrite E in H. apply in_app_iff in H as [H|[H|H]].
  - destruct N. apply in_map_iff. exists (x, i). auto.
  - injection H as ->. lia.
  - pose proof (base_snd t) as B. rewrite E, map_app in B. simpl in B.
    assert (SS : StronglySorted lt (map snd b ++ j :: map snd a))
      by (rewrite B; apply seq_lt_sorted).
    assert (TT : forall u v, StronglySorted lt (u ++ j :: v) -> forall k, In k v -> (j < k)%nat).
    { clear. induction u as [|y u IH]; simpl; intros v S k K; inversion S as [|? ? S1 S2]; subst.
      - rewrite Forall_forall in S2. auto.
      - eapply IH; eauto. }
    specialize (TT _ _ SS i). apply Nat.lt_le_incl, TT. apply in_map_iff. exists (x, i). auto.
Qed.

Lemma order_kept sort drop t : order_rows sort drop t = if sort then sort_rows (kept drop t) else kept drop t.
Proof. reflexivity. Qed.
Lemma order_perm sort drop t : Permutation (kept drop t) (order_rows sort drop t).
Proof. rewrite order_kept. destruct sort; [apply sort_rows_perm|apply Permutation_refl]. Qed.

Lemma nth_error_fst {A B} (r : list (A * B)) k : 
  nth_error (map fst r) k = option_map fst (nth_error r k).
Proof. apply nth_error_map. Qed.

(** ** C261 *)

(** The rows that [TimeSeriesData] keeps: a list of positions of the input, the same for
    the times and for every column.  Without dropping they are all the positions; with
    it, the first position of every time, and no time twice.  Sorted, the times do not
    decrease; unsorted, the rows stay in their order. *)
Definition rows_kept (sort drop : bool) (t : list Z) (cs : list col) (o : obj) : Prop :=
  exists pos : list nat,
    NoDup pos /\ length (otime o) = length pos /\
    (forall k i, nth_error pos k = Some i ->
       exists x, nth_error t i = Some x /\ nth_error (otime o) k = Some x) /\
    Forall2 (fun c d => cname d = cname c /\ cnum d = cnum c /\
                        cells d = map (fun i => nth i (cells c) None) pos)
            cs (cols_of (ovals o)) /\
    (drop = false -> Permutation (seq 0 (length t)) pos) /\
    (drop = true -> NoDup (otime o) /\
       forall i x, nth_error t i = Some x ->
         exists j, In j pos /\ (j <= i)%nat /\ nth_error t j = Some x) /\
    (sort = true -> StronglySorted Z.le (otime o)) /\
    (sort = false -> StronglySorted lt pos).

Lemma finish_rows sort drop cat tname zone t cs o :
  finish sort drop cat tname zone t cs = Some o -> rows_kept sort drop t cs o.
Proof.
  unfold finish. destruct (_ || _); [|discriminate]. intros H. apply some_inj in H. subst o.
  set (r := order_rows sort drop t). pose proof (order_perm sort drop t) as P. fold r in P.
  exists (map snd r). cbn [otime ovals]. rewrite univariate_cols. cbn [cols_of].
  split; [|split; [|split; [|split; [|split; [|split; [|split]]]]]].
  - eapply Permutation_NoDup; [apply Permutation_map; exact P|].
    apply lt_sorted_nodup, kept_snd_sorted.
  - now rewrite !map_length.
  - intros k i H. rewrite nth_error_map in H. destruct (nth_error r k) as [[x j]|] eqn:E; [|discriminate].
    simpl in H. injection H as ->. exists x. split.
    + apply base_in. eapply subsequence_in; [apply (kept_sub drop)|].
      eapply Permutation_in; [apply Permutation_sym; exact P|]. eapply nth_error_In; exact E.
    + rewrite nth_error_map, E. reflexivity.
  - induction cs as [|c cs IH]; simpl; constructor; auto.
  - intros ->. rewrite <- base_snd. apply Permutation_map. exact P.
  - intros ->. split.
    + eapply Permutation_NoDup; [apply Permutation_map; exact P|]. apply drop_dup_aux_nodup.
    + intros i x H. destruct (kept_first true t x i H) as (j & L & I).
      exists j. split; [|split; [exact L|]].
      * apply in_map_iff. exists (x, j). split; [reflexivity|]. eapply Permutation_in; eauto.
      * apply base_in. eapply subsequence_in; [apply (kept_sub true)|exact I].
  - intros ->. unfold r. rewrite order_kept. apply sort_rows_sorted.
  - intros ->. unfold r. rewrite order_kept. apply kept_snd_sorted.
Qed.

Theorem C261_frame : forall sort drop cat tname zone t cs o,
  t <> [] -> of_frame sort drop cat tname zone (Some t) cs = Some o ->
  rows_kept sort drop t cs o /\ otname o = tname /\ ozone o = zone /\ osort o = sort.
Proof.
  intros sort drop cat tname zone t cs o N H. simpl in H. destruct t as [|x t]; [congruence|].
  split; [exact (finish_rows _ _ _ _ _ _ _ _ H)|].
  unfold finish in H. destruct (_ || _); [|discriminate]. injection H as <-. auto.
Qed.

Theorem C261_parts : forall sort drop cat tname argname zone t v o,
  t <> [] -> of_parts sort drop cat tname argname zone t v = Some o ->
  length t = vrows v /\ rows_kept sort drop t (cols_of v) o
  /\ otname o = match tname with Some n => n | None => argname end.
Proof.
  intros sort drop cat tname argname zone t v o N H. unfold of_parts in H.
  destruct t as [|x t]; [congruence|]. destruct (vrows v) as [|n] eqn:V; [discriminate|].
  destruct (Nat.eqb_spec (length (x :: t)) (S n)) as [E|E]; [|discriminate].
  split; [exact E|]. split; [exact (finish_rows _ _ _ _ _ _ _ _ H)|].
  unfold finish in H. destruct (_ || _); [|discriminate]. injection H as <-. reflexivity.
Qed.

(** What is refused: a missing time column; different lengths, one side being empty
    among them; a column that is neither numeric nor declared categorical. *)
Theorem C261_refused : forall sort drop cat tname argname nm zone t cs v,
  of_frame sort drop cat argname zone None cs = None /\
  (length t <> vrows v -> of_parts sort drop cat tname argname zone t v = None) /\
  (forall c, t <> [] -> In c cs -> rect (VFrame cs) (length t) -> cnum c = false ->
     ~ In (cname c) cat -> of_frame sort drop cat nm zone (Some t) cs = None).
Proof.
  intros sort drop cat tname argname nm zone t cs v. split; [reflexivity|]. split.
  - intros N. unfold of_parts. destruct t as [|x t], (vrows v) as [|n]; simpl in *; try congruence.
    destruct (Nat.eqb_spec (length t) n); [congruence|reflexivity].
  - intros c T H R C K. simpl. destruct t as [|x t]; [congruence|]. unfold finish.
    rewrite univariate_cols. cbn [cols_of].
    set (p := map snd _). assert (LP : p <> []).
    { unfold p. intros E. apply map_eq_nil in E.
      pose proof (order_perm sort drop (x :: t)) as P. rewrite E in P.
      apply Permutation_sym, Permutation_nil in P.
      destruct (kept_first drop (x :: t) x 0 eq_refl) as (j & _ & I). rewrite P in I. destruct I. }
    destruct (Nat.eqb_spec (vrows (univariate (VFrame (map (take_rows p) cs)))) 0) as [E|E].
    + unfold vrows in E. rewrite univariate_cols in E. cbn [cols_of] in E.
      destruct cs as [|d cs]; [destruct H|]. simpl in E. rewrite map_length in E.
      apply length_zero_iff_nil in E. contradiction.
    + cbn [orb]. destruct (forallb _ _) eqn:F; [|reflexivity].
      rewrite forallb_forall in F. specialize (F (take_rows p c) (in_map _ _ _ H)).
      unfold numeric_or_declared in F. simpl in F. rewrite C in F. cbn [orb] in F.
      apply existsb_exists in F as (y & Iy & Ey). apply Nat.eqb_eq in Ey. subst y. contradiction.
Qed.

(** A time series given by its values only is refused, except for one value that is
    zero: then the series is silently empty. *)
Theorem C261_values_only_refuted : forall sort cat argname n b x, (x == 0)%Q ->
  exists o, of_value_only sort cat argname (VSeries (MkCol n b [Some x])) = Some o
            /\ otime o = [].
Proof.
  intros sort cat argname n b x H. simpl. apply Qeq_bool_iff in H. rewrite H.
  eexists. split; reflexivity.
Qed.

Example C261_case :
  option_map (fun o => (otime o, ovals o))
    (of_frame true true [7%nat] 0 None (Some [30; 10; 30; 20])
       [MkCol 5 true [Some 3%Q; Some 1%Q; Some 4%Q; None];
        MkCol 7 false [Some 1%Q; Some 2%Q; Some 3%Q; Some 4%Q]])
  = Some ([10; 20; 30], VFrame [MkCol 5 true [Some 1%Q; None; Some 3%Q];
                                MkCol 7 false [Some 2%Q; Some 4%Q; Some 1%Q]]).
Proof. reflexivity. Qed.

(** ** C260 *)
Lemma find_label_seq n : forall s i, (i < n)%nat -> find_label (seq s n) (s + i) = Some i.
Proof.
  induction n as [|n IH]; intros s i H; [lia|]. simpl.
  destruct i as [|i].
  - rewrite Nat.add_0_r, Nat.eqb_refl. reflexivity.
  - destruct (Nat.eqb_spec s (s + S i)); [lia|].
    replace (s + S i)%nat with (S s + i)%nat by lia. rewrite IH by lia. reflexivity.
Qed.

(** a series that can be walked: its index counts the rows, and its columns are numeric. *)
Definition plain (o : obj) : Prop :=
  olabels o = seq 0 (length (otime o)) /\ rect (ovals o) (length (otime o)) /\
  cols_of (ovals o) <> [] /\ forall c, In c (cols_of (ovals o)) -> cnum c = true.

Lemma one_row zone x v :
  rect v 1 -> cols_of v <> [] -> (forall c, In c (cols_of v) -> cnum c = true) ->
  exists p, of_parts true false [] None name_time zone [x] v = Some p /\
    otime p = [x] /\ ozone p = zone /\ cols_of (ovals p) = cols_of v.
Proof.
  intros R N C. unfold of_parts. unfold vrows. destruct (cols_of v) as [|c cs] eqn:V; [congruence|].
  assert (Lc : length (cells c) = 1%nat) by (apply R; rewrite V; now left).
  rewrite Lc. cbn [length Nat.eqb]. unfold finish.
  change (map snd (order_rows true false [x])) with [0%nat].
  assert (T : forall d, In d (c :: cs) -> take_rows [0%nat] d = d).
  { intros d Hd. rewrite <- V in Hd. specialize (R d Hd). destruct d as [nm nu [|y [|z l]]]; try discriminate.
    reflexivity. }
  assert (M : map (take_rows [0%nat]) (c :: cs) = c :: cs).
  { rewrite <- (map_id (c :: cs)) at 2. apply map_ext_in. exact T. }
  rewrite M. rewrite univariate_cols. cbn [cols_of].
  assert (F : forallb (numeric_or_declared []) (c :: cs) = true).
  { apply forallb_forall. intros d Hd. unfold numeric_or_declared. rewrite C; [reflexivity|].
    exact Hd. }
  rewrite F, orb_true_r. eexists. split; [reflexivity|]. cbn [otime ozone ovals].
  rewrite univariate_cols. repeat split; auto.
Qed.

Lemma next_plain o i : plain o -> (i < length (otime o))%nat ->
  exists p, next_point o i = Some (Some p) /\ otime p = [nth i (otime o) 0] /\
    ozone p = ozone o /\
    map cells (cols_of (ovals p)) = map (fun c => [nth i (cells c) None]) (cols_of (ovals o)) /\
    (forall cs, ovals o = VFrame cs -> map cname (cols_of (ovals p)) = map cname cs).
Proof.
  intros (L & R & N & C) H. unfold next_point.
  destruct (Nat.ltb_spec i (length (otime o))); [|lia]. rewrite L, (find_label_seq _ 0 i H : find_label _ i = _).
  destruct (ovals o) as [c|cs] eqn:V; cbn [cols_of] in *.
  - destruct (one_row (ozone o) (nth i (otime o) 0) (VSeries (MkCol i (cnum c) [nth i (cells c) None])))
      as (p & P & P1 & P2 & P3).
    + intros d [<-|[]]. reflexivity.
    + discriminate.
    + intros d [<-|[]]. simpl. apply C. now left.
    + exists p. rewrite P, P3. repeat split; auto. intros; discriminate.
  - destruct (one_row (ozone o) (nth i (otime o) 0)
      (VFrame (map (fun c => MkCol (cname c) (cnum c) [nth i (cells c) None]) cs)))
      as (p & P & P1 & P2 & P3).
    + intros d Hd. simpl in Hd. apply in_map_iff in Hd as (e & <- & _). reflexivity.
    + simpl. intros E. apply map_eq_nil in E. congruence.
    + intros d Hd. simpl in Hd. apply in_map_iff in Hd as (e & <- & He). simpl. auto.
    + exists p. rewrite P, P3. cbn [cols_of]. rewrite !map_map. repeat split; auto.
      intros cs' E. injection E as <-. reflexivity.
Qed.

Lemma iterate_plain o : plain o -> forall fuel i, (i + fuel = length (otime o))%nat ->
  exists l, iterate_from o i fuel = Some l /\ length l = fuel /\
    forall k p, nth_error l k = Some p -> next_point o (i + k) = Some (Some p).
Proof.
  intros P. induction fuel as [|f IH]; intros i H; simpl.
  - exists []. repeat split. intros k p E. destruct k; discriminate.
  - destruct (next_plain o i P) as (p & E & _); [lia|]. rewrite E.
    destruct (IH (S i)) as (l & El & Ll & Hl); [lia|]. rewrite El.
    exists (p :: l). repeat split; [simpl; lia|]. intros k q K. destruct k as [|k].
    + simpl in K. injection K as <-. rewrite Nat.add_0_r. exact E.
    + simpl in K. specialize (Hl k q K). replace (i + S k)%nat with (S i + k)%nat by lia. exact Hl.
Qed.

Lemma constructed_plain sort drop tname zone t cs o :
  rect (VFrame cs) (length t) -> cs <> [] -> t <> [] -> sort = true \/ drop = false ->
  of_frame sort drop [] tname zone (Some t) cs = Some o -> plain o.
Proof.
  intros R NC NT SD H.
  destruct (C261_frame _ _ _ _ _ _ _ _ NT H) as ((pos & _ & Lp & _ & F & _) & _).
  simpl in H. destruct t as [|x t]; [congruence|]. unfold finish in H.
  destruct (_ || _) eqn:B; [|discriminate]. apply some_inj in H. subst o.
  set (r := order_rows sort drop (x :: t)) in *.
  unfold plain. cbn [olabels otime ovals]. rewrite !map_length.
  assert (Nr : r <> []).
  { intros E. pose proof (order_perm sort drop (x :: t)) as P. fold r in P. rewrite E in P.
    apply Permutation_sym, Permutation_nil in P.
    destruct (kept_first drop (x :: t) x 0 eq_refl) as (j & _ & I). rewrite P in I. destruct I. }
  split; [|split; [|split]].
  - unfold order_labels. destruct sort; [reflexivity|]. destruct SD as [D| ->]; [discriminate|].
    unfold r. rewrite order_kept. unfold kept. rewrite base_snd. f_equal.
    rewrite <- (map_length fst), base_fst. reflexivity.
  - rewrite <- (map_length snd r). apply rect_uni, rect_taken.
  - rewrite univariate_cols. cbn [cols_of]. intros E. apply map_eq_nil in E. contradiction.
  - rewrite univariate_cols in *. cbn [cols_of] in *. intros d Hd.
    apply orb_true_iff in B as [B|B].
    + apply Nat.eqb_eq in B. unfold vrows in B. rewrite univariate_cols in B. cbn [cols_of] in B.
      destruct cs as [|c cs]; [congruence|]. simpl in B. rewrite !map_length in B.
      destruct r; [congruence|discriminate].
    + rewrite forallb_forall in B. specialize (B d Hd). unfold numeric_or_declared in B.
      simpl in B. rewrite orb_false_r in B. exact B.
Qed.

(** Walking a series that was built from numeric columns (sorted, or without dropping
    rows) gives one series of one point for each row, in order, with its time and the
    value of every column; the names of several columns are kept. *)
Theorem C260_points_partial : forall sort drop tname zone t cs o,
  rect (VFrame cs) (length t) -> cs <> [] -> t <> [] -> sort = true \/ drop = false ->
  of_frame sort drop [] tname zone (Some t) cs = Some o ->
  exists l, iterate o = Some l /\ length l = length (otime o) /\
    forall i p, nth_error l i = Some p ->
      otime p = [nth i (otime o) 0] /\ ozone p = ozone o /\
      map cells (cols_of (ovals p)) = map (fun c => [nth i (cells c) None]) (cols_of (ovals o)) /\
      (forall ds, ovals o = VFrame ds -> map cname (cols_of (ovals p)) = map cname ds).
Proof.
  intros sort drop tname zone t cs o R NC NT SD H.
  pose proof (constructed_plain _ _ _ _ _ _ _ R NC NT SD H) as P.
  destruct (iterate_plain o P (length (otime o)) 0 eq_refl) as (l & E & L & K).
  exists l. split; [exact E|]. split; [exact L|]. intros i p I.
  assert (LT : (i < length (otime o))%nat) by (rewrite <- L; apply nth_error_Some; congruence).
  destruct (next_plain o i P LT) as (q & Q1 & Q2). specialize (K i p I). simpl in K.
  rewrite K in Q1. assert (p = q) as -> by congruence. exact Q2.
Qed.

(** Left out above: after dropping rows without sorting, the walk raises; so it does
    with a declared categorical column; and the column of a univariate series is renamed
    to the number of the step, the time column to "time". *)
Theorem C260_dropped_refuted : exists o,
  of_frame false true [] 0 None (Some [10; 10; 20])
     [MkCol 1 true [Some 1%Q; Some 2%Q; Some 3%Q]] = Some o /\
  otime o = [10; 20] /\ iterate o = None.
Proof. eexists. split; [reflexivity|]. split; reflexivity. Qed.
Theorem C260_categorical_refuted : forall o c,
  In c (cols_of (ovals o)) -> cnum c = false -> otime o <> [] -> iterate o = None.
Proof.
  intros o c I C N. unfold iterate. destruct (length (otime o)) as [|n] eqn:L.
  { apply length_zero_iff_nil in L. contradiction. }
  simpl. unfold next_point. rewrite L. cbn [Nat.ltb Nat.leb].
  destruct (find_label (olabels o) 0) as [k|]; [|reflexivity].
  assert (X : forall zone x v d, In d (cols_of v) -> cnum d = false -> rect v 1 ->
            of_parts true false [] None name_time zone [x] v = None).
  { intros zone x v d Id Cd R. unfold of_parts, vrows.
    destruct (cols_of v) as [|e es] eqn:V; [reflexivity|].
    rewrite (R e) by (rewrite V; now left). cbn [length Nat.eqb].
    apply (proj2 (proj2 (C261_refused true false [] None name_time name_time zone [x] (e :: es) v)) d);
      auto; try discriminate.
    intros f Hf. apply R. rewrite V. exact Hf. }
  destruct (ovals o) as [d|ds]; simpl in I.
  - destruct I as [->|[]]. rewrite (X _ _ _ (MkCol 0 (cnum c) [nth 0 (cells c) None])); auto.
    + now left.
    + intros e [<-|[]]; reflexivity.
  - rewrite (X _ _ _ (MkCol (cname c) (cnum c) [nth k (cells c) None])); auto.
    + simpl. apply in_map_iff. exists c. auto.
    + intros e He. simpl in He. apply in_map_iff in He as (f & <- & _). reflexivity.
Qed.
Theorem C260_names_refuted : forall tname n x,
  (tname <> 0)%nat -> (n <> 0)%nat ->
  exists o p, of_frame true false [] tname None (Some [10]) [MkCol n true [x]] = Some o /\
    iterate o = Some [p] /\ otname o = tname /\ otname p <> tname /\
    map cname (cols_of (ovals p)) <> map cname (cols_of (ovals o)).
Proof.
  intros tname n x Ht Hn. eexists. eexists. split; [reflexivity|]. split; [reflexivity|].
  repeat split; simpl; [unfold name_time; congruence|]. congruence.
Qed.

Lemma iter_loop_all it : forall fuel s, (s + fuel = S (length (icols it)))%nat ->
  iter_loop fuel (MkIter (itime it) (icols it) s) =
  (map (fun c => combine (itime it) (cells c)) (skipn s (icols it)),
   MkIter (itime it) (icols it) (max s (length (icols it)))) \/ (fuel = 0)%nat.
Proof.
  induction fuel as [|f IH]; intros s H; [now right|left]. cbn [iter_loop]. unfold iter_next. cbn [icols istart itime].
  destruct (nth_error (icols it) s) as [c|] eqn:E.
  - assert (s < length (icols it))%nat by (apply nth_error_Some; congruence).
    assert (SK : skipn s (icols it) = c :: skipn (S s) (icols it)).
    { clear -E. revert s E. induction (icols it) as [|d l IH]; intros s E; [destruct s; discriminate|].
      destruct s; simpl in *; [injection E as ->; reflexivity|auto]. }
    destruct (IH (S s)) as [K|K]; [lia| |lia]. rewrite K, SK. simpl map. f_equal. f_equal. lia.
  - apply nth_error_None in E. rewrite skipn_all2 by exact E. simpl. f_equal. f_equal. lia.
Qed.

(** The column iterator gives each column once, in order, with the times. *)
Theorem C260_columns : forall o,
  fst (iter_for (iter_of o)) = map (fun c => combine (otime o) (cells c)) (cols_of (ovals o)).
Proof.
  intros o. unfold iter_for, iter_again.
  destruct (iter_loop_all (iter_of o) (S (length (icols (iter_of o)))) 0) as [K|K]; [lia| |discriminate].
  unfold iter_of in *. cbn [icols itime istart] in *. rewrite K. reflexivity.
Qed.

(** A second loop over the same iterator gives nothing, whatever the columns. *)
Theorem C260_again_refuted : forall o, fst (iter_for (snd (iter_for (iter_of o)))) = [].
Proof.
  intros o.
  assert (E : snd (iter_for (iter_of o)) =
    MkIter (otime o) (cols_of (ovals o)) (max 0 (length (cols_of (ovals o))))).
  { unfold iter_for, iter_again.
    destruct (iter_loop_all (iter_of o) (S (length (icols (iter_of o)))) 0) as [K|K]; [lia| |discriminate].
    unfold iter_of in *. cbn [icols itime istart] in *. rewrite K. reflexivity. }
  rewrite E. unfold iter_for, iter_again. cbn [icols iter_loop]. unfold iter_next.
  cbn [icols istart]. rewrite (proj2 (nth_error_None _ _)) by lia. reflexivity.
Qed.

Example C260_case : exists o l,
  of_frame true false [] 0 None (Some [20; 10])
    [MkCol 1 true [Some 3%Q; Some 1%Q]; MkCol 2 true [None; Some 5%Q]] = Some o /\
  iterate o = Some l /\
  map (fun p => (otime p, ovals p)) l =
    [([10], VFrame [MkCol 1 true [Some 1%Q]; MkCol 2 true [Some 5%Q]]);
     ([20], VFrame [MkCol 1 true [Some 3%Q]; MkCol 2 true [None]])].
Proof. eexists. eexists. split; [reflexivity|]. split; reflexivity. Qed.

Print Assumptions C261_frame.
Print Assumptions C261_parts.
Print Assumptions C261_refused.
Print Assumptions C261_values_only_refuted.
Print Assumptions C260_points_partial.
Print Assumptions C260_dropped_refuted.
Print Assumptions C260_categorical_refuted.
Print Assumptions C260_names_refuted.
Print Assumptions C260_columns.
Print Assumptions C260_again_refuted.
