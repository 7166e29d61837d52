(** C264 (linear interpolation of a series), C265 (filling forward and backward). *)
From Verif Require Import Common PySlice TSDataModel TSDataSpec TSDataProofs TsObjModel.
Require Import Lqa.
Open Scope Z_scope.

Lemma some_eq {A} (a b : A) : Some a = Some b -> b = a.
Proof. congruence. Qed.

(** ** Lists sorted by time *)
Lemma last_in {A} (l : list A) d : l <> [] -> In (List.last l d) l.
Proof.
  induction l as [|x l IH]; [congruence|]. intros _. destruct l as [|y l]; [now left|].
  right. apply IH. discriminate.
Qed.
Lemma sorted_last {A} (l : list (Z * A)) d : StronglySorted Z.le (map fst l) ->
  forall r, In r l -> fst r <= fst (List.last l d).
Proof.
  induction l as [|x l IH]; simpl; intros H r []; inversion H as [|? ? H1 H2]; subst.
  - destruct l as [|y l]; [lia|]. rewrite Forall_forall in H2. apply H2. apply in_map.
    apply last_in. discriminate.
  - destruct l as [|y l]; [contradiction|]. apply IH; auto.
Qed.
Lemma sorted_hd {A} (x : Z * A) l : StronglySorted Z.le (map fst (x :: l)) ->
  forall r, In r (x :: l) -> fst x <= fst r.
Proof.
  simpl. intros H r [<-|I]; [lia|]. inversion H as [|? ? H1 H2]; subst.
  rewrite Forall_forall in H2. apply H2, in_map, I.
Qed.

(** ** The grid *)
Lemma grid_start_bounds o f first : 0 < f -> 
  grid_start o f first <= first < grid_start o f first + f /\
  (f | grid_start o f first - anchor o first).
Proof.
  intros H. unfold grid_start. pose proof (Z.mod_pos_bound (first - anchor o first) f H).
  split; [lia|]. exists ((first - anchor o first) / f).
  pose proof (Z.div_mod (first - anchor o first) f ltac:(lia)). lia.
Qed.
Lemma grid_len o f first last : 0 < f -> first <= last ->
  Z.of_nat (length (grid o f first last)) = (last - grid_start o f first) / f + 1
  /\ (1 <= length (grid o f first last))%nat.
Proof.
  intros H L. unfold grid. rewrite map_length, seq_length.
  pose proof (grid_start_bounds o f first H) as [B _].
  assert (0 <= (last - grid_start o f first) / f) by (apply Z.div_pos; lia). lia.
Qed.
Lemma grid_nth o f first last i t : nth_error (grid o f first last) i = Some t ->
  t = grid_start o f first + Z.of_nat i * f.
Proof.
  unfold grid. rewrite nth_error_map. intros H.
  destruct (nth_error (seq _ _) i) as [k|] eqn:E; [|discriminate]. simpl in H. injection H as <-.
  assert (k = i) as ->.
  { assert (L : (i < length (seq 0 (Z.to_nat ((last - grid_start o f first) / f + 1))))%nat)
      by (apply nth_error_Some; congruence).
    rewrite seq_length in L. rewrite (nth_error_nth' _ 0%nat) in E by (now rewrite seq_length).
    rewrite seq_nth in E by exact L. injection E as <-. reflexivity. }
  reflexivity.
Qed.

Lemma combine_nth_error {A B} (l : list A) : forall (m : list B) i,
  length l = length m ->
  nth_error (combine l m) i =
  match nth_error l i, nth_error m i with Some x, Some y => Some (x, y) | _, _ => None end.
Proof.
  induction l as [|x l IH]; intros [|y m] i H; simpl in *; try discriminate.
  - destruct i; reflexivity.
  - destruct i; simpl; [reflexivity|]. apply IH. lia.
Qed.

(** ** The result of [interpolate] *)
Definition prepared (dedup : bool) (rows : list (Z * option Q)) : list (Z * option Q) :=
  sort_rows (if dedup then drop_dup rows else rows).
Definition filled (m : method) (l : list (option Q)) : list (option Q) :=
  match m with Linear => map (fill_at l) (seq 0 (length l)) | _ => l end.
Lemma filled_len m l : length (filled m l) = length l.
Proof. destruct m; simpl; rewrite ?map_length, ?seq_length; reflexivity. Qed.

Lemma interp_inv inferred o f m dedup rows res :
  interpolate inferred o f m dedup rows = Some res ->
  0 < f /\ exists first x tl l, prepared dedup rows = (first, x) :: tl /\
    let rs := (first, x) :: tl in
    let g := grid o f first (fst (List.last rs (0, None))) in
    upsample inferred o f m rs g = Some l /\ length l = length g /\
    res = combine g (filled m l).
Proof.
  unfold interpolate. destruct (Z.leb_spec f 0) as [F|F]; [discriminate|]. fold (prepared dedup rows).
  destruct (prepared dedup rows) as [|[first x] tl]; [discriminate|]. intros H. split; [lia|].
  exists first, x, tl. cbv zeta in *.
  set (g := grid o f first _) in *.
  destruct (upsample inferred o f m ((first, x) :: tl) g) as [l|] eqn:U; [|discriminate].
  exists l. split; [reflexivity|]. split; [reflexivity|]. split.
  - unfold upsample in U. destruct (inferred _ f && _) eqn:B.
    + apply some_eq in U. subst l. apply andb_true_iff in B as [_ B]. apply Nat.eqb_eq in B.
      now rewrite map_length.
    + destruct (negb _); [discriminate|]. apply some_eq in U. subst l. apply map_length.
  - injection H as <-. destruct m; reflexivity.
Qed.

Lemma prepared_sorted dedup rows : StronglySorted Z.le (map fst (prepared dedup rows)).
Proof. apply sort_rows_sorted. Qed.
Lemma prepared_times dedup rows t :
  In t (map fst (prepared dedup rows)) <-> In t (map fst rows).
Proof.
  unfold prepared. split; intros H.
  - eapply Permutation_in in H; [|apply Permutation_sym, Permutation_map, sort_rows_perm].
    destruct dedup; [|exact H]. apply in_map_iff in H as (r & <- & H).
    apply drop_dup_in in H as (b & a & -> & _). apply in_map. apply in_app_iff. right. now left.
  - eapply Permutation_in; [apply Permutation_map, sort_rows_perm|].
    destruct dedup; [|exact H]. destruct (first_exists _ _ H) as (r & <- & F).
    apply in_map. apply drop_dup_in. exact F.
Qed.

(** The times of the result are equally spaced by the frequency, a whole number of
    frequencies from the anchor; the first is the last such time not after the earliest
    observation, the last one the last such time not after the latest observation. *)
Theorem C264_times : forall inferred o f m dedup rows res,
  interpolate inferred o f m dedup rows = Some res ->
  0 < f /\ exists e l g,
    In e (map fst rows) /\ In l (map fst rows) /\
    (forall t, In t (map fst rows) -> e <= t <= l) /\
    (f | g - anchor o e) /\ g <= e < g + f /\
    (forall i r, nth_error res i = Some r -> fst r = g + Z.of_nat i * f) /\
    g + (Z.of_nat (length res) - 1) * f <= l < g + Z.of_nat (length res) * f.
Proof.
  intros inferred o f m dedup rows res H.
  destruct (interp_inv _ _ _ _ _ _ _ H) as (F & first & x & tl & l & P & U & L & R).
  split; [exact F|]. cbv zeta in *. set (rs := (first, x) :: tl) in *.
  set (lst := fst (List.last rs (0, None))) in *.
  pose proof (prepared_sorted dedup rows) as S. rewrite P in S.
  assert (Ilst : In lst (map fst rs)) by (apply in_map, last_in; discriminate).
  assert (B : forall t, In t (map fst rows) -> first <= t <= lst).
  { intros t I. apply (proj2 (prepared_times dedup rows t)) in I. rewrite P in I.
    apply in_map_iff in I as (r & <- & I). split.
    - apply (sorted_hd (first, x) tl S r I).
    - apply (sorted_last rs (0, None) S r I). }
  assert (If : In first (map fst rows)).
  { apply (prepared_times dedup rows). rewrite P. now left. }
  assert (Il : In lst (map fst rows)).
  { apply (prepared_times dedup rows). rewrite P. exact Ilst. }
  exists first, lst, (grid_start o f first).
  pose proof (grid_start_bounds o f first F) as [G1 G2].
  split; [exact If|]. split; [exact Il|]. split; [exact B|]. split; [exact G2|]. split; [exact G1|].
  assert (LR : length (grid o f first lst) = length (filled m l))
    by (rewrite filled_len; symmetry; exact L).
  split.
  - intros i r E. rewrite R, combine_nth_error in E by exact LR.
    destruct (nth_error (grid o f first lst) i) as [t|] eqn:N; [|discriminate].
    destruct (nth_error (filled m l) i); [|discriminate]. injection E as <-. simpl.
    exact (grid_nth _ _ _ _ _ _ N).
  - rewrite R, combine_length, <- LR, Nat.min_id.
    destruct (grid_len o f first lst F (proj1 (B lst Il))) as [GL _]. rewrite GL.
    pose proof (Z.div_mod (lst - grid_start o f first) f ltac:(lia)).
    pose proof (Z.mod_pos_bound (lst - grid_start o f first) f F). lia.
Qed.

(** ** Rows on the grid *)
Lemma unique_rows (rs : list (Z * option Q)) :
  forallb (fun t => Nat.eqb (count_occ Z.eq_dec (map fst rs) t) 1) (map fst rs) = true ->
  NoDup (map fst rs).
Proof.
  intros H. apply (NoDup_count_occ Z.eq_dec). intros t.
  destruct (in_dec Z.eq_dec t (map fst rs)) as [I|I].
  - rewrite forallb_forall in H. specialize (H t I). apply Nat.eqb_eq in H. lia.
  - apply (count_occ_not_In Z.eq_dec) in I. lia.
Qed.
Lemma lookup_in (rs : list (Z * option Q)) t v : NoDup (map fst rs) ->
  In (t, v) rs -> lookup_row t rs = v.
Proof.
  unfold lookup_row. induction rs as [|[s w] rs IH]; simpl; intros N []; inversion N; subst.
  - injection H as -> ->. rewrite Z.eqb_refl. reflexivity.
  - destruct (Z.eqb_spec s t) as [->|E]; [|auto].
    match goal with h : ~ In t _ |- _ => destruct h end. apply in_map_iff. exists (t, v). auto.
Qed.
Lemma lookup_some (rs : list (Z * option Q)) t v : lookup_row t rs = Some v -> In (t, Some v) rs.
Proof.
  unfold lookup_row. destruct (find _ rs) as [[s w]|] eqn:F; [|discriminate].
  apply find_some in F as [I E]. simpl in *. apply Z.eqb_eq in E. subst s. intros ->. exact I.
Qed.

(** A regular list of times that meets the grid is the grid. *)
Lemma regular_nth ts f : (forall i a b, nth_error ts i = Some a -> nth_error ts (S i) = Some b -> b - a = f) ->
  forall i a t, nth_error ts 0 = Some a -> nth_error ts i = Some t -> t = a + Z.of_nat i * f.
Proof.
  intros H. induction i as [|i IH]; intros a t A T; [rewrite A in T; injection T as <-; lia|].
  destruct (nth_error ts i) as [u|] eqn:E.
  - specialize (IH a u A eq_refl). specialize (H i u t E T). lia.
  - apply nth_error_None in E. assert (S i < length ts)%nat by (apply nth_error_Some; congruence). lia.
Qed.
Lemma list_ext {A} (l m : list A) : length l = length m ->
  (forall i x y, nth_error l i = Some x -> nth_error m i = Some y -> x = y) -> l = m.
Proof.
  revert m. induction l as [|x l IH]; intros [|y m] L H; simpl in *; try discriminate; auto.
  f_equal; [exact (H 0%nat x y eq_refl eq_refl)|]. apply IH; [lia|].
  intros i a b Ha Hb. exact (H (S i) a b Ha Hb).
Qed.

(** The cells before filling, once some observation is on the grid: those of the
    observations at exactly these times. *)
Lemma upsample_lookup inferred o f first x tl l :
  infers inferred -> 0 < f ->
  let rs := (first, x) :: tl in
  let g := grid o f first (fst (List.last rs (0, None))) in
  StronglySorted Z.le (map fst rs) ->
  upsample inferred o f Linear rs g = Some l ->
  (exists t, In t (map fst rs) /\ In t g) ->
  NoDup (map fst rs) /\ l = map (fun t => lookup_row t rs) g.
Proof.
  intros HI F rs g S U (t & It & Ig). unfold upsample in U.
  destruct (inferred (map fst rs) f && Nat.eqb (length rs) (length g)) eqn:B.
  - apply andb_true_iff in B as [B1 B2]. apply Nat.eqb_eq in B2. apply some_eq in U. subst l.
    destruct (HI _ _ B1) as [_ GAP].
    assert (N0 : nth_error (map fst rs) 0 = Some first) by reflexivity.
    assert (E0 : grid_start o f first = first).
    { apply In_nth_error in It as (i & Ei). apply In_nth_error in Ig as (k & Ek).
      apply grid_nth in Ek. pose proof (regular_nth _ _ GAP i first t N0 Ei) as Et.
      pose proof (grid_start_bounds o f first F) as [G _].
      assert (D : (Z.of_nat k - Z.of_nat i) * f = first - grid_start o f first) by lia.
      assert (Z.of_nat k - Z.of_nat i = 0).
      { destruct (Z.lt_trichotomy (Z.of_nat k - Z.of_nat i) 0) as [K|[K|K]]; [nia|exact K|nia]. }
      nia. }
    assert (EG : map fst rs = g).
    { apply list_ext; [now rewrite map_length|]. intros i a b Ha Hb.
      apply grid_nth in Hb. pose proof (regular_nth _ _ GAP i first a N0 Ha). lia. }
    assert (ND : NoDup (map fst rs)).
    { apply NoDup_nth_error. intros i j Li E. destruct (nth_error (map fst rs) i) as [a|] eqn:Ei.
      - pose proof (regular_nth _ _ GAP i first a N0 Ei).
        pose proof (regular_nth _ _ GAP j first a N0 (eq_sym E)). nia.
      - apply nth_error_None in Ei. lia. }
    split; [exact ND|]. rewrite <- EG, map_map. apply map_ext_in. intros [s v] Hr. simpl.
    symmetry. apply lookup_in; assumption.
  - destruct (forallb _ _) eqn:FB; [|discriminate]. cbn [negb] in U. apply some_eq in U. subst l.
    split; [|reflexivity]. apply unique_rows. exact FB.
Qed.

(** ** Filling *)
Lemma known_before_spec l : forall i,
  match known_before l i with
  | Some (p, v) => (p <= i)%nat /\ nth p l None = Some v /\
                   forall k, (p < k <= i)%nat -> nth k l None = None
  | None => forall k, (k <= i)%nat -> nth k l None = None
  end.
Proof.
  induction i as [|i IH]; simpl.
  - destruct (nth 0 l None) as [v|] eqn:E.
    + split; [lia|]. split; [exact E|]. intros; lia.
    + intros k K. assert (k = 0%nat) as -> by lia. exact E.
  - destruct (nth (S i) l None) as [v|] eqn:E.
    + split; [lia|]. split; [exact E|]. intros; lia.
    + destruct (known_before l i) as [[p v]|].
      * destruct IH as (H1 & H2 & H3). split; [lia|]. split; [exact H2|]. intros k K.
        destruct (Nat.eq_dec k (S i)) as [->|]; [exact E|]. apply H3. lia.
      * intros k K. destruct (Nat.eq_dec k (S i)) as [->|]; [exact E|]. apply IH. lia.
Qed.
Lemma known_after_spec l : forall fuel i, (i + fuel >= length l)%nat ->
  match known_after l fuel i with
  | Some (q, w) => (i <= q)%nat /\ nth q l None = Some w /\
                   forall k, (i <= k < q)%nat -> nth k l None = None
  | None => forall k, (i <= k)%nat -> nth k l None = None
  end.
Proof.
  induction fuel as [|n IH]; intros i H; simpl.
  - intros k K. apply nth_overflow. lia.
  - destruct (nth i l None) as [v|] eqn:E.
    + split; [lia|]. split; [exact E|]. intros; lia.
    + specialize (IH (S i) ltac:(lia)). destruct (known_after l n (S i)) as [[q w]|].
      * destruct IH as (H1 & H2 & H3). split; [lia|]. split; [exact H2|]. intros k K.
        destruct (Nat.eq_dec k i) as [->|]; [exact E|]. apply H3. lia.
      * intros k K. destruct (Nat.eq_dec k i) as [->|]; [exact E|]. apply IH. lia.
Qed.

Lemma fill_known l i v : nth i l None = Some v -> fill_at l i = Some v.
Proof.
  intros H. unfold fill_at. pose proof (known_before_spec l i) as B.
  assert (Li : (i < length l)%nat).
  { destruct (Nat.lt_ge_cases i (length l)); [auto|]. rewrite nth_overflow in H by lia. discriminate. }
  pose proof (known_after_spec l (length l - i) i ltac:(lia)) as A.
  destruct (known_before l i) as [[p u]|].
  - destruct B as (B1 & B2 & B3). assert (p = i) as ->.
    { destruct (Nat.eq_dec p i); [auto|]. rewrite B3 in H by lia. discriminate. }
    rewrite H in B2. injection B2 as ->.
    destruct (known_after l (length l - i) i) as [[q w]|]; [|reflexivity].
    destruct A as (A1 & A2 & A3). destruct (Nat.eqb_spec i q) as [|N]; [reflexivity|].
    rewrite A3 in H by lia. discriminate.
  - rewrite B in H by lia. discriminate.
Qed.
Lemma fill_between l p q i v w : (p < i < q)%nat -> nth p l None = Some v -> nth q l None = Some w ->
  (forall k, (p < k < q)%nat -> nth k l None = None) ->
  fill_at l i = Some (v + (w - v) * (qn (i - p) / qn (q - p)))%Q.
Proof.
  intros H P W N. unfold fill_at. pose proof (known_before_spec l i) as B.
  pose proof (known_after_spec l (length l - i) i ltac:(lia)) as A.
  destruct (known_before l i) as [[p' u]|].
  - destruct B as (B1 & B2 & B3). assert (p' = p) as ->.
    { destruct (Nat.lt_trichotomy p' p) as [K|[K|K]]; [|exact K|].
      - rewrite B3 in P by lia. discriminate.
      - rewrite N in B2 by lia. discriminate. }
    rewrite P in B2. injection B2 as ->.
    destruct (known_after l (length l - i) i) as [[q' w']|].
    + destruct A as (A1 & A2 & A3). assert (q' = q) as ->.
      { destruct (Nat.lt_trichotomy q' q) as [K|[K|K]]; [|exact K|].
        - rewrite N in A2 by lia. discriminate.
        - rewrite A3 in W by lia. discriminate. }
      rewrite W in A2. injection A2 as ->. destruct (Nat.eqb_spec p q); [lia|reflexivity].
    + rewrite A in W by lia. discriminate.
  - rewrite B in P by lia. discriminate.
Qed.
Lemma fill_first l i : (forall k, (k <= i)%nat -> nth k l None = None) -> fill_at l i = None.
Proof.
  intros H. unfold fill_at. pose proof (known_before_spec l i) as B.
  destruct (known_before l i) as [[p u]|]; [|reflexivity].
  destruct B as (B1 & B2 & _). rewrite H in B2 by lia. discriminate.
Qed.
Lemma fill_last l p i v : (p <= i)%nat -> nth p l None = Some v ->
  (forall k, (p < k)%nat -> nth k l None = None) -> fill_at l i = Some v.
Proof.
  intros H P N. destruct (Nat.eq_dec p i) as [->|NE]; [apply fill_known; exact P|].
  unfold fill_at. pose proof (known_before_spec l i) as B.
  pose proof (known_after_spec l (length l - i) i ltac:(lia)) as A.
  destruct (known_before l i) as [[p' u]|].
  - destruct B as (B1 & B2 & B3). assert (p' = p) as ->.
    { destruct (Nat.lt_trichotomy p' p) as [K|[K|K]]; [|exact K|].
      - rewrite B3 in P by lia. discriminate.
      - rewrite N in B2 by lia. discriminate. }
    rewrite P in B2. injection B2 as ->.
    destruct (known_after l (length l - i) i) as [[q' w']|]; [|reflexivity].
    destruct A as (A1 & A2 & A3). rewrite N in A2 by lia. discriminate.
  - rewrite B in P by lia. discriminate.
Qed.

(** The result of a linear interpolation, position by position, once some observation
    is on the grid. *)
Lemma linear_cells inferred o f rows res :
  infers inferred ->
  interpolate inferred o f Linear false rows = Some res ->
  (exists t, In t (map fst rows) /\ In t (map fst res)) ->
  0 < f /\ NoDup (map fst rows) /\ exists g,
    (forall i r, nth_error res i = Some r -> fst r = g + Z.of_nat i * f) /\
    let l := map (fun r => lookup_row (fst r) (prepared false rows)) res in
    forall i r, nth_error res i = Some r -> snd r = fill_at l i.
Proof.
  intros HI H (t & It & Ir).
  destruct (interp_inv _ _ _ _ _ _ _ H) as (F & first & x & tl & l & P & U & L & R).
  cbv zeta in *. set (rs := (first, x) :: tl) in *. set (g := grid o f first _) in *.
  assert (LR : length g = length (filled Linear l)) by (rewrite filled_len; symmetry; exact L).
  assert (FR : map fst res = g).
  { rewrite R. clear -LR. revert LR. generalize (filled Linear l). induction g as [|y g IH]; intros [|z m] LR; simpl in *; try discriminate; auto.
    f_equal. apply IH. lia. }
  pose proof (prepared_sorted false rows) as S. rewrite P in S.
  assert (X : exists t, In t (map fst rs) /\ In t g).
  { exists t. split; [|rewrite <- FR; exact Ir]. apply (prepared_times false rows) in It.
    rewrite P in It. exact It. }
  destruct (upsample_lookup inferred o f first x tl l HI F S U X) as [ND EL].
  change (l = map (fun t => lookup_row t rs) g) in EL.
  split; [exact F|]. split.
  { eapply Permutation_NoDup; [apply Permutation_sym, Permutation_map, (sort_rows_perm rows)|].
    fold (prepared false rows) in *. change (sort_rows rows) with (prepared false rows). rewrite P. exact ND. }
  exists (grid_start o f first). split.
  - intros i r E. apply (grid_nth o f first (fst (List.last rs (0, None))) i). fold g. rewrite <- FR.
    rewrite nth_error_map, E. reflexivity.
  - assert (EL' : map (fun r => lookup_row (fst r) (prepared false rows)) res = l).
    { rewrite EL, <- FR, map_map, P. reflexivity. }
    rewrite EL'. intros i r E. rewrite R, combine_nth_error in E by exact LR.
    destruct (nth_error g i) as [s|] eqn:G; [|discriminate].
    destruct (nth_error (filled Linear l) i) as [v|] eqn:V; [|discriminate]. injection E as <-. simpl.
    unfold filled in V. rewrite nth_error_map in V.
    destruct (nth_error (seq 0 (length l)) i) as [k|] eqn:K; [|discriminate]. simpl in V. injection V as <-.
    assert (LK : (i < length (seq 0 (length l)))%nat) by (apply nth_error_Some; congruence).
    rewrite (nth_error_nth' _ 0%nat LK) in K. rewrite seq_length in LK.
    rewrite seq_nth in K by exact LK. injection K as <-. reflexivity.
Qed.

Lemma nth_lookup (res : list (Z * option Q)) rows' k r : nth_error res k = Some r ->
  nth k (map (fun r => lookup_row (fst r) rows') res) None = lookup_row (fst r) rows'.
Proof. intros E. apply nth_error_nth. rewrite nth_error_map, E. reflexivity. Qed.

Lemma lookup_prepared rows t v : NoDup (map fst rows) -> In (t, v) rows ->
  lookup_row t (prepared false rows) = v.
Proof.
  intros N I. apply lookup_in.
  - eapply Permutation_NoDup; [apply Permutation_map, sort_rows_perm|exact N].
  - eapply Permutation_in; [apply sort_rows_perm|exact I].
Qed.
Lemma lookup_prepared_some rows t v : lookup_row t (prepared false rows) = Some v -> In (t, Some v) rows.
Proof.
  intros H. apply lookup_some in H. eapply Permutation_in; [apply Permutation_sym, sort_rows_perm|exact H].
Qed.

(** An observation whose time is one of the times of the result is kept. *)
Theorem C264_kept_partial : forall inferred o f rows res t v,
  infers inferred -> interpolate inferred o f Linear false rows = Some res ->
  In (t, Some v) rows -> In t (map fst res) -> In (t, Some v) res.
Proof.
  intros inferred o f rows res t v HI H I T.
  destruct (linear_cells inferred o f rows res HI H) as (F & ND & g & G & C).
  { exists t. split; [apply (in_map fst) in I; exact I|exact T]. }
  cbv zeta in C. apply in_map_iff in T as ([s w] & E & T). simpl in E. subst s.
  apply In_nth_error in T as (i & Ei). specialize (C i _ Ei). simpl in C.
  rewrite (fill_known _ i v) in C.
  - subst w. eapply nth_error_In. exact Ei.
  - rewrite (nth_lookup _ _ _ _ Ei). simpl. apply lookup_prepared; assumption.
Qed.

(** Between two observations whose times are in the result, with no observation on the
    grid between them, the result is the straight line through them. *)
Theorem C264_line : forall inferred o f rows res t1 v1 t2 v2 t w,
  infers inferred -> interpolate inferred o f Linear false rows = Some res ->
  In (t1, Some v1) rows -> In (t2, Some v2) rows ->
  In t1 (map fst res) -> In t2 (map fst res) -> In (t, w) res -> t1 < t < t2 ->
  (forall s u, t1 < s < t2 -> In s (map fst res) -> ~ In (s, Some u) rows) ->
  exists x, w = Some x /\
    (x == v1 + (v2 - v1) * (inject_Z (t - t1) / inject_Z (t2 - t1)))%Q.
Proof.
  intros inferred o f rows res t1 v1 t2 v2 t w HI H I1 I2 T1 T2 T LT N.
  destruct (linear_cells inferred o f rows res HI H) as (F & ND & g & G & C).
  { exists t1. split; [apply (in_map fst) in I1; exact I1|exact T1]. }
  cbv zeta in C.
  apply in_map_iff in T1 as ([s1 w1] & E1 & T1). simpl in E1. subst s1.
  apply in_map_iff in T2 as ([s2 w2] & E2 & T2). simpl in E2. subst s2.
  apply In_nth_error in T1 as (p & P). apply In_nth_error in T2 as (q & Q2).
  apply In_nth_error in T as (i & Ei).
  pose proof (G _ _ P) as Gp. pose proof (G _ _ Q2) as Gq. pose proof (G _ _ Ei) as Gi.
  simpl in Gp, Gq, Gi.
  assert (p < i < q)%nat as O by nia.
  specialize (C i _ Ei). simpl in C.
  rewrite (fill_between _ p q i v1 v2 O) in C.
  - exists (v1 + (v2 - v1) * (qn (i - p) / qn (q - p)))%Q. split; [exact C|].
    assert (A1 : (inject_Z (t - t1) == qn (i - p) * inject_Z f)%Q).
    { unfold qn. rewrite <- inject_Z_mult. replace (t - t1) with (Z.of_nat (i - p) * f) by nia. reflexivity. }
    assert (A2 : (inject_Z (t2 - t1) == qn (q - p) * inject_Z f)%Q).
    { unfold qn. rewrite <- inject_Z_mult. replace (t2 - t1) with (Z.of_nat (q - p) * f) by nia. reflexivity. }
    rewrite A1, A2.
    assert (NF : ~ (inject_Z f == 0)%Q). { intros K. change 0%Q with (inject_Z 0) in K. apply (proj1 (inject_Z_injective _ _)) in K. lia. }
    assert (NQ : ~ (qn (q - p) == 0)%Q). { unfold qn. intros K. change 0%Q with (inject_Z 0) in K. apply (proj1 (inject_Z_injective _ _)) in K. lia. }
    field. auto.
  - rewrite (nth_lookup _ _ _ _ P). simpl. apply lookup_prepared; assumption.
  - rewrite (nth_lookup _ _ _ _ Q2). simpl. apply lookup_prepared; assumption.
  - intros k K. destruct (nth_error res k) as [[s u]|] eqn:Ek.
    + rewrite (nth_lookup _ _ _ _ Ek). simpl. pose proof (G _ _ Ek) as Gk. simpl in Gk.
      destruct (lookup_row s (prepared false rows)) as [y|] eqn:LK; [|reflexivity].
      apply lookup_prepared_some in LK. exfalso. apply (N s y); [nia| |exact LK].
      apply nth_error_In, (in_map fst) in Ek. exact Ek.
    + apply nth_overflow. rewrite map_length. apply nth_error_None. exact Ek.
Qed.

(** After the last observation on the grid its value is repeated; before the first there
    is no value. *)
Theorem C264_ends : forall inferred o f rows res t1 v1,
  infers inferred -> interpolate inferred o f Linear false rows = Some res ->
  In (t1, Some v1) rows -> In t1 (map fst res) ->
  ((forall s u, t1 < s -> In s (map fst res) -> ~ In (s, Some u) rows) ->
   forall t w, In (t, w) res -> t1 <= t -> w = Some v1) /\
  ((forall s u, s < t1 -> In s (map fst res) -> ~ In (s, Some u) rows) ->
   forall t w, In (t, w) res -> t < t1 -> w = None).
Proof.
  intros inferred o f rows res t1 v1 HI H I1 T1.
  destruct (linear_cells inferred o f rows res HI H) as (F & ND & g & G & C).
  { exists t1. split; [apply (in_map fst) in I1; exact I1|exact T1]. }
  cbv zeta in C.
  apply in_map_iff in T1 as ([s1 w1] & E1 & T1). simpl in E1. subst s1.
  apply In_nth_error in T1 as (p & P). pose proof (G _ _ P) as Gp. simpl in Gp.
  assert (AT : forall k, nth k (map (fun r => lookup_row (fst r) (prepared false rows)) res) None <> None ->
     exists s u y, nth_error res k = Some (s, u) /\ In (s, Some y) rows /\ s = g + Z.of_nat k * f).
  { intros k K. destruct (nth_error res k) as [[s u]|] eqn:Ek.
    - rewrite (nth_lookup _ _ _ _ Ek) in K. simpl in K.
      destruct (lookup_row s (prepared false rows)) as [y|] eqn:LK; [|congruence].
      exists s, u, y. split; [reflexivity|]. split; [apply lookup_prepared_some; exact LK|].
      exact (G _ _ Ek).
    - destruct K. apply nth_overflow. rewrite map_length. apply nth_error_None. exact Ek. }
  split; intros N t w T LT; apply In_nth_error in T as (i & Ei); pose proof (G _ _ Ei) as Gi;
    simpl in Gi; specialize (C i _ Ei); simpl in C; rewrite C.
  - apply (fill_last _ p i v1); [nia| |].
    + rewrite (nth_lookup _ _ _ _ P). simpl. apply lookup_prepared; assumption.
    + intros k K. match goal with |- ?e = None => destruct e eqn:E; [|reflexivity] end.
      destruct (AT k) as (s & u & y & R1 & R2 & R3); [rewrite E; discriminate|].
      exfalso. apply (N s y); [nia| |exact R2]. apply nth_error_In, (in_map fst) in R1. exact R1.
  - apply fill_first. intros k K. match goal with |- ?e = None => destruct e eqn:E; [|reflexivity] end.
    destruct (AT k) as (s & u & y & R1 & R2 & R3); [rewrite E; discriminate|].
    exfalso. apply (N s y); [nia| |exact R2]. apply nth_error_In, (in_map fst) in R1. exact R1.
Qed.

(** A series that is not regular and has no observation on the grid loses all its
    values. *)
Theorem C264_off_grid_refuted : forall inferred o f rows res,
  interpolate inferred o f Linear false rows = Some res ->
  (forall ts, Permutation (map fst rows) ts -> inferred ts f = false) ->
  (forall t, In t (map fst rows) -> ~ In t (map fst res)) ->
  forall t w, In (t, w) res -> w = None.
Proof.
  intros inferred o f rows res H NI NO t w T.
  destruct (interp_inv _ _ _ _ _ _ _ H) as (F & first & x & tl & l & P & U & L & R).
  cbv zeta in *. set (rs := (first, x) :: tl) in *. set (g := grid o f first _) in *.
  assert (LR : length g = length (filled Linear l)) by (rewrite filled_len; symmetry; exact L).
  assert (FR : map fst res = g).
  { rewrite R. clear -LR. revert LR. generalize (filled Linear l). induction g as [|y g IH]; intros [|z m] LR; simpl in *; try discriminate; auto.
    f_equal. apply IH. lia. }
  unfold upsample in U. rewrite NI in U.
  2:{ rewrite <- P. apply Permutation_map, sort_rows_perm. }
  cbn [andb] in U. destruct (negb _); [discriminate|]. apply some_eq in U. subst l.
  assert (NN : forall k, nth k (map (fun t => lookup_row t rs) g) None = None).
  { intros k. destruct (nth_error g k) as [s|] eqn:Ek.
    - rewrite (nth_error_nth (map _ g) k None (x := lookup_row s rs)) by (rewrite nth_error_map, Ek; reflexivity).
      destruct (lookup_row s rs) as [y|] eqn:LK; [|reflexivity]. apply lookup_some in LK.
      exfalso. apply (NO s).
      + apply (prepared_times false rows). rewrite P. apply (in_map fst) in LK. exact LK.
      + rewrite FR. eapply nth_error_In. exact Ek.
    - apply nth_overflow. rewrite map_length. apply nth_error_None. exact Ek. }
  rewrite R in T. apply in_combine_r in T. unfold filled in T. apply in_map_iff in T as (k & <- & _).
  apply fill_first. intros j _. apply NN.
Qed.

(** A frequency that pandas recognises: three times at least with this gap. *)
Definition simple_inferred (ts : list Z) (f : Z) : bool :=
  Nat.leb 3 (length ts) && forallb (Z.eqb f) (diffs ts).
Lemma diffs_gap f : forall ts, forallb (Z.eqb f) (diffs ts) = true ->
  forall i a b, nth_error ts i = Some a -> nth_error ts (S i) = Some b -> b - a = f.
Proof.
  induction ts as [|x ts IH]; intros H i a b A B; [destruct i; discriminate|].
  destruct ts as [|y ts]; [destruct i as [|[|]]; discriminate|].
  cbn [diffs forallb] in H. apply andb_true_iff in H as [H1 H2].
  destruct i as [|i].
  - simpl in A, B. injection A as <-. injection B as <-. apply Z.eqb_eq in H1. lia.
  - exact (IH H2 i a b A B).
Qed.
Lemma simple_infers : infers simple_inferred.
Proof.
  intros ts f H. apply andb_true_iff in H as [H1 H2]. apply Nat.leb_le in H1.
  split; [exact H1|]. exact (diffs_gap f ts H2).
Qed.

Definition hour : Z := 3600000000000.
(** Daily data at ten o'clock with a day left out: everything is lost. *)
Example C264_lost_case : 
  interpolate simple_inferred StartDay day Linear false
    [(10 * hour, Some 1%Q); (34 * hour, Some 2%Q); (82 * hour, Some 4%Q)]
  = Some [(0, None); (24 * hour, None); (48 * hour, None); (72 * hour, None)].
Proof. vm_compute. reflexivity. Qed.

(** The times of a complete series are changed: daily data at ten o'clock come back at
    midnight. *)
Theorem C264_moved_refuted : exists rows res,
  interpolate simple_inferred StartDay day Linear false rows = Some res /\
  map snd res = map snd rows /\ length rows = 3%nat /\
  forall t, In t (map fst rows) -> ~ In t (map fst res).
Proof.
  exists [(10 * hour, Some 1%Q); (34 * hour, Some 2%Q); (58 * hour, Some 4%Q)].
  eexists. split; [vm_compute; reflexivity|]. split; [reflexivity|]. split; [reflexivity|].
  intros t [<-|[<-|[<-|[]]]]; simpl; intros [H|[H|[H|[]]]]; discriminate.
Qed.

Example C264_case :
  interpolate simple_inferred StartDay hour Linear false
    [(5 * hour, Some 5%Q); (1 * hour, Some 1%Q); (2 * hour, Some 3%Q)]
  = Some [(1 * hour, Some 1%Q); (2 * hour, Some 3%Q); (3 * hour, Some (11 # 3)%Q);
          (4 * hour, Some (13 # 3)%Q); (5 * hour, Some 5%Q)].
Proof. vm_compute. reflexivity. Qed.

(** *** Interpolating twice *)
Lemma grid_start_again o f e : 0 < f -> grid_start o f (grid_start o f e) = grid_start o f e.
Proof.
  intros F. pose proof (grid_start_bounds o f e F) as [B D].
  set (g := grid_start o f e) in *.
  assert (A : anchor o g = anchor o e \/ o = Start).
  { destruct o; [left|now right]. unfold anchor in *.
    assert (day > 0) by reflexivity.
    pose proof (Z.mod_pos_bound e day ltac:(lia)) as Me.
    assert (G : e - e mod day <= g).
    { unfold g, grid_start, anchor.
      assert ((e - (e - e mod day)) mod f <= e - (e - e mod day)) by (apply Z.mod_le; lia). lia. }
    assert (M : g mod day = g - (e - e mod day)).
    { symmetry. apply (Z.mod_unique_pos g day (e / day)); [lia|].
      pose proof (Z.div_mod e day ltac:(lia)). lia. }
    lia. }
  destruct A as [A| ->].
  - unfold grid_start at 1. rewrite A. rewrite (proj2 (Z.mod_divide (g - anchor o e) f ltac:(lia)) D). lia.
  - unfold grid_start, anchor. rewrite Z.sub_diag, Z.mod_0_l by lia. lia.
Qed.

Lemma fill_twice l i : (i < length l)%nat ->
  fill_at (map (fill_at l) (seq 0 (length l))) i = fill_at l i.
Proof.
  intros Li. set (l' := map (fill_at l) (seq 0 (length l))).
  assert (N : forall k, (k < length l)%nat -> nth k l' None = fill_at l k).
  { intros k K. unfold l'. apply nth_error_nth. rewrite nth_error_map, (nth_error_nth' _ 0%nat)
      by (now rewrite seq_length). rewrite seq_nth by exact K. reflexivity. }
  destruct (fill_at l i) as [v|] eqn:E.
  - apply fill_known. rewrite N by exact Li. exact E.
  - apply fill_first. intros k K. rewrite N by lia. apply fill_first. intros j J.
    pose proof (known_before_spec l i) as B. unfold fill_at in E.
    destruct (known_before l i) as [[p u]|].
    + destruct (known_after l (length l - i) i) as [[q w]|]; [destruct (Nat.eqb p q)|]; discriminate.
    + apply B. lia.
Qed.

Lemma spaced_sorted f (res : list (Z * option Q)) : 0 < f ->
  forall g, (forall i r, nth_error res i = Some r -> fst r = g + Z.of_nat i * f) ->
  StronglySorted Z.lt (map fst res).
Proof.
  intros F. induction res as [|r res IH]; intros g H; simpl; [constructor|]. constructor.
  - apply (IH (g + f)). intros i q E. rewrite (H (S i) q E). lia.
  - rewrite Forall_forall. intros t T. apply in_map_iff in T as (q & <- & T).
    apply In_nth_error in T as (i & E). rewrite (H 0%nat r eq_refl), (H (S i) q E). nia.
Qed.
Lemma lt_le_sorted l : StronglySorted Z.lt l -> StronglySorted Z.le l.
Proof.
  induction 1 as [|x l S IH H]; constructor; auto. eapply Forall_impl; [|exact H]. intros; lia.
Qed.
Lemma lt_nodup l : StronglySorted Z.lt l -> NoDup l.
Proof.
  induction 1 as [|x l S IH H]; constructor; auto. rewrite Forall_forall in H. intros I.
  specialize (H x I). lia.
Qed.

(** Interpolating the result again with the same frequency changes nothing. *)
Theorem C264_twice : forall inferred o f dedup rows res,
  interpolate inferred o f Linear dedup rows = Some res ->
  interpolate inferred o f Linear false res = Some res.
Proof.
  intros inferred o f dedup rows res H.
  destruct (interp_inv _ _ _ _ _ _ _ H) as (F & first & x & tl & l & P & U & L & R).
  cbv zeta in *. set (rs := (first, x) :: tl) in *. set (lst := fst (List.last rs (0, None))) in *.
  set (g := grid o f first lst) in *.
  assert (LR : length g = length (filled Linear l)) by (rewrite filled_len; symmetry; exact L).
  assert (FR : map fst res = g).
  { rewrite R. clear -LR. revert LR. generalize (filled Linear l). induction g as [|y g IH]; intros [|z m] LR; simpl in *; try discriminate; auto.
    f_equal. apply IH. lia. }
  assert (SR : map snd res = filled Linear l).
  { rewrite R. clear -LR. revert LR. generalize (filled Linear l). induction g as [|y g IH]; intros [|z m] LR; simpl in *; try discriminate; auto.
    f_equal. apply IH. lia. }
  pose proof (prepared_sorted dedup rows) as S. rewrite P in S.
  assert (FL : first <= lst) by (apply (sorted_last rs (0, None) S (first, x)); now left).
  pose proof (grid_len o f first lst F FL) as [GL GP]. fold g in GL, GP.
  set (gs := grid_start o f first) in *.
  assert (G : forall i r, nth_error res i = Some r -> fst r = gs + Z.of_nat i * f).
  { intros i r E. apply (grid_nth o f first lst i). fold g. rewrite <- FR, nth_error_map, E. reflexivity. }
  pose proof (spaced_sorted f res F gs G) as SL.
  assert (NE : res <> []). { intros E. rewrite E in FR. simpl in FR. rewrite <- FR in GP. simpl in GP. lia. }
  destruct res as [|[r0 w0] res'] eqn:ER; [congruence|]. rewrite <- ER in *.
  assert (E0 : r0 = gs). { pose proof (G 0%nat (r0, w0)) as K. rewrite ER in K. specialize (K eq_refl). simpl in K. lia. }
  assert (LL : length res = length g) by (rewrite <- FR, map_length; reflexivity).
  assert (LST : fst (List.last res (0, None)) = gs + (Z.of_nat (length res) - 1) * f).
  { assert (I : nth_error res (length res - 1) = Some (List.last res (0, None))).
    { clear -NE. induction res as [|a l IH]; [congruence|]. destruct l as [|b l]; [reflexivity|].
      replace (length (a :: b :: l) - 1)%nat with (Datatypes.S (length (b :: l) - 1)) by (simpl; lia).
      cbn [nth_error]. rewrite (IH ltac:(discriminate)). reflexivity. }
    rewrite (G _ _ I). assert (1 <= length res)%nat by (rewrite LL; exact GP).
    rewrite Nat2Z.inj_sub by assumption. reflexivity. }
  assert (EG : grid o f r0 (fst (List.last res (0, None))) = g).
  { assert (GA : grid_start o f gs = gs) by apply (grid_start_again o f first F).
    rewrite E0, LST. unfold grid. rewrite !GA.
    replace (gs + (Z.of_nat (length res) - 1) * f - gs) with ((Z.of_nat (length res) - 1) * f) by lia.
    rewrite Z.div_mul by lia. unfold g, grid. fold gs. rewrite LL, Z.sub_add, GL. reflexivity. }
  unfold interpolate. destruct (Z.leb_spec f 0); [lia|].
  rewrite (sort_rows_id res) by (apply lt_le_sorted; exact SL).
  rewrite ER at 1. rewrite EG.
  assert (UP : upsample inferred o f Linear res g = Some (map snd res)).
  { unfold upsample. destruct (inferred (map fst res) f && _); [reflexivity|].
    assert (FB : forallb (fun t => Nat.eqb (count_occ Z.eq_dec (map fst res) t) 1) (map fst res) = true).
    { apply forallb_forall. intros t T. apply Nat.eqb_eq.
      pose proof (proj1 (NoDup_count_occ Z.eq_dec _) (lt_nodup _ SL) t).
      apply (count_occ_In Z.eq_dec) in T. lia. }
    rewrite FB. cbn [negb]. f_equal. rewrite <- FR, map_map. apply map_ext_in. intros [t v] I. simpl.
    apply lookup_in; [apply lt_nodup, SL|exact I]. }
  rewrite UP. f_equal. rewrite SR. rewrite R at 1. f_equal.
  unfold filled. rewrite map_length, seq_length. apply map_ext_in. intros i I. apply in_seq in I.
  symmetry. rewrite <- (fill_twice l i) by lia. reflexivity.
Qed.

(** ** C265 *)
Lemma before_spec rs t : StronglySorted Z.le (map fst rs) -> NoDup (map fst rs) ->
  (forall s v, In (s, v) rs -> s <= t -> (forall s' u, In (s', u) rs -> s' <= t -> s' <= s) ->
     row_before t rs = v) /\
  ((forall s v, In (s, v) rs -> t < s) -> row_before t rs = None).
Proof.
  intros S N. unfold row_before. split.
  - intros s v I L M.
    assert (If : In (s, v) (filter (fun r => fst r <=? t) rs))
      by (apply filter_In; split; [exact I|apply Z.leb_le; exact L]).
    destruct (rev (filter (fun r => fst r <=? t) rs)) as [|[s' u] tl] eqn:E.
    { apply (f_equal (@rev _)) in E. rewrite rev_involutive in E. rewrite E in If. destruct If. }
    simpl. assert (Ir : In (s', u) (filter (fun r => fst r <=? t) rs))
      by (apply in_rev; rewrite E; now left).
    apply filter_In in Ir as [Ir Lr]. apply Z.leb_le in Lr. simpl in Lr.
    specialize (M s' u Ir Lr).
    assert (s <= s').
    { assert (SF : StronglySorted Z.le (map fst (filter (fun r => fst r <=? t) rs))).
      { clear -S. induction rs as [|r rs IH]; simpl in *; [constructor|]. inversion S as [|? ? S1 S2]; subst.
        destruct (fst r <=? t); simpl; [|auto]. constructor; [auto|]. rewrite Forall_forall in *.
        intros y Hy. apply S2. apply in_map_iff in Hy as (q & <- & Hq). apply filter_In in Hq as [Hq _].
        apply in_map. exact Hq. }
      assert (EF : filter (fun r => fst r <=? t) rs = rev tl ++ [(s', u)]).
      { apply (f_equal (@rev _)) in E. rewrite rev_involutive in E. exact E. }
      rewrite EF in SF, If.
      pose proof (sorted_last _ (0, None) SF (s, v) If) as K. rewrite List.last_last in K. exact K. }
    assert (s' = s) as -> by lia.
    rewrite <- (lookup_in rs s u N Ir). apply lookup_in; assumption.
  - intros H. assert (E : filter (fun r => fst r <=? t) rs = []).
    { clear -H. induction rs as [|[s v] rs IH]; [reflexivity|]. simpl.
      pose proof (H s v (or_introl eq_refl)). destruct (Z.leb_spec s t); [lia|].
      apply IH. intros s' u I. apply (H s' u). now right. }
    rewrite E. reflexivity.
Qed.
Lemma after_spec rs t : StronglySorted Z.le (map fst rs) -> NoDup (map fst rs) ->
  (forall s v, In (s, v) rs -> t <= s -> (forall s' u, In (s', u) rs -> t <= s' -> s <= s') ->
     row_after t rs = v) /\
  ((forall s v, In (s, v) rs -> s < t) -> row_after t rs = None).
Proof.
  intros S N. unfold row_after. split.
  - intros s v I L M.
    assert (If : In (s, v) (filter (fun r => t <=? fst r) rs))
      by (apply filter_In; split; [exact I|apply Z.leb_le; exact L]).
    destruct (filter (fun r => t <=? fst r) rs) as [|[s' u] tl] eqn:E; [destruct If|].
    simpl. assert (Ir : In (s', u) (filter (fun r => t <=? fst r) rs)) by (rewrite E; now left).
    apply filter_In in Ir as [Ir Lr]. apply Z.leb_le in Lr. simpl in Lr.
    specialize (M s' u Ir Lr).
    assert (s' <= s).
    { assert (SF : StronglySorted Z.le (map fst (filter (fun r => t <=? fst r) rs))).
      { clear -S. induction rs as [|r rs IH]; simpl in *; [constructor|]. inversion S as [|? ? S1 S2]; subst.
        destruct (t <=? fst r); simpl; [|auto]. constructor; [auto|]. rewrite Forall_forall in *.
        intros y Hy. apply S2. apply in_map_iff in Hy as (q & <- & Hq). apply filter_In in Hq as [Hq _].
        apply in_map. exact Hq. }
      rewrite E in SF. exact (sorted_hd (s', u) tl SF (s, v) If). }
    assert (s' = s) as -> by lia.
    rewrite <- (lookup_in rs s u N Ir). apply lookup_in; assumption.
  - intros H. assert (E : filter (fun r => t <=? fst r) rs = []).
    { clear -H. induction rs as [|[s v] rs IH]; [reflexivity|]. simpl.
      pose proof (H s v (or_introl eq_refl)). destruct (Z.leb_spec t s); [lia|].
      apply IH. intros s' u I. apply (H s' u). now right. }
    rewrite E. reflexivity.
Qed.

Lemma step_cells inferred o f m rows res : m <> Linear ->
  (forall ts, Permutation (map fst rows) ts -> inferred ts f = false) ->
  interpolate inferred o f m false rows = Some res ->
  NoDup (map fst (prepared false rows)) /\
  forall t w, In (t, w) res ->
    w = match m with Bfill => row_after t (prepared false rows)
                   | _ => row_before t (prepared false rows) end.
Proof.
  intros NL NI H. destruct (interp_inv _ _ _ _ _ _ _ H) as (F & first & x & tl & l & P & U & L & R).
  cbv zeta in *. set (rs := (first, x) :: tl) in *. set (g := grid o f first _) in *.
  unfold upsample in U. rewrite NI in U by (rewrite <- P; apply Permutation_map, sort_rows_perm).
  cbn [andb] in U. destruct (forallb _ _) eqn:FB; [|discriminate]. cbn [negb] in U.
  apply some_eq in U. rewrite P. split; [apply unique_rows; exact FB|].
  intros t w T. rewrite R in T. apply In_nth_error in T as (i & T).
  rewrite combine_nth_error in T by (rewrite filled_len; symmetry; exact L).
  destruct (nth_error g i) as [s|] eqn:G; [|discriminate].
  destruct (nth_error (filled m l) i) as [v|] eqn:V; [|discriminate]. injection T as -> ->.
  assert (E : nth_error l i = Some w) by (destruct m; [congruence|exact V|exact V]).
  rewrite U, nth_error_map, G in E. simpl in E. injection E as <-. destruct m; congruence.
Qed.

(** Filling forward gives, at each time of a series that is not regular, the value of the
    last observation not after it (also if that value is missing), and nothing before the
    first observation; filling backward the value of the first observation not before
    it. *)
Theorem C265_forward_partial : forall inferred o f rows res t w,
  (forall ts, Permutation (map fst rows) ts -> inferred ts f = false) ->
  interpolate inferred o f Ffill false rows = Some res -> In (t, w) res ->
  (forall s v, In (s, v) rows -> s <= t ->
     (forall s' u, In (s', u) rows -> s' <= t -> s' <= s) -> w = v) /\
  ((forall s v, In (s, v) rows -> t < s) -> w = None).
Proof.
  intros inferred o f rows res t w NI H T.
  destruct (step_cells inferred o f Ffill rows res ltac:(discriminate) NI H) as [N C].
  rewrite (C t w T). cbv iota.
  destruct (before_spec (prepared false rows) t (prepared_sorted false rows) N) as [B1 B2].
  assert (IN : forall r, In r rows <-> In r (prepared false rows)).
  { intros r. unfold prepared. split; apply Permutation_in; [|apply Permutation_sym]; apply sort_rows_perm. }
  split.
  - intros s v I L M. apply (B1 s v); [apply IN; exact I|exact L|].
    intros s' u I'. apply (M s' u), IN, I'.
  - intros K. apply B2. intros s v I. apply (K s v), IN, I.
Qed.
Theorem C265_backward_partial : forall inferred o f rows res t w,
  (forall ts, Permutation (map fst rows) ts -> inferred ts f = false) ->
  interpolate inferred o f Bfill false rows = Some res -> In (t, w) res ->
  (forall s v, In (s, v) rows -> t <= s ->
     (forall s' u, In (s', u) rows -> t <= s' -> s <= s') -> w = v) /\
  ((forall s v, In (s, v) rows -> s < t) -> w = None).
Proof.
  intros inferred o f rows res t w NI H T.
  destruct (step_cells inferred o f Bfill rows res ltac:(discriminate) NI H) as [N C].
  rewrite (C t w T). cbv iota.
  destruct (after_spec (prepared false rows) t (prepared_sorted false rows) N) as [B1 B2].
  assert (IN : forall r, In r rows <-> In r (prepared false rows)).
  { intros r. unfold prepared. split; apply Permutation_in; [|apply Permutation_sym]; apply sort_rows_perm. }
  split.
  - intros s v I L M. apply (B1 s v); [apply IN; exact I|exact L|].
    intros s' u I'. apply (M s' u), IN, I'.
  - intros K. apply B2. intros s v I. apply (K s v), IN, I.
Qed.

(** A missing observation is not filled: with daily data, the value of its day stays
    missing although an earlier value is known. *)
Theorem C265_missing_refuted : forall m, m <> Linear ->
  exists res, interpolate simple_inferred StartDay day m false
    [(0, Some 1%Q); (day, None); (3 * day, Some 2%Q)] = Some res /\ In (day, None) res.
Proof.
  intros m N. destruct m; [congruence| |]; eexists; (split; [vm_compute; reflexivity|]); simpl; auto.
Qed.

(** Filling forward a complete daily series at ten o'clock looks ahead: midnight gets the
    value of ten hours later. *)
Theorem C265_ahead_refuted : exists rows res t v s,
  interpolate simple_inferred StartDay day Ffill false rows = Some res /\
  In (t, Some v) res /\ In (s, Some v) rows /\ t < s /\
  (forall s', In (s', Some v) rows -> t < s').
Proof.
  exists [(10 * hour, Some 1%Q); (34 * hour, Some 2%Q); (58 * hour, Some 4%Q)].
  eexists. exists (24 * hour), 2%Q, (34 * hour).
  split; [vm_compute; reflexivity|]. split; [simpl; auto|]. split; [simpl; auto|].
  split; [reflexivity|]. intros s' [H|[H|[H|[]]]]; try discriminate. injection H as <-. reflexivity.
Qed.

Example C265_case :
  interpolate simple_inferred StartDay hour Ffill false
    [(5 * hour, Some 5%Q); (1 * hour + 1, Some 1%Q); (3 * hour, Some 3%Q)]
  = Some [(1 * hour, None); (2 * hour, Some 1%Q); (3 * hour, Some 3%Q);
          (4 * hour, Some 3%Q); (5 * hour, Some 5%Q)] /\
  interpolate simple_inferred StartDay hour Bfill false
    [(5 * hour, Some 5%Q); (1 * hour + 1, Some 1%Q); (3 * hour, Some 3%Q)]
  = Some [(1 * hour, Some 1%Q); (2 * hour, Some 3%Q); (3 * hour, Some 3%Q);
          (4 * hour, Some 5%Q); (5 * hour, Some 5%Q)].
Proof. split; vm_compute; reflexivity. Qed.

Print Assumptions C264_times.
Print Assumptions C264_kept_partial.
Print Assumptions C264_line.
Print Assumptions C264_ends.
Print Assumptions C264_off_grid_refuted.
Print Assumptions C264_moved_refuted.
Print Assumptions C264_twice.
Print Assumptions C265_forward_partial.
Print Assumptions C265_backward_partial.
Print Assumptions C265_missing_refuted.
Print Assumptions C265_ahead_refuted.
