(** Proofs about [TSDataModel]. *)
From Verif Require Import Common PySlice TSDataModel TSDataSpec.
Open Scope Z_scope.

(** ** Sorting *)
Lemma insert_row_perm {A} (r : Z * A) l : Permutation (r :: l) (insert_row r l).
Proof.
  induction l as [|x t IH]; simpl; [constructor; constructor|].
  destruct (fst r <=? fst x); [apply Permutation_refl|].
  eapply perm_trans; [apply perm_swap|]. constructor. exact IH.
Qed.
Lemma sort_rows_perm {A} (l : list (Z * A)) : Permutation l (sort_rows l).
Proof.
  induction l as [|x t IH]; simpl; [constructor|].
  eapply perm_trans; [constructor; exact IH|]. apply insert_row_perm.
Qed.
Lemma insert_row_sorted {A} (r : Z * A) l : in_time_order l -> in_time_order (insert_row r l).
Proof.
  unfold in_time_order. induction l as [|x t IH]; simpl; intros H; [repeat constructor|].
  inversion H as [|? ? Ht Hx]; subst.
  destruct (Z.leb_spec (fst r) (fst x)) as [Hle|Hlt]; simpl.
  - constructor; [exact H|]. constructor; [exact Hle|].
    eapply Forall_impl; [|exact Hx]. intros; lia.
  - constructor; [exact (IH Ht)|].
    apply Forall_forall. intros z Hz.
    assert (Permutation (map fst (r :: t)) (map fst (insert_row r t))) as P
      by (apply Permutation_map, insert_row_perm).
    apply (Permutation_in _ (Permutation_sym P)) in Hz. simpl in Hz.
    destruct Hz as [<-|Hz]; [lia|]. rewrite Forall_forall in Hx. exact (Hx z Hz).
Qed.
Lemma sort_rows_sorted {A} (l : list (Z * A)) : in_time_order (sort_rows l).
Proof. induction l as [|x t IH]; simpl; [constructor|]. apply insert_row_sorted, IH. Qed.

Lemma insert_row_first {A} (r : Z * A) l :
  Forall (Z.le (fst r)) (map fst l) -> insert_row r l = r :: l.
Proof.
  destruct l as [|x t]; simpl; intros H; [reflexivity|]. inversion H; subst.
  destruct (Z.leb_spec (fst r) (fst x)); [reflexivity|lia].
Qed.
Lemma sort_rows_id {A} (l : list (Z * A)) : in_time_order l -> sort_rows l = l.
Proof.
  unfold in_time_order. induction l as [|x t IH]; simpl; intros H; [reflexivity|].
  inversion H; subst. rewrite IH by assumption. apply insert_row_first; assumption.
Qed.

(** A sorted list without repeated time stamps is determined by its rows. *)
Lemma sorted_nodup_strict {A} (l : list (Z * A)) :
  in_time_order l -> NoDup (map fst l) -> strictly_in_time_order l.
Proof.
  unfold in_time_order, strictly_in_time_order.
  induction (map fst l) as [|x t IH]; intros H N; [constructor|].
  inversion H; inversion N; subst. constructor; [auto|].
  apply Forall_forall. intros y Hy. rewrite Forall_forall in *.
  match goal with h : forall _, In _ t -> _ <= _ |- _ => specialize (h y Hy) end.
  assert (x <> y) by (intros ->; contradiction). lia.
Qed.

(** ** Duplicates *)
Lemma existsb_eqb (x : Z) seen : existsb (Z.eqb x) seen = true <-> In x seen.
Proof.
  rewrite existsb_exists. split.
  - intros [y [H E]]. apply Z.eqb_eq in E. subst. exact H.
  - intros H. exists x. rewrite Z.eqb_refl. auto.
Qed.
Lemma drop_dup_aux_in {A} (l : list (Z * A)) : forall seen r,
  In r (drop_dup_aux seen l) <->
  ~ In (fst r) seen /\ first_of_its_time r l.
Proof.
  induction l as [|x t IH]; intros seen r; simpl.
  - split; [intros []|]. intros [_ [b [a [E _]]]]. destruct b; discriminate.
  - destruct (existsb (Z.eqb (fst x)) seen) eqn:E.
    + apply existsb_eqb in E. rewrite IH. split; intros [H1 [b [a [E2 H2]]]]; (split; [exact H1|]).
      * exists (x :: b), a. rewrite E2. split; [reflexivity|]. simpl.
        intros [Heq|Hin]; [rewrite <- Heq in H1; contradiction|contradiction].
      * destruct b as [|y b]; simpl in E2; injection E2 as Ex Et.
        -- subst. contradiction.
        -- exists b, a. split; [exact Et|]. simpl in H2. tauto.
    + assert (~ In (fst x) seen) as Nin.
      { intros Hc. apply existsb_eqb in Hc. rewrite Hc in E. discriminate. }
      simpl. rewrite IH. split.
      * intros [<-|[H1 [b [a [E2 H2]]]]].
        -- split; [exact Nin|]. exists [], t. simpl. auto.
        -- simpl in H1. split; [tauto|]. exists (x :: b), a. rewrite E2. split; [reflexivity|].
           simpl. intros [Heq|Hin]; tauto.
      * intros [H1 [b [a [E2 H2]]]]. destruct b as [|y b]; simpl in E2; injection E2 as Ex Et.
        -- left. exact Ex.
        -- right. simpl in H2. split.
           ++ simpl. subst y. intros [Heq|Hin]; tauto.
           ++ exists b, a. split; [exact Et|]. tauto.
Qed.
Lemma drop_dup_in {A} (l : list (Z * A)) r : In r (drop_dup l) <-> first_of_its_time r l.
Proof. unfold drop_dup. rewrite drop_dup_aux_in. simpl. tauto. Qed.

Lemma drop_dup_aux_nodup {A} (l : list (Z * A)) : forall seen, NoDup (map fst (drop_dup_aux seen l)).
Proof.
  induction l as [|x t IH]; intros seen; simpl; [constructor|].
  destruct (existsb (Z.eqb (fst x)) seen) eqn:E; [apply IH|]. simpl. constructor; [|apply IH].
  intros H. apply in_map_iff in H. destruct H as [r [E2 Hr]].
  apply drop_dup_aux_in in Hr. simpl in Hr. destruct Hr as [Hr _]. apply Hr. left. congruence.
Qed.
Lemma drop_dup_aux_sub {A} (l : list (Z * A)) : forall seen, subsequence (drop_dup_aux seen l) l.
Proof.
  induction l as [|x t IH]; intros seen; simpl; [constructor|].
  destruct (existsb (Z.eqb (fst x)) seen); constructor; apply IH.
Qed.

(** every time stamp of the input is still there *)
Lemma first_exists {A} (l : list (Z * A)) t : In t (map fst l) ->
  exists r, fst r = t /\ first_of_its_time r l.
Proof.
  induction l as [|x l IH]; simpl; [intros []|].
  intros H. destruct (Z.eq_dec (fst x) t) as [E|N].
  - exists x. split; [exact E|]. exists [], l. simpl. auto.
  - destruct H as [H|H]; [contradiction|]. destruct (IH H) as [r [E [b [a [E2 H2]]]]].
    exists r. split; [exact E|]. exists (x :: b), a. rewrite E2. split; [reflexivity|].
    simpl. rewrite E in *. intros [?|?]; contradiction.
Qed.

(** *** C24 *)
Lemma c24_sorted {A} (l : list (Z * A)) :
  in_time_order (rows (of_rows true false l)) /\ Permutation l (rows (of_rows true false l)).
Proof. simpl. split; [apply sort_rows_sorted|apply sort_rows_perm]. Qed.

Lemma c24_dedup {A} (l : list (Z * A)) :
  let s := rows (of_rows true true l) in
  strictly_in_time_order s
  /\ (forall r, In r s <-> first_of_its_time r l)
  /\ (forall t, In t (map fst s) <-> In t (map fst l)).
Proof.
  cbv zeta. simpl.
  assert (forall r, In r (sort_rows (drop_dup l)) <-> first_of_its_time r l) as HI.
  { intros r. rewrite <- drop_dup_in. split; intros H.
    - eapply Permutation_in; [apply Permutation_sym, sort_rows_perm|exact H].
    - eapply Permutation_in; [apply sort_rows_perm|exact H]. }
  split; [|split; [exact HI|]].
  - apply sorted_nodup_strict; [apply sort_rows_sorted|].
    eapply Permutation_NoDup; [apply Permutation_map, sort_rows_perm|]. apply drop_dup_aux_nodup.
  - intros t. split; intros H.
    + apply in_map_iff in H. destruct H as [r [E Hr]]. apply HI in Hr.
      destruct Hr as [b [a [E2 _]]]. subst. apply in_map. apply in_or_app. right. left. reflexivity.
    + destruct (first_exists l t H) as [r [E Hr]]. subst t. apply in_map, HI, Hr.
Qed.

Lemma c24_unsorted {A} (l : list (Z * A)) :
  rows (of_rows false false l) = l
  /\ subsequence (rows (of_rows false true l)) l
  /\ (forall r, In r (rows (of_rows false true l)) <-> first_of_its_time r l)
  /\ NoDup (map fst (rows (of_rows false true l))).
Proof.
  simpl. split; [reflexivity|]. split; [apply drop_dup_aux_sub|].
  split; [intros r; apply drop_dup_in|apply drop_dup_aux_nodup].
Qed.

Lemma c24_columns {A} sort drop (t : list Z) (v : list A) :
  (length t = length v ->
   exists s, of_columns sort drop t v = Some s
     /\ (drop = false -> length (rows s) = length t)
     /\ (forall i dz dv, (i < length t)%nat -> drop = false -> In (nth i t dz, nth i v dv) (rows s)))
  /\ (length t <> length v -> of_columns sort drop t v = None).
Proof.
  unfold of_columns. split; intros H.
  - apply Nat.eqb_eq in H as H'. rewrite H'. eexists. split; [reflexivity|]. split.
    + intros ->. simpl. destruct sort.
      * rewrite <- (Permutation_length (sort_rows_perm _)), combine_length. lia.
      * rewrite combine_length. lia.
    + intros i dz dv Hi ->. simpl.
      assert (In (nth i t dz, nth i v dv) (combine t v)) as Hin.
      { rewrite <- combine_nth by exact H. apply nth_In. rewrite combine_length. lia. }
      destruct sort; [|exact Hin]. eapply Permutation_in; [apply sort_rows_perm|exact Hin].
  - apply Nat.eqb_neq in H. rewrite H. reflexivity.
Qed.

(** ** extend *)
Definition wf_frame (f : frame) : Prop :=
  NoDup (fcols f) /\ Forall (fun r => length (snd r) = length (fcols f)) (frows f).

Lemma column_value_absent cols v c : ~ In c cols -> column_value cols v c = None.
Proof.
  revert v. induction cols as [|c' cs IH]; intros [|x v] H; try reflexivity. simpl.
  destruct (Nat.eqb_spec c c') as [->|]; [exfalso; apply H; left; reflexivity|].
  apply IH. intros Hc. apply H. right. exact Hc.
Qed.
Lemma column_value_map (f : nat -> option Q) cols c :
  In c cols -> column_value cols (map f cols) c = f c.
Proof.
  induction cols as [|c' cs IH]; intros H; [destruct H|]. simpl.
  destruct (Nat.eqb_spec c c') as [->|N]; [reflexivity|].
  destruct H as [->|H]; [contradiction|]. apply IH, H.
Qed.
Lemma concat_cols_in a b c : In c (concat_cols a b) <-> In c a \/ In c b.
Proof.
  unfold concat_cols. rewrite in_app_iff, filter_In. split; [tauto|].
  intros [H|H]; [tauto|]. destruct (existsb (Nat.eqb c) a) eqn:E.
  - left. apply existsb_exists in E. destruct E as [y [Hy E]]. apply Nat.eqb_eq in E. subst. exact Hy.
  - right. auto.
Qed.
Lemma column_value_concat a b v c :
  (In c a \/ In c b) -> forall cols, In cols [a; b] ->
  column_value (concat_cols a b) (map (column_value cols v) (concat_cols a b)) c = column_value cols v c.
Proof. intros H cols _. apply column_value_map, concat_cols_in, H. Qed.

Lemma c25_concat infer self other validate :
  let f := snd (extend infer self other validate) in
  length (frows f) = (length (frows self) + length (frows other))%nat
  /\ (forall c, In c (fcols f) <-> In c (fcols self) \/ In c (fcols other))
  /\ (forall i d, (i < length (frows self))%nat ->
        fst (nth i (frows f) d) = fst (nth i (frows self) d)
        /\ forall c, In c (fcols f) ->
             column_value (fcols f) (snd (nth i (frows f) d)) c
             = column_value (fcols self) (snd (nth i (frows self) d)) c)
  /\ (forall i d, (i < length (frows other))%nat ->
        fst (nth (length (frows self) + i) (frows f) d) = fst (nth i (frows other) d)
        /\ forall c, In c (fcols f) ->
             column_value (fcols f) (snd (nth (length (frows self) + i) (frows f) d)) c
             = column_value (fcols other) (snd (nth i (frows other) d)) c).
Proof.
  cbv zeta. unfold extend, concat_frames. cbn [snd frows fcols].
  set (cols := concat_cols _ _).
  set (lay := fun fr : frame => fun r : Z * list (option Q) => (fst r, map (column_value (fcols fr) (snd r)) cols)).
  change (map (fun r => (fst r, map (column_value (fcols self) (snd r)) cols)) (frows self))
    with (map (lay self) (frows self)).
  change (map (fun r => (fst r, map (column_value (fcols other) (snd r)) cols)) (frows other))
    with (map (lay other) (frows other)).
  split; [rewrite app_length, !map_length; reflexivity|].
  split; [intros c; apply concat_cols_in|]. split.
  - intros i d Hi. rewrite app_nth1 by (rewrite map_length; exact Hi).
    rewrite (nth_indep _ d (lay self d)) by (rewrite map_length; exact Hi). rewrite map_nth.
    split; [reflexivity|]. intros c Hc. cbn [lay snd]. apply column_value_map, Hc.
  - intros i d Hi. rewrite app_nth2 by (rewrite map_length; lia).
    rewrite map_length. replace (length (frows self) + i - length (frows self))%nat with i by lia.
    rewrite (nth_indep _ d (lay other d)) by (rewrite map_length; exact Hi). rewrite map_nth.
    split; [reflexivity|]. intros c Hc. cbn [lay snd]. apply column_value_map, Hc.
Qed.

Lemma column_value_self cols v :
  NoDup cols -> length v = length cols -> map (column_value cols v) cols = v.
Proof.
  revert v. induction cols as [|c cs IH]; intros [|x v] N H; try discriminate; [reflexivity|].
  inversion N; subst. simpl. rewrite Nat.eqb_refl. f_equal.
  transitivity (map (column_value cs v) cs); [|apply IH; [assumption|simpl in H; lia]].
  apply map_ext_in. intros c' Hc'. destruct (Nat.eqb_spec c' c) as [->|]; [contradiction|reflexivity].
Qed.
Lemma filter_none {A} (f : A -> bool) l : (forall x, In x l -> f x = false) -> filter f l = [].
Proof.
  induction l as [|x t IH]; simpl; intros H; [reflexivity|].
  rewrite (H x) by auto. apply IH. intros; apply H; auto.
Qed.
Lemma c25_same_columns infer self other validate :
  wf_frame self -> wf_frame other -> fcols other = fcols self ->
  snd (extend infer self other validate) = MkFrame (fcols self) (frows self ++ frows other).
Proof.
  intros [N1 W1] [N2 W2] E. unfold extend, concat_frames. cbn [snd].
  assert (concat_cols (fcols self) (fcols other) = fcols self) as Ec.
  { unfold concat_cols. rewrite E, filter_none, app_nil_r; [reflexivity|].
    intros x Hx. rewrite (proj2 (existsb_exists _ _)); [reflexivity|].
    exists x. rewrite Nat.eqb_refl. auto. }
  rewrite Ec. f_equal. f_equal.
  - transitivity (map (fun r => r) (frows self)); [|apply map_id].
    apply map_ext_in. intros [t v] H. rewrite Forall_forall in W1. specialize (W1 _ H).
    simpl in *. rewrite column_value_self by assumption. reflexivity.
  - transitivity (map (fun r => r) (frows other)); [|apply map_id].
    apply map_ext_in. intros [t v] H. rewrite Forall_forall in W2. specialize (W2 _ H).
    simpl in *. rewrite <- E. rewrite column_value_self by assumption. reflexivity.
Qed.
Lemma c25_validation infer self other :
  (fst (extend infer self other true) = true
   <-> infer (map fst (frows self) ++ map fst (frows other)) = true)
  /\ fst (extend infer self other false) = true.
Proof.
  split; [|reflexivity]. unfold extend, concat_frames. cbn [fst frows].
  rewrite map_app, !map_map. cbn [fst]. reflexivity.
Qed.
(** a rejected extension has already changed the receiver *)
Lemma c25_rejected_changes infer self other :
  frows other <> [] -> snd (extend infer self other true) <> self.
Proof.
  intros H E. pose proof (c25_concat infer self other true) as [L _]. rewrite E in L.
  destruct (frows other); [congruence|]. simpl in L. lia.
Qed.

(** ** slicing and excluding *)
Lemma py_slice_sub_sorted {A} (l : list (Z * A)) n m :
  in_time_order l -> in_time_order (firstn n (skipn m l)).
Proof.
  unfold in_time_order. intros H. rewrite <- (firstn_skipn m l) in H. rewrite map_app in H.
  assert (forall a b, StronglySorted Z.le (a ++ b) -> StronglySorted Z.le a /\ StronglySorted Z.le b) as S.
  { clear. induction a as [|x a IH]; simpl; intros b H; [split; [constructor|exact H]|].
    inversion H as [|? ? H1 H2]; subst. destruct (IH _ H1) as [Ha Hb]. split; [|exact Hb].
    constructor; [exact Ha|]. apply Forall_app in H2. tauto. }
  apply S in H. destruct H as [_ H]. rewrite <- (firstn_skipn n (skipn m l)), map_app in H.
  apply S in H. tauto.
Qed.
Lemma getitem_sorted {A} (s : series A) a b :
  in_time_order (rows s) -> rows (getitem s a b) = py_slice (rows s) a b.
Proof.
  intros H. unfold getitem, of_rows. cbn [rows]. apply sort_rows_id.
  unfold py_slice. apply py_slice_sub_sorted, H.
Qed.
Lemma c26_slice {A} (s : series A) a b :
  in_time_order (rows s) -> 0 <= a -> a <= b -> b <= Z.of_nat (length (rows s)) ->
  rows (getitem s (Some a) (Some b)) = firstn (Z.to_nat (b - a)) (skipn (Z.to_nat a) (rows s)).
Proof. intros H H1 H2 H3. rewrite getitem_sorted by exact H. apply py_slice_in; assumption. Qed.
Lemma c26_split {A} (s : series A) k :
  in_time_order (rows s) ->
  rows (getitem s None (Some k)) ++ rows (getitem s (Some k) None) = rows s.
Proof. intros H. rewrite !getitem_sorted by exact H. apply py_slice_split. Qed.
Lemma c26_last {A} (s : series A) n :
  in_time_order (rows s) -> 0 < n <= Z.of_nat (length (rows s)) ->
  rows (getitem s (Some (- n)) None) = skipn (length (rows s) - Z.to_nat n) (rows s).
Proof.
  intros H Hn. rewrite getitem_sorted by exact H. unfold py_slice, norm_idx.
  destruct (Z.ltb_spec (- n) 0); [|lia].
  replace (Z.to_nat (Z.max 0 (- n + Z.of_nat (length (rows s)))))
    with (length (rows s) - Z.to_nat n)%nat by lia.
  apply firstn_all2. rewrite skipn_length. lia.
Qed.
Lemma c26_any_slice {A} (s : series A) a b :
  Permutation (py_slice (rows s) a b) (rows (getitem s a b)) /\ in_time_order (rows (getitem s a b)).
Proof. split; [apply sort_rows_perm|apply sort_rows_sorted]. Qed.

Lemma filter_sorted {A} (f : Z * A -> bool) l : in_time_order l -> in_time_order (filter f l).
Proof.
  unfold in_time_order. induction l as [|x t IH]; simpl; intros H; [constructor|].
  inversion H as [|? ? H1 H2]; subst. destruct (f x); [|apply IH, H1]. simpl. constructor; [apply IH, H1|].
  apply Forall_forall. intros y Hy. apply in_map_iff in Hy. destruct Hy as [r [<- Hr]].
  apply filter_In in Hr. rewrite Forall_forall in H2. apply H2. apply in_map, Hr.
Qed.
Lemma filter_subsequence {A} (f : A -> bool) l : subsequence (filter f l) l.
Proof. induction l as [|x t IH]; simpl; [constructor|]. destruct (f x); constructor; exact IH. Qed.
Lemma exclude_pred {A} (r : Z * A) start stop :
  (fst r <? start) || (stop <? fst r) = negb ((start <=? fst r) && (fst r <=? stop)).
Proof.
  destruct (Z.ltb_spec (fst r) start), (Z.ltb_spec stop (fst r)),
    (Z.leb_spec start (fst r)), (Z.leb_spec (fst r) stop); simpl; try reflexivity; lia.
Qed.
Lemma c26_exclude {A} (s : series A) start stop :
  (sort_flag s = true -> in_time_order (rows s)) ->
  rows (exclude s start stop)
  = filter (fun r => negb ((start <=? fst r) && (fst r <=? stop))) (rows s).
Proof.
  intros H. unfold exclude, of_rows. cbn [rows].
  rewrite (filter_ext _ (fun r => negb ((start <=? fst r) && (fst r <=? stop))))
    by (intros r; apply exclude_pred).
  destruct (sort_flag s); [|reflexivity]. apply sort_rows_id, filter_sorted, H. reflexivity.
Qed.
Lemma c26_exclude_rows {A} (s : series A) start stop r :
  In r (rows (exclude s start stop)) <-> In r (rows s) /\ ~ (start <= fst r <= stop).
Proof.
  unfold exclude, of_rows. cbn [rows].
  assert (In r (filter (fun r : Z * A => (fst r <? start) || (stop <? fst r)) (rows s))
          <-> In r (rows s) /\ ~ (start <= fst r <= stop)) as E.
  { rewrite filter_In, exclude_pred, negb_true_iff, andb_false_iff, !Z.leb_gt.
    split; intros [? ?]; (split; [assumption|lia]). }
  rewrite <- E. destruct (sort_flag s); [|reflexivity].
  split; intros H; eapply Permutation_in; try exact H;
    [apply Permutation_sym|]; apply sort_rows_perm.
Qed.

(** ** arithmetic *)
Lemma merge_in l1 l2 t a b :
  In (t, (a, b)) (merge_on_time l1 l2) <-> In (t, a) l1 /\ In (t, b) l2.
Proof.
  unfold merge_on_time. rewrite in_flat_map. split.
  - intros [[t1 a1] [H1 H2]]. apply in_map_iff in H2. destruct H2 as [[t2 b2] [E H2]].
    apply filter_In in H2. destruct H2 as [H2 E2]. simpl in *. apply Z.eqb_eq in E2.
    injection E as -> -> ->. subst t2. split; assumption.
  - intros [H1 H2]. exists (t, a). split; [exact H1|]. apply in_map_iff. exists (t, b).
    split; [reflexivity|]. apply filter_In. simpl. rewrite Z.eqb_refl. auto.
Qed.
Lemma filter_key_single l t b : NoDup (map fst l) -> In (t, b) l ->
  filter (fun r : Z * option Q => fst r =? t) l = [(t, b)].
Proof.
  induction l as [|[t' b'] l IH]; intros N H; [destruct H|]. simpl in *. inversion N; subst.
  destruct (Z.eqb_spec t' t) as [->|Ne].
  - destruct H as [H|H].
    + rewrite H. f_equal. apply filter_none. intros [t2 b2] Hx. simpl. apply Z.eqb_neq. intros ->.
      match goal with h : ~ _ |- _ => apply h end. apply (in_map fst) in Hx. exact Hx.
    + exfalso. match goal with h : ~ _ |- _ => apply h end. apply (in_map fst) in H. exact H.
  - destruct H as [H|H]; [congruence|]. apply IH; assumption.
Qed.
(** merging on unique common keys pairs the rows *)
Lemma merge_aligned l1 : forall full l2,
  NoDup (map fst full) -> map fst l1 = map fst l2 -> (forall r, In r l2 -> In r full) ->
  merge_on_time l1 full = map (fun p => (fst (fst p), (snd (fst p), snd (snd p)))) (combine l1 l2).
Proof.
  unfold merge_on_time. induction l1 as [|[t a] l1 IH]; intros full [|[t2 b] l2] N E Hin; try discriminate; [reflexivity|].
  simpl in E. injection E as -> E. simpl.
  rewrite (filter_key_single full t2 b N) by (apply Hin; left; reflexivity).
  simpl. f_equal. apply IH; [exact N|exact E|]. intros; apply Hin; right; assumption.
Qed.
Lemma map_combine_ext {A B C} (f g : A * B -> C) l : (forall x, f x = g x) -> map f l = map g l.
Proof. intros H; apply map_ext; exact H. Qed.

Lemma combine_times l1 l2 : map fst l1 = map fst l2 ->
  map (fun p : (Z * option Q) * (Z * option Q) => fst (fst p)) (combine l1 l2) = map fst l1.
Proof.
  revert l2. induction l1 as [|x l1 IH]; intros [|y l2] E; try discriminate; [reflexivity|].
  simpl in *. injection E as _ E. f_equal. apply IH, E.
Qed.
Lemma strict_nodup (l : list Z) : StronglySorted Z.lt l -> NoDup l.
Proof.
  induction 1 as [|x l H IH F]; constructor; [|exact IH].
  intros Hin. rewrite Forall_forall in F. specialize (F x Hin). lia.
Qed.
Lemma strict_le (l : list Z) : StronglySorted Z.lt l -> StronglySorted Z.le l.
Proof.
  induction 1 as [|x l H IH F]; constructor; [exact IH|]. eapply Forall_impl; [|exact F]. intros; lia.
Qed.

Lemma lift2_expected o a b : lift2 (arith_op o) a b = expected_cell o a b.
Proof. destruct a, b, o; reflexivity. Qed.
Lemma c27_series o s1 s2 :
  strictly_in_time_order (urows s1) -> map fst (urows s1) = map fst (urows s2) -> uname s1 = uname s2 ->
  exists f, perform_op o s1 (Series s2) = Some f
    /\ fcols f = [uname s1]
    /\ map fst (frows f) = map fst (urows s1)
    /\ forall i d1 d2 d, (i < length (urows s1))%nat ->
        snd (nth i (frows f) d)
        = [expected_cell o (snd (nth i (urows s1) d1)) (snd (nth i (urows s2) d2))].
Proof.
  intros Hs E En. unfold perform_op, other_arg.
  destruct (list_eq_dec Z.eq_dec (map fst (urows s1)) (map fst (urows s2))) as [_|]; [|contradiction].
  rewrite En, Nat.eqb_refl. eexists. split; [reflexivity|]. cbn [fcols frows]. split; [reflexivity|].
  rewrite (merge_aligned _ _ (urows s2)); [|rewrite <- E; apply strict_nodup, Hs|exact E|auto].
  rewrite map_map. cbn [fst snd].
  rewrite sort_rows_id.
  2:{ unfold in_time_order. rewrite map_map. cbn [fst]. rewrite combine_times by exact E.
      apply strict_le, Hs. }
  split.
  - rewrite map_map. cbn [fst]. apply combine_times, E.
  - intros i d1 d2 d Hi.
    assert (length (urows s1) = length (urows s2)) as L.
    { rewrite <- (map_length fst (urows s1)), E, map_length. reflexivity. }
    set (g := fun x : Z * option Q * (Z * option Q) => (fst (fst x), [lift2 (arith_op o) (snd (fst x)) (snd (snd x))])).
    rewrite (nth_indep _ d (g (d1, d2))) by (rewrite map_length, combine_length; lia).
    rewrite (map_nth g). rewrite combine_nth by exact L. unfold g. cbn [fst snd]. rewrite lift2_expected. reflexivity.
Qed.
Lemma c27_constant o s c :
  strictly_in_time_order (urows s) ->
  exists f, perform_op o s (Const c) = Some f
    /\ fcols f = [uname s]
    /\ map fst (frows f) = map fst (urows s)
    /\ forall i d1 d, (i < length (urows s))%nat ->
        snd (nth i (frows f) d) = [expected_cell o (snd (nth i (urows s) d1)) (Some c)].
Proof.
  intros Hs.
  set (s2 := MkU (uname s) (map (fun r => (fst r, Some c)) (urows s))).
  destruct (c27_series o s s2) as [f [E [E1 [E2 E3]]]]; [exact Hs| |reflexivity|].
  { simpl. rewrite map_map. reflexivity. }
  assert (perform_op o s (Const c) = perform_op o s (Series s2)) as EQ.
  { unfold perform_op, other_arg.
    destruct (list_eq_dec Z.eq_dec (map fst (urows s)) (map fst (urows s2))) as [_|N].
    - cbn [uname urows rows of_rows]. rewrite (sort_rows_id (map (fun r => (fst r, Some c)) (urows s))); [reflexivity|].
      unfold in_time_order. rewrite map_map. cbn [fst]. apply strict_le, Hs.
    - exfalso. apply N. simpl. rewrite map_map. reflexivity. }
  exists f. rewrite EQ. split; [exact E|]. split; [exact E1|]. split; [exact E2|].
  intros i d1 d Hi. rewrite (E3 i d1 (fst d1, Some c) d Hi). f_equal. simpl.
  rewrite (map_nth (fun r : Z * option Q => (fst r, Some c))). reflexivity.
Qed.
Lemma c27_rejects o s1 s2 :
  map fst (urows s1) <> map fst (urows s2) -> perform_op o s1 (Series s2) = None.
Proof.
  intros H. unfold perform_op, other_arg.
  destruct (list_eq_dec Z.eq_dec (map fst (urows s1)) (map fst (urows s2))); [contradiction|reflexivity].
Qed.
(** the column names differ: every value is lost *)
Lemma c27_other_name o s1 s2 f :
  uname s1 <> uname s2 -> perform_op o s1 (Series s2) = Some f ->
  fcols f = [uname s1; uname s2] /\ forall r, In r (frows f) -> snd r = [None; None].
Proof.
  intros N. unfold perform_op. destruct (other_arg s1 (Series s2)) as [oth|] eqn:E; [|discriminate].
  assert (oth = s2) as ->.
  { unfold other_arg in E. destruct (list_eq_dec _ _ _); congruence. }
  apply Nat.eqb_neq in N. rewrite N. intros H. injection H as <-. split; [reflexivity|].
  cbn [frows]. intros r Hr.
  apply (Permutation_in _ (Permutation_sym (sort_rows_perm _))) in Hr.
  apply in_map_iff in Hr. destruct Hr as [x [<- _]]. reflexivity.
Qed.

(** ** frequency *)
Lemma occ_diffs g l : occ g (diffs l) = gap_count g l.
Proof.
  induction l as [|x t IH]; [reflexivity|]. destruct t as [|y t]; [reflexivity|].
  change (diffs (x :: y :: t)) with ((y - x) :: diffs (y :: t)).
  change (gap_count g (x :: y :: t)) with ((if Z.eqb (y - x) g then 1 else 0) + gap_count g (y :: t))%nat.
  rewrite <- IH. unfold occ. simpl.
  destruct (Z.eq_dec (y - x) g) as [E|E]; destruct (Z.eqb_spec (y - x) g); simpl; try reflexivity; contradiction.
Qed.
Lemma diffs_gap g l : In g (diffs l) -> neighbour_gap g l.
Proof.
  induction l as [|x t IH]; [intros []|]. destruct t as [|y t]; [intros []|].
  change (diffs (x :: y :: t)) with ((y - x) :: diffs (y :: t)). intros [<-|H].
  - exists [], x, y, t. auto.
  - destruct (IH H) as [b [u [v [a [E Eg]]]]]. exists (x :: b), u, v, a. rewrite E. auto.
Qed.
Lemma mode_from_spec l cand : forall best,
  let m := mode_from l cand best in
  In m (best :: cand)
  /\ forall h, In h (best :: cand) -> (occ h l < occ m l)%nat \/ (occ h l = occ m l /\ m <= h).
Proof.
  induction cand as [|x t IH]; intros best; cbv zeta; simpl.
  - split; [auto|]. intros h [<-|[]]. right. split; [reflexivity|lia].
  - destruct (Nat.ltb (occ best l) (occ x l) || (Nat.eqb (occ best l) (occ x l) && (x <? best))) eqn:E.
    + destruct (IH x) as [H1 H2]. cbv zeta in *. split; [right; exact H1|].
      intros h [<-|H]; [|apply H2; exact H].
      pose proof (H2 x (or_introl eq_refl)) as Hx.
      apply orb_true_iff in E. destruct E as [E|E].
      * apply Nat.ltb_lt in E. left. lia.
      * apply andb_true_iff in E. destruct E as [E1 E2]. apply Nat.eqb_eq in E1. apply Z.ltb_lt in E2. lia.
    + destruct (IH best) as [H1 H2]. cbv zeta in *. split.
      * destruct H1 as [H1|H1]; auto.
      * intros h [<-|[<-|H]]; [apply H2; left; reflexivity| |apply H2; right; exact H].
        pose proof (H2 best (or_introl eq_refl)) as Hb.
        apply orb_false_iff in E. destruct E as [E1 E2]. apply Nat.ltb_ge in E1.
        apply andb_false_iff in E2. destruct E2 as [E2|E2].
        -- apply Nat.eqb_neq in E2. left. lia.
        -- apply Z.ltb_ge in E2. lia.
Qed.
Lemma diffs_length l : length (diffs l) = (length l - 1)%nat.
Proof. induction l as [|x t IH]; [reflexivity|]. destruct t as [|y t]; [reflexivity|].
  change (length (diffs (x :: y :: t))) with (S (length (diffs (y :: t)))). rewrite IH. simpl. lia. Qed.

Lemma mode0_spec l g : mode0 (diffs l) = Some g ->
  neighbour_gap g l /\
  forall h, (gap_count h l < gap_count g l)%nat \/ (gap_count h l = gap_count g l /\ g <= h).
Proof.
  unfold mode0. destruct (diffs l) as [|x t] eqn:E; [discriminate|]. intros H. injection H as <-.
  pose proof (mode_from_spec (x :: t) t x) as [H1 H2]. cbv zeta in *.
  set (m := mode_from (x :: t) t x) in *. split.
  - apply diffs_gap. rewrite E. exact H1.
  - intros h. rewrite <- !occ_diffs, E. destruct (in_dec Z.eq_dec h (x :: t)) as [Hin|Hn].
    + apply H2, Hin.
    + left. assert (occ h (x :: t) = O) as -> by (apply count_occ_not_In, Hn).
      apply count_occ_In, H1.
Qed.
Lemma perm_sorted_eq : forall a b : list Z, Permutation a b -> StronglySorted Z.le a -> StronglySorted Z.le b -> a = b.
Proof.
  induction a as [|x a IH]; intros b P Ha Hb.
  - apply Permutation_nil in P. auto.
  - destruct b as [|y b]; [apply Permutation_sym, Permutation_nil in P; discriminate|].
    inversion Ha as [|? ? Ha1 Ha2]; inversion Hb as [|? ? Hb1 Hb2]; subst.
    assert (x = y) as <-.
    { assert (In x (y :: b)) as Hx by (eapply Permutation_in; [exact P|left; reflexivity]).
      assert (In y (x :: a)) as Hy by (eapply Permutation_in; [apply Permutation_sym, P|left; reflexivity]).
      rewrite Forall_forall in *. destruct Hx as [Hx|Hx]; [auto|]. destruct Hy as [Hy|Hy]; [auto|].
      specialize (Ha2 _ Hy). specialize (Hb2 _ Hx). lia. }
    f_equal. apply IH; [eapply Permutation_cons_inv; exact P|assumption|assumption].
Qed.
Lemma c28_robust {A} (s : series A) (sorted : list Z) :
  (sort_flag s = true -> in_time_order (rows s)) ->
  Permutation (map fst (rows s)) sorted -> StronglySorted Z.le sorted ->
  match infer_freq_robust s with
  | None => (length (rows s) <= 1)%nat
  | Some g => neighbour_gap g sorted /\
      (forall h, (gap_count h sorted < gap_count g sorted)%nat
                 \/ (gap_count h sorted = gap_count g sorted /\ g <= h))
  end.
Proof.
  intros Hs P S. unfold infer_freq_robust. destruct (Nat.leb_spec (length (rows s)) 1) as [L|L]; [exact L|].
  set (l := if sort_flag s then times s else map fst (sort_rows (rows s))).
  assert (l = sorted) as El.
  { apply perm_sorted_eq; [|unfold l|exact S].
    - eapply perm_trans; [|exact P]. unfold l, times. destruct (sort_flag s); [reflexivity|].
      apply Permutation_map, Permutation_sym, sort_rows_perm.
    - destruct (sort_flag s); [apply Hs; reflexivity|]. apply sort_rows_sorted. }
  rewrite El. destruct (mode0 (diffs sorted)) as [g|] eqn:E; [apply mode0_spec, E|].
  exfalso. unfold mode0 in E. destruct (diffs sorted) eqn:Ed; [|discriminate].
  pose proof (diffs_length sorted) as D. rewrite Ed in D. simpl in D.
  pose proof (Permutation_length P) as PL. rewrite map_length in PL. lia.
Qed.
(** more than half of the gaps decide *)
Lemma gap_count_two g h l : g <> h -> (gap_count g l + gap_count h l <= length l - 1)%nat.
Proof.
  intros N. induction l as [|x t IH]; [simpl; lia|]. destruct t as [|y t]; [simpl; lia|].
  change (gap_count g (x :: y :: t)) with ((if Z.eqb (y - x) g then 1 else 0) + gap_count g (y :: t))%nat.
  change (gap_count h (x :: y :: t)) with ((if Z.eqb (y - x) h then 1 else 0) + gap_count h (y :: t))%nat.
  destruct (Z.eqb_spec (y - x) g), (Z.eqb_spec (y - x) h); simpl in *; lia.
Qed.
Lemma c28_majority {A} (s : series A) (sorted : list Z) g :
  (sort_flag s = true -> in_time_order (rows s)) ->
  Permutation (map fst (rows s)) sorted -> StronglySorted Z.le sorted ->
  (length sorted - 1 < 2 * gap_count g sorted)%nat ->
  infer_freq_robust s = Some g.
Proof.
  intros Hs P S M. pose proof (c28_robust s sorted Hs P S) as H.
  destruct (infer_freq_robust s) as [g'|] eqn:E.
  - destruct H as [_ H]. destruct (Z.eq_dec g' g) as [->|N]; [reflexivity|].
    specialize (H g). pose proof (gap_count_two g' g sorted N). lia.
  - pose proof (Permutation_length P) as PL. rewrite map_length in PL.
    destruct sorted as [|x [|y t]]; simpl in *; lia.
Qed.
