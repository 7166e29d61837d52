(** C204 (splitting a dataset), C205 (preprocessing), C206 (padding) of the global model — proofs and theorems. *)
From Coq Require Import List Bool Arith ZArith QArith Lia.
From Verif Require Import GmFillModel GmFillProofs.
From Verif Require GmBatchModel.
Import ListNotations.
Open Scope nat_scope.

(** ** Splitting *)
Section Split.
Context {V : Type}.
Implicit Types train : list (nat * V).
Lemma lookup_in (d : list (nat * V)) k v : NoDup (map fst d) -> In (k, v) d -> lookup d k = Some v.
Proof.
  unfold lookup. induction d as [|[k' v'] d IH]; intros ND H; [contradiction |]. inversion ND as [|? ? N1 N2]; subst. cbn [find fst].
  destruct H as [H|H].
  - injection H as -> ->. rewrite Nat.eqb_refl. reflexivity.
  - destruct (k' =? k) eqn:E; [| auto]. apply Nat.eqb_eq in E. subst k'. exfalso. apply N1. cbn. change k with (fst (k, v)). apply in_map. exact H.
Qed.
Lemma pick_sub (d sub : list (nat * V)) : NoDup (map fst d) -> incl sub d -> pick d (map fst sub) = Some sub.
Proof.
  intros ND. induction sub as [|[k v] sub IH]; intros I; [reflexivity |]. cbn.
  rewrite (lookup_in d k v ND) by (apply I; left; reflexivity). rewrite IH by (intros x Hx; apply I; right; exact Hx). reflexivity.
Qed.
Lemma pick_keys (d : list (nat * V)) : forall ks, (forall k, In k ks -> In k (map fst d)) -> exists r, pick d ks = Some r /\ map fst r = ks /\ incl r d.
Proof.
  induction ks as [|k ks IH]; intros H; [exists []; cbn; repeat split; intros x [] |].
  destruct IH as [r [R1 [R2 R3]]]; [intros; apply H; right; assumption |].
  assert (L : exists v, lookup d k = Some v /\ In (k, v) d).
  { assert (I := H k (or_introl eq_refl)). clear - I. unfold lookup. induction d as [|[k' v'] d IH]; [contradiction |]. cbn in *.
    destruct (Nat.eqb_spec k' k) as [E|E]; [subst; exists v'; split; [reflexivity | left; reflexivity] |]. destruct I as [I|I]; [contradiction |].
    destruct (IH I) as [v [A B]]. eauto. }
  destruct L as [v [L1 L2]]. exists ((k, v) :: r). cbn. rewrite L1, R1, R2. repeat split.
  intros x [<-|Hx]; auto.
Qed.

Lemma keep_interval {A} (l : list A) : forall s lo hi,
  keep (map (fun p => (lo <=? p) && (p <? hi)) (seq s (length l))) l = firstn (hi - s - (lo - s)) (skipn (lo - s) l).
Proof.
  induction l as [|x l IH]; intros s lo hi; [cbn; rewrite skipn_nil, firstn_nil; reflexivity |].
  cbn [length seq map keep]. destruct (lo <=? s) eqn:E1.
  - apply Nat.leb_le in E1. destruct (s <? hi) eqn:E2; cbn [andb].
    + apply Nat.ltb_lt in E2. rewrite IH. replace (lo - s) with 0 by lia. replace (lo - S s) with 0 by lia. cbn [skipn].
      replace (hi - s - 0) with (S (hi - S s - 0)) by lia. reflexivity.
    + apply Nat.ltb_ge in E2. rewrite IH. replace (hi - s - (lo - s)) with 0 by lia. replace (hi - S s - (lo - S s)) with 0 by lia. reflexivity.
  - apply Nat.leb_gt in E1. cbn [andb]. rewrite IH. replace (lo - s) with (S (lo - S s)) by lia. cbn [skipn].
    f_equal. lia.
Qed.
Lemma keep_outside {A} (l : list A) : forall s lo hi, lo <= hi ->
  keep (map negb (map (fun p => (lo <=? p) && (p <? hi)) (seq s (length l)))) l = firstn (lo - s) l ++ skipn (hi - s) l.
Proof.
  induction l as [|x l IH]; intros s lo hi H; [cbn; rewrite skipn_nil, firstn_nil; reflexivity |].
  cbn [length seq map keep]. destruct (lo <=? s) eqn:E1.
  - apply Nat.leb_le in E1. destruct (s <? hi) eqn:E2; cbn [andb negb].
    + apply Nat.ltb_lt in E2. rewrite IH by assumption. replace (lo - s) with 0 by lia. replace (lo - S s) with 0 by lia.
      replace (hi - s) with (S (hi - S s)) by lia. reflexivity.
    + apply Nat.ltb_ge in E2. rewrite IH by assumption. replace (lo - s) with 0 by lia. replace (lo - S s) with 0 by lia.
      replace (hi - s) with 0 by lia. replace (hi - S s) with 0 by lia. reflexivity.
  - apply Nat.leb_gt in E1. cbn [andb negb]. rewrite IH by assumption. replace (lo - s) with (S (lo - S s)) by lia.
    replace (hi - s) with (S (hi - S s)) by lia. reflexivity.
Qed.
Lemma all_some_map {A B} (f : A -> option B) (g : A -> B) l : (forall x, In x l -> f x = Some (g x)) -> all_some (map f l) = Some (map g l).
Proof. induction l as [|x l IH]; intros H; [reflexivity |]. cbn. rewrite H by (left; reflexivity). rewrite IH by (intros; apply H; right; assumption). reflexivity. Qed.
End Split.

Lemma nth_map_seq n f k : k < n -> nth k (map f (seq 0 n)) 0 = f k.
Proof. intros H. rewrite (nth_indep _ 0 (f 0)) by (rewrite map_length, seq_length; exact H). rewrite map_nth, seq_nth by exact H. reflexivity. Qed.
Lemma removelast_nth {A} (l : list A) d i : S i < length l -> nth i (removelast l) d = nth i l d.
Proof. revert i. induction l as [|x [|y l] IH]; intros i H; cbn in H; try lia. destruct i as [|i]; [reflexivity |]. change (nth i (removelast (y :: l)) d = nth i (y :: l) d). apply IH. cbn. lia. Qed.
Lemma removelast_len {A} (l : list A) : length (removelast l) = length l - 1.
Proof. induction l as [|x [|y l] IH]; [reflexivity | reflexivity |]. change (S (length (removelast (y :: l))) = length (x :: y :: l) - 1). rewrite IH. cbn. lia. Qed.
Lemma separators_ok n splits : 1 <= splits -> splits <= n ->
  (forall i, i < splits -> nth i (separators n splits) 0 = i * (n / splits)) /\
  nth splits (separators n splits) 0 = if n mod splits <=? n / splits then n else splits * (n / splits).
Proof.
  intros Hs Hn. set (m := n / splits). set (r := n mod splits).
  assert (E : n = splits * m + r) by (apply Nat.div_mod; lia).
  assert (RB : r < splits) by (apply Nat.mod_upper_bound; lia).
  assert (M1 : 1 <= m) by (apply Nat.div_le_lower_bound; lia).
  unfold separators. fold m. set (c := (n + m - 1) / m).
  assert (C1 : c * m <= n + m - 1) by (unfold c; rewrite Nat.mul_comm; apply Nat.mul_div_le; lia).
  assert (C2 : n + m - 1 < c * m + m).
  { unfold c. pose proof (Nat.div_mod (n + m - 1) m ltac:(lia)) as D. pose proof (Nat.mod_upper_bound (n + m - 1) m ltac:(lia)). lia. }
  assert (CS : splits <= c) by nia.
  rewrite map_length, seq_length. destruct (c =? splits + 1) eqn:EC.
  - apply Nat.eqb_eq in EC. assert (LEN : length (removelast (map (fun k => k * m) (seq 0 c))) = splits) by (rewrite removelast_len, map_length, seq_length; lia).
    split.
    + intros i Hi. rewrite app_nth1 by lia. rewrite removelast_nth by (rewrite map_length, seq_length; lia). apply (nth_map_seq c (fun k => k * m)). lia.
    + rewrite app_nth2, LEN, Nat.sub_diag by lia. cbn. assert (R1 : r <= m) by nia. apply Nat.leb_le in R1. rewrite R1. reflexivity.
  - apply Nat.eqb_neq in EC. split.
    + intros i Hi. rewrite app_nth1 by (rewrite map_length, seq_length; lia). apply (nth_map_seq c (fun k => k * m)). lia.
    + destruct (Nat.eq_dec c splits) as [EQ|NQ].
      * rewrite app_nth2 by (rewrite map_length, seq_length; lia). rewrite map_length, seq_length, EQ, Nat.sub_diag. cbn.
        assert (R0 : r = 0) by nia. rewrite R0. reflexivity.
      * rewrite app_nth1 by (rewrite map_length, seq_length; lia). rewrite (nth_map_seq c (fun k => k * m)) by lia.
        assert (RM : m < r) by nia. apply Nat.leb_gt in RM. rewrite RM. reflexivity.
Qed.

Section SplitThm.
Context {V : Type}.
Variables (splits : nat) (train : list (nat * V)) (valid : option (list (nat * V))).
Hypothesis ND : NoDup (map fst train).
Hypothesis VK : forall v, valid = Some v -> forall k, In k (map fst train) -> In k (map fst v).
Hypothesis H1 : 1 <= splits.
Hypothesis H2 : splits <= length train.
Let n := length train.
Let m := n / splits.
Definition bound (i : nat) : nat := nth i (separators (length train) splits) 0.
Definition part (overlap : bool) (i : nat) : list (nat * V) :=
  if splits =? 1 then train else
  if overlap then firstn (bound i) train ++ skipn (bound (S i)) train else firstn (bound (S i) - bound i) (skipn (bound i) train).
Lemma m_pos : 1 <= m. Proof. unfold m, n. apply Nat.div_le_lower_bound; lia. Qed.
Lemma bound_at i : i < splits -> bound i = i * m.
Proof. apply separators_ok; assumption. Qed.
Lemma bound_last : bound splits = if n mod splits <=? m then n else splits * m.
Proof. apply separators_ok; assumption. Qed.
Lemma bound_le i : i < splits -> bound i <= bound (S i).
Proof.
  intros H. pose proof m_pos. rewrite bound_at by lia. destruct (Nat.eq_dec (S i) splits) as [E|E].
  - rewrite E, bound_last. pose proof (Nat.mul_div_le n splits ltac:(lia)). fold m in H3. destruct (_ <=? _); nia.
  - rewrite bound_at by lia. nia.
Qed.
Lemma part_incl overlap i : incl (part overlap i) train.
Proof.
  intros x. unfold part. destruct (splits =? 1); [auto |]. destruct overlap.
  - rewrite in_app_iff. intros [H|H]; [rewrite <- (firstn_skipn (bound i) train); apply in_or_app; auto | rewrite <- (firstn_skipn (bound (S i)) train); apply in_or_app; auto].
  - intros H. rewrite <- (firstn_skipn (bound i) train). apply in_or_app. right.
    rewrite <- (firstn_skipn (bound (S i) - bound i) (skipn (bound i) train)). apply in_or_app. auto.
Qed.
Lemma pick_part overlap i : exists b, pick_both train valid (map fst (part overlap i)) = Some (part overlap i, b) /\
  match valid with None => b = None | Some v => exists b', b = Some b' /\ map fst b' = map fst (part overlap i) /\ incl b' v end.
Proof.
  unfold pick_both. rewrite pick_sub by (auto using part_incl). unfold pick_valid. destruct valid as [v|] eqn:EV; [| eauto].
  destruct (pick_keys v (map fst (part overlap i))) as [r [R1 [R2 R3]]].
  { intros k Hk. apply (VK v eq_refl). apply in_map_iff in Hk. destruct Hk as [x [X1 X2]]. subst k. apply in_map. apply (part_incl overlap i). exact X2. }
  rewrite R1. exists (Some r). split; [reflexivity |]. exists r. auto.
Qed.
Lemma keys_part (overlap : bool) i : i < splits -> splits <> 1 ->
  keep (if overlap then map negb (mask n (separators n splits) i) else mask n (separators n splits) i) (map fst train) = map fst (part overlap i).
Proof.
  intros Hi NS. unfold part. apply Nat.eqb_neq in NS. rewrite NS. unfold mask.
  assert (LK : n = length (map fst train)) by (unfold n; rewrite map_length; reflexivity).
  fold n. change (nth i (separators n splits) 0) with (bound i). change (nth (S i) (separators n splits) 0) with (bound (S i)).
  rewrite LK. destruct overlap.
  - rewrite keep_outside by (apply bound_le; exact Hi). rewrite !Nat.sub_0_r, map_app, firstn_map, skipn_map. reflexivity.
  - rewrite keep_interval. rewrite !Nat.sub_0_r, skipn_map, firstn_map. reflexivity.
Qed.
Lemma split_ok overlap : exists parts, split splits overlap train valid = Some parts /\ map fst parts = map (part overlap) (seq 0 splits) /\
  forall p, In p parts -> match valid with None => snd p = None | Some v => exists b', snd p = Some b' /\ map fst b' = map fst (fst p) /\ incl b' v end.
Proof.
  assert (CH : exists g : nat -> option (list (nat * V)), forall i, pick_both train valid (map fst (part overlap i)) = Some (part overlap i, g i) /\
    match valid with None => g i = None | Some v => exists b', g i = Some b' /\ map fst b' = map fst (part overlap i) /\ incl b' v end).
  { exists (fun i => match pick_both train valid (map fst (part overlap i)) with Some p => snd p | None => None end).
    intros i. destruct (pick_part overlap i) as [b [B1 B2]]. rewrite B1. auto. }
  destruct CH as [g G]. exists (map (fun i => (part overlap i, g i)) (seq 0 splits)). split; [| split].
  - unfold split. fold n. destruct (splits =? 1) eqn:E1.
    + apply Nat.eqb_eq in E1. destruct (G 0) as [G0 _]. rewrite E1. cbn [seq map all_some]. unfold part in *. rewrite E1 in *. cbn [Nat.eqb] in *. rewrite G0. reflexivity.
    + apply Nat.eqb_neq in E1. pose proof m_pos as MP. fold m. destruct (splits =? 0) eqn:E0; [apply Nat.eqb_eq in E0; lia |].
      destruct (m =? 0) eqn:EM; [apply Nat.eqb_eq in EM; lia |]. cbn [orb].
      apply all_some_map. intros i Hi. apply in_seq in Hi. cbv zeta. rewrite keys_part by lia. apply G.
  - rewrite map_map. reflexivity.
  - intros p Hp. apply in_map_iff in Hp. destruct Hp as [i [<- _]]. cbn [fst snd]. apply G.
Qed.
Lemma blocks k : k <= splits -> splits <> 1 -> concat (map (part false) (seq 0 k)) = firstn (bound k) train.
Proof.
  intros Hk NS. induction k as [|k IH].
  - cbn. rewrite bound_at by lia. reflexivity.
  - rewrite seq_S, map_app, concat_app, IH by lia. cbn [plus map concat]. rewrite app_nil_r.
    unfold part at 1. pose proof NS as NS'. apply Nat.eqb_neq in NS'. rewrite NS'.
    pose proof (bound_le k ltac:(lia)) as L.
    rewrite <- (firstn_skipn (bound k) train) at 3. rewrite firstn_app, firstn_firstn, Nat.min_r by lia. f_equal.
    destruct (Nat.le_ge_cases (bound k) (length train)) as [B|B].
    + rewrite firstn_length, Nat.min_l by lia. reflexivity.
    + rewrite skipn_all2 by lia. rewrite !firstn_nil. reflexivity.
Qed.
End SplitThm.

(** C204: without overlap every series is in exactly one part, in order, if the remainder of the division is at most the quotient;
    the validation series of a part are those of its training series *)
Theorem C204_partial (V : Type) splits (train : list (nat * V)) valid :
  NoDup (map fst train) -> (forall v, valid = Some v -> forall k, In k (map fst train) -> In k (map fst v)) ->
  1 <= splits -> splits <= length train -> length train mod splits <= length train / splits ->
  exists parts, split splits false train valid = Some parts /\ length parts = splits /\ concat (map fst parts) = train.
Proof.
  intros ND VK H1 H2 H3. destruct (split_ok splits train valid ND VK H1 H2 false) as [parts [P1 [P2 _]]].
  exists parts. split; [exact P1 |]. split; [rewrite <- (map_length fst), P2, map_length, seq_length; reflexivity |].
  rewrite P2. destruct (Nat.eq_dec splits 1) as [->|NS]; [cbn; unfold part; cbn; apply app_nil_r |].
  rewrite blocks by (auto; lia). rewrite bound_last by assumption. apply Nat.leb_le in H3. rewrite H3. apply firstn_all.
Qed.
(** otherwise the last series, as many as the remainder, are in no part: they take no part in the training *)
Theorem C204_lost_refuted (V : Type) splits (train : list (nat * V)) valid :
  NoDup (map fst train) -> (forall v, valid = Some v -> forall k, In k (map fst train) -> In k (map fst v)) ->
  1 <= splits -> splits <= length train -> length train / splits < length train mod splits ->
  exists parts, split splits false train valid = Some parts /\
    forall k v, In (k, v) (skipn (length train - length train mod splits) train) -> forall p, In p parts -> ~ In k (map fst (fst p)).
Proof.
  intros ND VK H1 H2 H3. destruct (split_ok splits train valid ND VK H1 H2 false) as [parts [P1 [P2 _]]].
  exists parts. split; [exact P1 |].
  assert (NS : splits <> 1) by (intros ->; rewrite Nat.mod_1_r in H3; lia).
  assert (CC : concat (map fst parts) = firstn (length train - length train mod splits) train).
  { rewrite P2, blocks by (auto; lia). rewrite bound_last by assumption. pose proof H3 as H4. apply Nat.leb_gt in H4. rewrite H4. f_equal.
    pose proof (Nat.div_mod (length train) splits ltac:(lia)). lia. }
  intros k v Hk p Hp HI. rewrite <- (firstn_skipn (length train - length train mod splits) train), map_app in ND.
  assert (I1 : In k (map fst (firstn (length train - length train mod splits) train))).
  { rewrite <- CC. apply in_map_iff in HI. destruct HI as [x [X1 X2]]. subst k. apply in_map. apply in_concat. exists (fst p). split; [apply in_map; exact Hp | exact X2]. }
  assert (I2 : In k (map fst (skipn (length train - length train mod splits) train))) by (change k with (fst (k, v)); apply in_map; exact Hk).
  clear - ND I1 I2. revert ND I1. generalize (map fst (firstn (length train - length train mod splits) train)). intros l. induction l as [|x l IH]; intros ND [].
  - subst x. cbn in ND. inversion ND. apply H1. apply in_or_app. auto.
  - cbn in ND. inversion ND. auto.
Qed.
(** with overlap every part leaves out at least one series, and every series is left out of at most one part *)
Theorem C204_overlap (V : Type) splits (train : list (nat * V)) valid :
  NoDup (map fst train) -> (forall v, valid = Some v -> forall k, In k (map fst train) -> In k (map fst v)) ->
  2 <= splits -> splits <= length train ->
  exists parts, split splits true train valid = Some parts /\ length parts = splits /\
    (forall p, In p parts -> incl (fst p) train /\ length (fst p) < length train) /\
    (forall e i j p q, In e train -> nth_error parts i = Some p -> nth_error parts j = Some q -> ~ In e (fst p) -> ~ In e (fst q) -> i = j).
Proof.
  intros ND VK H1 H2. destruct (split_ok splits train valid ND VK ltac:(lia) H2 true) as [parts [P1 [P2 _]]].
  assert (LP : length parts = splits) by (rewrite <- (map_length fst), P2, map_length, seq_length; reflexivity).
  exists parts. split; [exact P1 |]. split; [exact LP |].
  assert (NS : (splits =? 1) = false) by (apply Nat.eqb_neq; lia).
  assert (PART : forall i p, nth_error parts i = Some p -> i < splits /\ fst p = firstn (bound splits train i) train ++ skipn (bound splits train (S i)) train).
  { intros i p E. assert (I : i < splits) by (rewrite <- LP; apply nth_error_Some; congruence). split; [exact I |].
    assert (E2 : nth_error (map fst parts) i = Some (fst p)) by (rewrite nth_error_map, E; reflexivity).
    rewrite P2, nth_error_map in E2. rewrite (nth_error_nth' _ 0) in E2 by (rewrite seq_length; exact I). rewrite seq_nth in E2 by exact I. cbn [option_map plus] in E2.
    injection E2 as <-. unfold part. rewrite NS. reflexivity. }
  assert (MP := m_pos splits train ltac:(lia) H2).
  assert (BL : forall i, i < splits -> bound splits train i < bound splits train (S i) <= length train).
  { intros i Hi. pose proof (Nat.div_mod (length train) splits ltac:(lia)) as D. rewrite bound_at by (auto; lia).
    destruct (Nat.eq_dec (S i) splits) as [E|E].
    - rewrite E, bound_last by (auto; lia). destruct (_ <=? _); nia.
    - rewrite bound_at by (auto; lia). nia. }
  assert (MONO : forall i j, i <= j -> j < splits -> bound splits train i <= bound splits train j) by (intros i j A B; rewrite !bound_at by (auto; lia); nia).
  split.
  - intros p Hp. apply In_nth_error in Hp. destruct Hp as [i Hi]. destruct (PART i p Hi) as [I E]. split.
    + rewrite E. intros x. rewrite in_app_iff. intros [H|H]; [rewrite <- (firstn_skipn (bound splits train i) train); apply in_or_app; auto | rewrite <- (firstn_skipn (bound splits train (S i)) train); apply in_or_app; auto].
    + rewrite E, app_length, firstn_length, skipn_length. specialize (BL i I). lia.
  - assert (AUX : forall i j p q e, i < j -> In e train -> nth_error parts i = Some p -> nth_error parts j = Some q -> ~ In e (fst p) -> ~ In e (fst q) -> False).
    { intros i j p q e L HE Ei Ej Np Nq. destruct (PART i p Ei) as [I E1]. destruct (PART j q Ej) as [J E2].
      rewrite E1 in Np. rewrite E2 in Nq.
      rewrite <- (firstn_skipn (bound splits train (S i)) train) in HE. apply in_app_iff in HE. destruct HE as [HE|HE].
      - apply Nq. apply in_or_app. left. pose proof (MONO (S i) j L J) as M.
        rewrite <- (Nat.min_l _ _ M), <- firstn_firstn in HE.
        rewrite <- (firstn_skipn (bound splits train (S i)) (firstn (bound splits train j) train)). apply in_or_app. left. exact HE.
      - apply Np. apply in_or_app. right. exact HE. }
    intros e i j p q HE Ei Ej Np Nq. destruct (Nat.lt_trichotomy i j) as [L|[L|L]]; [exfalso; eauto | exact L | exfalso; eauto].
Qed.
(** each part comes with the validation series of just its training series, or with none if there are none *)
Theorem C204_validation (V : Type) splits overlap (train : list (nat * V)) valid parts p :
  NoDup (map fst train) -> (forall v, valid = Some v -> forall k, In k (map fst train) -> In k (map fst v)) ->
  1 <= splits -> splits <= length train -> split splits overlap train valid = Some parts -> In p parts ->
  match valid with None => snd p = None | Some v => exists b, snd p = Some b /\ map fst b = map fst (fst p) /\ incl b v end.
Proof.
  intros ND VK H1 H2 E Hp. destruct (split_ok splits train valid ND VK H1 H2 overlap) as [parts' [P1 [_ P3]]].
  rewrite E in P1. injection P1 as <-. apply P3. exact Hp.
Qed.
(** the hypotheses hold: 8 series in 3 parts; of 11 series in 4 parts the last three are lost *)
Definition numbered (n : nat) : list (nat * nat) := map (fun i => (i, i * i)) (seq 0 n).
Example C204_case :
  option_map (map (fun p => map fst (fst p))) (split 3 false (numbered 8) None) = Some [[0; 1]; [2; 3]; [4; 5; 6; 7]] /\ 8 mod 3 <= 8 / 3 /\
  option_map (map (fun p => map fst (fst p))) (split 4 false (numbered 11) None) = Some [[0; 1]; [2; 3]; [4; 5]; [6; 7]] /\ 11 / 4 < 11 mod 4.
Proof. repeat split; cbn; lia. Qed.
Lemma numbered_nodup n : NoDup (map fst (numbered n)).
Proof. unfold numbered. rewrite map_map. rewrite map_id. apply seq_NoDup. Qed.

(** ** Preprocessing *)
(** C205: a series is kept exactly if it is long enough after filling its holes; it is then cut into a training and a
    validation part, nothing lost *)
Lemma pre_some p m vs freq data tr va : preprocess p m vs freq data = Some (tr, va) ->
  tr = flat_map (fun e => match fill_missing (snd e) (seasonality p) freq with
                          | Some ts => if needed p m vs <=? length ts then [(fst e, if vs then but_last (valid_length p m vs) ts else ts)] else [] | None => [] end) data /\
  va = flat_map (fun e => match fill_missing (snd e) (seasonality p) freq with
                          | Some ts => if (needed p m vs <=? length ts) && vs then [(fst e, last_part (valid_length p m vs) ts)] else [] | None => [] end) data.
Proof.
  revert tr va. induction data as [|[k ts0] data IH]; intros tr va H; [cbn in H; injection H as <- <-; auto |].
  cbn in *. destruct (fill_missing ts0 (seasonality p) freq) as [ts|]; [| discriminate].
  destruct (preprocess p m vs freq data) as [[tr1 va1]|]; [| discriminate]. destruct (IH tr1 va1 eq_refl) as [E1 E2].
  destruct (needed p m vs <=? length ts); [destruct vs |]; injection H as <- <-; cbn; rewrite <- E1, <- E2; auto.
Qed.
Theorem C205_train p freq data tr va k ts0 ts :
  let v := fcst_window p * validation_step_num p in
  let need := input_window p + fcst_window p * fcst_step_num p + min_training_step_num p * step_length p + v in
  NoDup (map fst data) -> preprocess p Train true freq data = Some (tr, va) -> In (k, ts0) data -> fill_missing ts0 (seasonality p) freq = Some ts ->
  (need <= length ts -> exists a b, In (k, a) tr /\ In (k, b) va /\ a ++ b = ts /\ length b = v) /\
  (length ts < need -> ~ In k (map fst tr) /\ ~ In k (map fst va)).
Proof.
  intros v need ND H HI F. destruct (pre_some _ _ _ _ _ _ _ H) as [E1 E2]. split; intros L.
  - exists (but_last v ts), (last_part v ts). split; [| split; [| split]].
    + rewrite E1. apply in_flat_map. exists (k, ts0). split; [exact HI |]. cbn [snd fst]. rewrite F.
      destruct (_ <=? _) eqn:EL; [left; reflexivity | apply Nat.leb_gt in EL; cbn in EL; unfold need, v in L; lia].
    + rewrite E2. apply in_flat_map. exists (k, ts0). split; [exact HI |]. cbn [snd fst]. rewrite F.
      destruct (_ <=? _) eqn:EL; [left; reflexivity | apply Nat.leb_gt in EL; cbn in EL; unfold need, v in L; lia].
    + apply firstn_skipn.
    + unfold last_part. rewrite skipn_length. unfold need in L. lia.
  - assert (U : forall ts1, In (k, ts1) data -> ts1 = ts0).
    { intros ts1 H1. clear - ND HI H1. induction data as [|[k' t'] data IH]; [contradiction |]. cbn in ND. inversion ND as [|? ? N1 N2]; subst.
      destruct HI as [HI|HI]; destruct H1 as [H1|H1]; try congruence; auto; exfalso; apply N1.
      - injection HI as -> ->. change k with (fst (k, ts1)). apply in_map. exact H1.
      - injection H1 as -> ->. change k with (fst (k, ts0)). apply in_map. exact HI. }
    split; intros I; apply in_map_iff in I; destruct I as [[k' x] [X1 X2]]; cbn in X1; subst k'; rewrite ?E1, ?E2 in X2; apply in_flat_map in X2;
      destruct X2 as [[k2 ts2] [Y1 Y2]]; cbn [snd fst] in Y2; destruct (fill_missing ts2 (seasonality p) freq) as [ts3|] eqn:F3; try contradiction;
      (destruct (needed p Train true <=? length ts3) eqn:EL; [| contradiction]); destruct Y2 as [Y2|[]]; injection Y2 as -> _;
      rewrite (U ts2 Y1), F in F3; injection F3 as <-; apply Nat.leb_le in EL; cbn in EL; unfold need, v in L; lia.
Qed.
(** the same for testing *)
Theorem C205_test p freq data tr va k ts0 ts :
  let v := fcst_step_num p * fcst_window p in
  NoDup (map fst data) -> preprocess p Test true freq data = Some (tr, va) -> In (k, ts0) data -> fill_missing ts0 (seasonality p) freq = Some ts ->
  (v + seasonality p <= length ts -> exists a b, In (k, a) tr /\ In (k, b) va /\ a ++ b = ts /\ length b = v) /\
  (length ts < v + seasonality p -> ~ In k (map fst tr) /\ ~ In k (map fst va)).
Proof.
  intros v ND H HI F. destruct (pre_some _ _ _ _ _ _ _ H) as [E1 E2]. split; intros L.
  - exists (but_last v ts), (last_part v ts). split; [| split; [| split]].
    + rewrite E1. apply in_flat_map. exists (k, ts0). split; [exact HI |]. cbn [snd fst]. rewrite F.
      destruct (_ <=? _) eqn:EL; [left; reflexivity | apply Nat.leb_gt in EL; cbn in EL; unfold v in L; lia].
    + rewrite E2. apply in_flat_map. exists (k, ts0). split; [exact HI |]. cbn [snd fst]. rewrite F.
      destruct (_ <=? _) eqn:EL; [left; reflexivity | apply Nat.leb_gt in EL; cbn in EL; unfold v in L; lia].
    + apply firstn_skipn.
    + unfold last_part. rewrite skipn_length. lia.
  - assert (U : forall ts1, In (k, ts1) data -> ts1 = ts0).
    { intros ts1 H1. clear - ND HI H1. induction data as [|[k' t'] data IH]; [contradiction |]. cbn in ND. inversion ND as [|? ? N1 N2]; subst.
      destruct HI as [HI|HI]; destruct H1 as [H1|H1]; try congruence; auto; exfalso; apply N1.
      - injection HI as -> ->. change k with (fst (k, ts1)). apply in_map. exact H1.
      - injection H1 as -> ->. change k with (fst (k, ts0)). apply in_map. exact HI. }
    split; intros I; apply in_map_iff in I; destruct I as [[k' x] [X1 X2]]; cbn in X1; subst k'; rewrite ?E1, ?E2 in X2; apply in_flat_map in X2;
      destruct X2 as [[k2 ts2] [Y1 Y2]]; cbn [snd fst] in Y2; destruct (fill_missing ts2 (seasonality p) freq) as [ts3|] eqn:F3; try contradiction;
      (destruct (needed p Test true <=? length ts3) eqn:EL; [| contradiction]); destruct Y2 as [Y2|[]]; injection Y2 as -> _;
      rewrite (U ts2 Y1), F in F3; injection F3 as <-; apply Nat.leb_le in EL; cbn in EL; unfold v in L; lia.
Qed.
(** nothing else is returned: every key comes from the data *)
Theorem C205_keys p m vs freq data tr va k :
  preprocess p m vs freq data = Some (tr, va) -> (In k (map fst tr) -> In k (map fst data)) /\ (In k (map fst va) -> In k (map fst data)) /\ (vs = false -> va = []).
Proof.
  intros H. destruct (pre_some _ _ _ _ _ _ _ H) as [E1 E2]. repeat split.
  - intros I. apply in_map_iff in I. destruct I as [[k' x] [X1 X2]]. cbn in X1. subst k'. rewrite E1 in X2. apply in_flat_map in X2. destruct X2 as [[k2 t2] [Y1 Y2]].
    cbn [fst snd] in Y2. destruct (fill_missing t2 _ _); [| contradiction]. destruct (_ <=? _); [| contradiction]. destruct Y2 as [Y2|[]]. injection Y2 as -> _.
    change k with (fst (k, t2)). apply in_map. exact Y1.
  - intros I. apply in_map_iff in I. destruct I as [[k' x] [X1 X2]]. cbn in X1. subst k'. rewrite E2 in X2. apply in_flat_map in X2. destruct X2 as [[k2 t2] [Y1 Y2]].
    cbn [fst snd] in Y2. destruct (fill_missing t2 _ _); [| contradiction]. destruct (_ && _); [| contradiction]. destruct Y2 as [Y2|[]]. injection Y2 as -> _.
    change k with (fst (k, t2)). apply in_map. exact Y1.
  - intros ->. rewrite E2. clear. induction data as [|e data IH]; [reflexivity |]. cbn [flat_map]. rewrite IH. destruct (fill_missing _ _ _); [rewrite andb_false_r |]; reflexivity.
Qed.
Definition weekly : lens := {| input_window := 2; fcst_window := 1; fcst_step_num := 1; min_training_step_num := 1; step_length := 1; validation_step_num := 1; seasonality := 7 |}.
Definition days (n : nat) : list (Z * option Q) := map (fun k => (Z.of_nat k, Some (inject_Z (Z.of_nat k)))) (seq 0 n).
Example C205_case : option_map (fun r => (map (fun e => length (snd e)) (fst r), map (fun e => length (snd e)) (snd r))) (preprocess weekly Train true 1 [(0, days 5); (1, days 4); (2, days 9)]) = Some ([4; 8], [1; 1]).
Proof. reflexivity. Qed.
(** a series that is kept for training can still be too short for a batch, which wants a whole season: GMBatch raises *)
Theorem C205_too_short_refuted : exists p bp freq data tr va,
  preprocess p Train true freq data = Some (tr, va) /\ tr <> [] /\
  GmBatchModel.input_window bp = input_window p /\ GmBatchModel.fcst_window bp = fcst_window p /\ GmBatchModel.seasonality bp = seasonality p /\
  forall valid e r, GmBatchModel.train_layout bp (map (fun x => length (snd x)) tr) valid e r = None.
Proof.
  exists weekly, {| GmBatchModel.s2s := false; GmBatchModel.input_window := 2; GmBatchModel.fcst_window := 1; GmBatchModel.min_training_step_num := 1; GmBatchModel.step_length := 1;
                    GmBatchModel.min_warming_up := 1; GmBatchModel.validation_step_num := 1; GmBatchModel.fcst_step_num := 1; GmBatchModel.seasonality := 7; GmBatchModel.ratio := 2 |}, 1%Z, [(0, days 5)], [(0, days 4)], [(0, [(4%Z, Some 4%Q)])].
  split; [reflexivity |]. split; [discriminate |]. repeat split.
Qed.
(** without a validation part, testing still asks for its length: series with a whole season of values are discarded *)
Theorem C205_discarded_refuted : exists p freq data tr va k ts,
  preprocess p Test false freq data = Some (tr, va) /\ In (k, ts) data /\ fill_missing ts (seasonality p) freq = Some ts /\ seasonality p <= length ts /\ ~ In k (map fst tr).
Proof.
  exists weekly, 1%Z, [(0, days 7)], [], [], 0, (days 7). repeat split; cbn; auto; lia.
Qed.

(** ** Padding *)
(** C206: one row, n steps before the first one, with the first value of the series; the rest is unchanged *)
Theorem C206_partial ts n freq out :
  pad_ts ts n freq = Some out ->
  (1 <= n)%Z /\ exists t0 r v0 v, ts = (t0, r) :: tl ts /\ out = (t0 - n * freq, Some v)%Z :: ts /\
    (exists pre post, ts = pre ++ (v0, Some v) :: post /\ forall x, In x pre -> snd x = None).
Proof.
  unfold pad_ts. destruct (n <? 1)%Z eqn:E; [discriminate |]. apply Z.ltb_ge in E. intros H. split; [exact E |].
  destruct ts as [|[t0 r] rest] eqn:ET; [discriminate |].
  destruct (flat_map _ ((t0, r) :: rest)) as [|v vs] eqn:EF; [discriminate |]. injection H as <-.
  assert (G : forall (l : list (Z * option Q)) v vs, flat_map (fun r => match snd r with Some v => [v] | None => [] end) l = v :: vs ->
    exists v0 pre post, l = pre ++ (v0, Some v) :: post /\ forall x, In x pre -> snd x = None).
  { clear. induction l as [|[t [w|]] l IH]; intros v vs H; cbn in H; [discriminate | |].
    - injection H as -> _. exists t, [], l. split; [reflexivity | intros x []].
    - destruct (IH v vs H) as [v0 [pre [post [P1 P2]]]]. exists v0, ((t, None) :: pre), post. split; [cbn; rewrite P1; reflexivity |].
      intros x [<-|Hx]; [reflexivity | auto]. }
  destruct (G _ _ _ EF) as [v0 [pre [post [P1 P2]]]]. exists t0, r, v0, v. repeat split. exists pre, post. auto.
Qed.
(** the documentation promises n more rows *)
Theorem C206_length_refuted ts n freq out : pad_ts ts n freq = Some out -> (2 <= n)%Z -> Z.of_nat (length out) <> (Z.of_nat (length ts) + n)%Z.
Proof.
  intros H Hn. destruct (C206_partial _ _ _ _ H) as [_ [t0 [r [v0 [v [_ [-> _]]]]]]]. cbn [length]. lia.
Qed.
Example C206_case : pad_ts [(10, None); (11, Some 4%Q)]%Z 3 2 = Some [(4, Some 4%Q); (10, None); (11, Some 4%Q)]%Z.
Proof. reflexivity. Qed.

Print Assumptions C204_partial.
Print Assumptions C204_lost_refuted.
Print Assumptions C204_overlap.
Print Assumptions C204_validation.
Print Assumptions C205_train.
Print Assumptions C205_test.
Print Assumptions C205_keys.
Print Assumptions C205_too_short_refuted.
Print Assumptions C205_discarded_refuted.
Print Assumptions C206_partial.
Print Assumptions C206_length_refuted.
