From Verif Require Import Common IntervalRunsModel IntervalRunsSpec.
From Coq Require Import Permutation.

(** Recursive reference: segment started at s with value a, next index is k. *)
Fixpoint R (s : nat) (a : bool) (k : nat) (t : list bool) : list (nat * bool * nat) :=
  match t with
  | [] => [(s, a, k - 1)]
  | b :: t' => if Bool.eqb a b then R s a (S k) t' else (s, a, k - 1) :: R k b (S k) t'
  end.

Definition triples_runs (l : list (nat * bool * nat)) : list (nat * nat) :=
  map (fun p => (fst (fst p), snd p)) (filter (fun p => snd (fst p)) l).

(* starts, values, ends of the code with offset *)
Lemma code_R s a k t n : s < k -> n = k + length t ->
  let locs := not_equal_adjacent (a :: t) in
  let starts := s :: nonzero_from k locs in
  let values := a :: mask_select t locs in
  let ends := map2 (fun s l => s + l - 1) starts (diff (starts ++ [n])) in
  combine (mask_select starts values) (mask_select ends values) = triples_runs (R s a k t).
Proof.
  revert s a k. induction t as [|b t IH]; intros s a k Hs Hn; cbn zeta.
  - simpl in Hn. cbn. destruct a; cbn; [|reflexivity]. f_equal. f_equal. lia.
  - change (not_equal_adjacent (a :: b :: t)) with (negb (Bool.eqb a b) :: not_equal_adjacent (b :: t)).
    destruct (Bool.eqb a b) eqn:E.
    + apply Bool.eqb_prop in E. subst b. cbn [negb nonzero_from mask_select R].
      rewrite Bool.eqb_reflx. apply IH; simpl in *; lia.
    + cbn [negb nonzero_from mask_select R]. rewrite E.
      specialize (IH k b (S k) ltac:(lia)). simpl in Hn.
      specialize (IH ltac:(simpl in *; lia)). cbn zeta in IH.
      set (rest := nonzero_from (S k) (not_equal_adjacent (b :: t))) in *.
      set (vals := b :: mask_select t (not_equal_adjacent (b :: t))) in *.
      change ((s :: k :: rest) ++ [n]) with (s :: ((k :: rest) ++ [n])).
      assert (Hd : diff (s :: (k :: rest) ++ [n]) = (k - s) :: diff ((k :: rest) ++ [n])) by reflexivity.
      rewrite Hd. cbn [map2].
      unfold triples_runs in *. cbn [filter map fst snd].
      destruct a; cbn [mask_select combine fst snd].
      * cbn [map fst snd]. f_equal; [f_equal; lia|]. exact IH.
      * exact IH.
Qed.

Lemma get_runs_R a t : get_true_run_indices (a :: t) = Some (triples_runs (R 0 a 1 t)).
Proof.
  unfold get_true_run_indices, loc_run_start. f_equal.
  rewrite <- (code_R 0 a 1 t (length (a :: t)) ltac:(lia) eq_refl). reflexivity.
Qed.

(** Invariant: x is the whole sequence; segment [s..k-1] constant a, left-maximal; t = skipn k x. *)
Lemma R_spec x s a k t :
  s < k -> k + length t = length x -> t = skipn k x ->
  (forall i, s <= i < k -> nth i x false = a) ->
  (s = 0 \/ nth (s - 1) x false = negb a) ->
  (forall s' e', In (s', e') (triples_runs (R s a k t)) <-> (s <= s' /\ maximal_run x s' e')) /\
  increasing_with_gaps (triples_runs (R s a k t)).
Proof.
  revert s a k. induction t as [|b t IH]; intros s a k Hs Hk Ht Hseg Hleft.
  - simpl in Hk. cbn [R triples_runs filter snd fst map].
    assert (Hk' : k = length x) by lia.
    destruct a; cbn [map fst snd].
    + split; [|simpl; auto]. intros s' e'; split.
      * intros [H|[]]. injection H as <- <-. split; [lia|].
        repeat split; try lia; auto.
        -- intros i Hi. apply Hseg. lia.
      * intros [Hge [H1 [H2 [H3 [H4 H5]]]]]. left.
        assert (s' = s).
        { destruct (Nat.eq_dec s s') as [|Hne]; [auto|].
          destruct H4 as [H4|H4]; [lia|]. rewrite Hseg in H4 by lia. discriminate. }
        subst s'. f_equal. destruct H5 as [H5|H5]; [lia|].
        destruct (Nat.eq_dec (S e') k); [lia|]. rewrite Hseg in H5 by lia. discriminate.
    + split; [|simpl; auto]. intros s' e'; split; [intros []|].
      intros [Hge [H1 [H2 [H3 [H4 H5]]]]].
      specialize (H3 s' ltac:(lia)). rewrite Hseg in H3 by lia. discriminate.
  - simpl in Hk. cbn [R].
    assert (Hb : nth k x false = b).
    { rewrite <- (firstn_skipn k x) at 1. rewrite app_nth2; rewrite firstn_length_le by lia; [|lia].
      rewrite Nat.sub_diag, <- Ht. reflexivity. }
    assert (Ht' : t = skipn (S k) x).
    { rewrite skipn_S_tl, <- Ht. reflexivity. }
    destruct (Bool.eqb a b) eqn:E.
    + apply Bool.eqb_prop in E. subst b. apply IH; auto; try lia.
      intros i Hi. destruct (Nat.eq_dec i k); [subst i; rewrite <- E; reflexivity|apply Hseg; lia].
    + assert (Hab : b = negb a) by (destruct a, b; simpl in *; congruence).
      destruct (IH k b (S k)) as [IH1 IH2]; auto; try lia.
      { intros i Hi. replace i with k by lia. auto. }
      { right. rewrite Hseg by lia. rewrite Hab. destruct a; reflexivity. }
      unfold triples_runs in *. cbn [filter snd fst].
      destruct a; cbn [map fst snd].
      * split.
        -- intros s' e'; split.
           ++ intros [H|H].
              ** injection H as <- <-. split; [lia|]. repeat split; try lia; auto.
                 --- intros i Hi. apply Hseg. lia.
                 --- right. replace (S (k - 1)) with k by lia. rewrite Hb, Hab. reflexivity.
              ** apply IH1 in H. destruct H as [H1 H2]. split; [lia|exact H2].
           ++ intros [Hge Hm]. destruct (Nat.lt_ge_cases s' k) as [Hlt|Hge'].
              ** left. destruct Hm as [H1 [H2 [H3 [H4 H5]]]].
                 assert (s' = s).
                 { destruct (Nat.eq_dec s s') as [|Hne]; [auto|].
                   destruct H4 as [H4|H4]; [lia|]. rewrite Hseg in H4 by lia. discriminate. }
                 subst s'. f_equal.
                 destruct (Nat.lt_trichotomy (S e') k) as [Hl|[He|Hg]]; [|lia|].
                 --- destruct H5 as [H5|H5]; [lia|]. rewrite Hseg in H5 by lia. discriminate.
                 --- specialize (H3 k ltac:(lia)). rewrite Hb, Hab in H3. discriminate.
              ** right. apply IH1. split; auto.
        -- destruct (map _ (filter _ (R k b (S k) t))) as [|[s1 e1] l] eqn:El; [simpl; auto|].
           split; [|exact IH2].
           assert (Hin : In (s1, e1) ((s1, e1) :: l)) by (left; auto).
           apply IH1 in Hin. destruct Hin as [Hge [H1 [H2 [H3 _]]]].
           destruct (Nat.eq_dec s1 k) as [->|]; [|lia].
           specialize (H3 k ltac:(lia)). rewrite Hb, Hab in H3. discriminate.
      * split; [|exact IH2]. intros s' e'; split.
        -- intros H. apply IH1 in H. destruct H; split; [lia|auto].
        -- intros [Hge Hm]. apply IH1. split; [|exact Hm].
           destruct Hm as [H1 [H2 [H3 [H4 H5]]]].
           destruct (Nat.le_gt_cases k s') as [|Hlt]; [auto|].
           specialize (H3 s' ltac:(lia)). rewrite Hseg in H3 by lia. discriminate.
Qed.

Lemma get_runs_exact x l : get_true_run_indices x = Some l ->
  (forall s e, In (s, e) l <-> maximal_run x s e) /\ increasing_with_gaps l.
Proof.
  destruct x as [|a t]; [discriminate|]. rewrite get_runs_R. intros H; injection H as <-.
  destruct (R_spec (a :: t) 0 a 1 t) as [H1 H2]; auto; try lia.
  - intros i Hi. replace i with 0 by lia. reflexivity.
  - split; [|exact H2]. intros s e. rewrite H1. split; [tauto|split; [lia|tauto]].
Qed.

Lemma get_runs_none x : get_true_run_indices x = None <-> x = [].
Proof. destruct x; split; try discriminate; auto. Qed.

(** maximal runs are disjoint and cover the True positions *)
Lemma maximal_run_unique x s e s' e' i : maximal_run x s e -> maximal_run x s' e' ->
  s <= i <= e -> s' <= i <= e' -> s = s' /\ e = e'.
Proof.
  intros [A1 [A2 [A3 [A4 A5]]]] [B1 [B2 [B3 [B4 B5]]]] Hi Hi'. split.
  - destruct (Nat.lt_trichotomy s s') as [H|[H|H]]; auto.
    + destruct B4 as [B4|B4]; [lia|]. rewrite A3 in B4 by lia. discriminate.
    + destruct A4 as [A4|A4]; [lia|]. rewrite B3 in A4 by lia. discriminate.
  - destruct (Nat.lt_trichotomy e e') as [H|[H|H]]; auto.
    + destruct A5 as [A5|A5]; [lia|]. rewrite B3 in A5 by lia. discriminate.
    + destruct B5 as [B5|B5]; [lia|]. rewrite A3 in B5 by lia. discriminate.
Qed.

Lemma left_extend x i : nth i x false = true ->
  exists s, s <= i /\ (forall j, s <= j <= i -> nth j x false = true) /\ (s = 0 \/ nth (s - 1) x false = false).
Proof.
  induction i as [|i IH]; intros H.
  - exists 0. repeat split; auto. intros j Hj. replace j with 0 by lia. auto.
  - destruct (nth i x false) eqn:E.
    + destruct (IH eq_refl) as [s [H1 [H2 H3]]]. exists s. repeat split; auto; try lia.
      intros j Hj. destruct (Nat.eq_dec j (S i)) as [->|]; auto. apply H2. lia.
    + exists (S i). repeat split; auto; try lia.
      * intros j Hj. replace j with (S i) by lia. auto.
      * right. simpl. rewrite Nat.sub_0_r. exact E.
Qed.

Lemma right_extend x d i : i + d = length x -> 0 < d -> nth i x false = true ->
  exists e, i <= e /\ e < length x /\ (forall j, i <= j <= e -> nth j x false = true) /\
            (S e = length x \/ nth (S e) x false = false).
Proof.
  revert i. induction d as [|d IH]; intros i Hd Hpos H; [lia|].
  destruct d as [|d].
  - exists i. repeat split; try lia. intros j Hj. replace j with i by lia. auto.
  - destruct (nth (S i) x false) eqn:E.
    + destruct (IH (S i)) as [e [H1 [H2 [H3 H4]]]]; auto; try lia.
      exists e. repeat split; auto; try lia.
      intros j Hj. destruct (Nat.eq_dec j i) as [->|]; auto. apply H3. lia.
    + exists i. repeat split; auto; try lia. intros j Hj. replace j with i by lia. auto.
Qed.

Lemma maximal_run_covers x i : nth i x false = true -> exists s e, maximal_run x s e /\ s <= i <= e.
Proof.
  intros H. assert (Hi : i < length x).
  { destruct (Nat.lt_ge_cases i (length x)) as [|Hge]; auto. rewrite nth_overflow in H by lia. discriminate. }
  destruct (left_extend x i H) as [s [A1 [A2 A3]]].
  destruct (right_extend x (length x - i) i) as [e [B1 [B2 [B3 B4]]]]; auto; try lia.
  exists s, e. repeat split; auto; try lia.
  intros j Hj. destruct (Nat.le_gt_cases j i); [apply A2; lia|apply B3; lia].
Qed.

Lemma increasing_nodup l : (forall s e, In (s, e) l -> s <= e) -> increasing_with_gaps l -> NoDup l.
Proof.
  assert (Hlt : forall l s e, (forall s e, In (s, e) l -> s <= e) -> increasing_with_gaps ((s, e) :: l) ->
            forall s' e', In (s', e') l -> e < s').
  { clear l. induction l as [|[s1 e1] l IH]; intros s e Hle H s' e' Hin; [destruct Hin|].
    destruct H as [H1 H2]. destruct Hin as [Hin|Hin].
    - injection Hin as <- <-. lia.
    - assert (e1 < s') by (eapply (IH s1 e1); eauto; intros; apply Hle; right; auto).
      assert (s1 <= e1) by (apply Hle; left; auto). lia. }
  induction l as [|[s e] l IH]; intros Hle H; constructor.
  - intros Hin. assert (e < s) by (eapply (Hlt l s e); eauto; intros; apply Hle; right; auto).
    assert (s <= e) by (apply Hle; left; auto). lia.
  - apply IH; [intros; apply Hle; right; auto|]. destruct l as [|[s1 e1] l]; simpl; auto. apply H.
Qed.

Lemma each_true_in_exactly_one x l i : get_true_run_indices x = Some l ->
  nth i x false = true <-> exists! p, In p l /\ fst p <= i <= snd p.
Proof.
  intros H. destruct (get_runs_exact x l H) as [Hin _]. split.
  - intros Hi. destruct (maximal_run_covers x i Hi) as [s [e [Hm Hr]]].
    exists (s, e). split; [split; [apply Hin; auto|exact Hr]|].
    intros [s' e'] [Hp Hr']. apply Hin in Hp. simpl in Hr'.
    destruct (maximal_run_unique x s e s' e' i) as [-> ->]; auto.
  - intros [[s e] [[Hp Hr] _]]. apply Hin in Hp. apply Hp. exact Hr.
Qed.

(** * Intervals *)
Lemma mk_intervals_idx time pad runs l : mk_intervals time pad runs = Some l ->
  map (fun i => (iv_start_idx i, iv_end_idx i)) l = runs /\
  (forall i, In i l -> iv_start i = (nth (iv_start_idx i) time 0 - pad)%Z /\
                       iv_end i = (nth (iv_end_idx i) time 0 + pad)%Z /\ (iv_start i < iv_end i)%Z).
Proof.
  revert l. induction runs as [|[s e] runs IH]; intros l H; cbn [mk_intervals] in H.
  - injection H as <-. split; [reflexivity|intros i []].
  - unfold mk_interval in H. destruct (Z.leb_spec (nth e time 0 + pad) (nth s time 0 - pad))%Z; [discriminate|].
    destruct (mk_intervals time pad runs) as [l'|]; [|discriminate]. injection H as <-.
    destruct (IH l' eq_refl) as [IH1 IH2]. split.
    + simpl. f_equal. exact IH1.
    + intros i [<-|Hi]; [simpl; auto|apply IH2; auto].
Qed.

Lemma mk_intervals_none time pad runs : mk_intervals time pad runs = None <->
  exists s e, In (s, e) runs /\ (nth e time 0 + pad <= nth s time 0 - pad)%Z.
Proof.
  induction runs as [|[s e] runs IH]; cbn [mk_intervals].
  - split; [discriminate|intros [s [e [[] _]]]].
  - unfold mk_interval. destruct (Z.leb_spec (nth e time 0 + pad) (nth s time 0 - pad))%Z as [Hl|Hl].
    + split; [intros _; exists s, e; split; [left|]; auto|auto].
    + destruct (mk_intervals time pad runs) as [l'|] eqn:E.
      * split; [discriminate|]. intros [s' [e' [[H|H] Hle]]].
        -- injection H as <- <-. lia.
        -- destruct IH as [_ IH]. discriminate IH. exists s', e'. auto.
      * split; [intros _|auto]. destruct IH as [IH _]. destruct (IH eq_refl) as [s' [e' [H Hle]]].
        exists s', e'. split; [right|]; auto.
Qed.

Definition run_len (i : ab_interval) := length (iv_indices i).
Lemma run_len_eq i : run_len i = iv_end_idx i + 1 - iv_start_idx i.
Proof. unfold run_len, iv_indices. apply seq_length. Qed.

Lemma set_true_length l i : length (set_true l i) = length l.
Proof. revert i; induction l as [|b l IH]; intros [|i]; simpl; auto. Qed.
Lemma set_true_nth l i j : nth j (set_true l i) false = (if (Nat.eqb i j && Nat.ltb i (length l))%bool then true else nth j l false).
Proof.
  revert i j; induction l as [|b l IH]; intros i j; simpl.
  - rewrite andb_false_r. destruct j; reflexivity.
  - destruct i as [|i], j as [|j]; simpl; auto. rewrite IH. reflexivity.
Qed.
Lemma fold_set_true_length is l : length (fold_left set_true is l) = length l.
Proof. revert l; induction is as [|i is IH]; intros l; simpl; auto. rewrite IH. apply set_true_length. Qed.
Lemma fold_set_true_nth is l j : (j < length l) ->
  nth j (fold_left set_true is l) false = true <-> (nth j l false = true \/ In j is).
Proof.
  revert l; induction is as [|i is IH]; intros l Hj; simpl; [tauto|].
  rewrite IH by (rewrite set_true_length; auto). rewrite set_true_nth.
  destruct (Nat.eqb_spec i j) as [->|Hne]; simpl.
  - destruct (Nat.ltb_spec j (length l)); [|lia]. tauto.
  - split; tauto.
Qed.

Lemma convert_length n d l : length (convert_intervals_to_predictions n d l) = n.
Proof.
  unfold convert_intervals_to_predictions.
  assert (H : forall v, length v = n -> length (fold_left
    (fun values i => if Nat.leb d (length (iv_indices i)) then fold_left set_true (iv_indices i) values else values) l v) = n).
  { induction l as [|i l IH]; intros v Hv; simpl; auto. apply IH. destruct (Nat.leb d _); auto.
    rewrite fold_set_true_length. auto. }
  apply H. apply repeat_length.
Qed.

Lemma convert_nth n d l j : j < n ->
  nth j (convert_intervals_to_predictions n d l) false = true <->
  exists i, In i l /\ d <= run_len i /\ In j (iv_indices i).
Proof.
  intros Hj. unfold convert_intervals_to_predictions.
  assert (H : forall v, length v = n -> (nth j (fold_left
    (fun values i => if Nat.leb d (length (iv_indices i)) then fold_left set_true (iv_indices i) values else values) l v) false = true
    <-> (nth j v false = true \/ exists i, In i l /\ d <= run_len i /\ In j (iv_indices i)))).
  { induction l as [|i l IH]; intros v Hv; simpl.
    - split; [auto|intros [H|[i [[] _]]]; auto].
    - destruct (Nat.leb_spec d (length (iv_indices i))) as [Hd|Hd].
      + rewrite IH by (rewrite fold_set_true_length; auto). rewrite fold_set_true_nth by lia.
        split.
        * intros [[H|H]|[k [H1 H2]]]; auto; right; [exists i|exists k]; auto.
        * intros [H|[k [[->|H1] H2]]]; [auto|tauto|right; exists k; auto].
      + rewrite IH by auto. split.
        * intros [H|[k [H1 H2]]]; auto. right; exists k; auto.
        * intros [H|[k [[->|H1] H2]]]; auto; [unfold run_len in H2; lia|right; exists k; auto]. }
  rewrite H by apply repeat_length. split; [|auto].
  intros [H0|H0]; auto.
  assert (nth j (repeat false n) false = false).
  { destruct (nth_in_or_default j (repeat false n) false) as [Hin|Hd]; [apply repeat_spec in Hin; auto|auto]. }
  congruence.
Qed.

Lemma flags_follow_run_length time pad mask l d j :
  get_intervals time pad mask = Some l ->
  length (convert_intervals_to_predictions (length mask) d l) = length mask /\
  (nth j (convert_intervals_to_predictions (length mask) d l) false = true <->
   exists s e, maximal_run mask s e /\ s <= j <= e /\ d <= e - s + 1).
Proof.
  intros H. split; [apply convert_length|].
  unfold get_intervals in H. destruct (get_true_run_indices mask) as [runs|] eqn:E; [|discriminate].
  apply mk_intervals_idx in H. destruct H as [H _].
  destruct (get_runs_exact mask runs E) as [Hin _].
  assert (Hidx : forall s e, maximal_run mask s e <-> exists i, In i l /\ iv_start_idx i = s /\ iv_end_idx i = e).
  { intros s e. rewrite <- Hin, <- H, in_map_iff. split.
    - intros [i [Hi1 Hi2]]. injection Hi1 as <- <-. exists i; auto.
    - intros [i [Hi1 [<- <-]]]. exists i; auto. }
  destruct (Nat.lt_ge_cases j (length mask)) as [Hj|Hj].
  - rewrite convert_nth by auto. split.
    + intros [i [Hi1 [Hi2 Hi3]]]. exists (iv_start_idx i), (iv_end_idx i).
      assert (Hm : maximal_run mask (iv_start_idx i) (iv_end_idx i)) by (apply Hidx; exists i; auto).
      split; [exact Hm|]. rewrite run_len_eq in Hi2. apply in_seq in Hi3. destruct Hm as [Hm _]. lia.
    + intros [s [e [Hm [Hr Hd]]]]. pose proof Hm as [Hse _]. apply Hidx in Hm.
      destruct Hm as [i [Hi1 [<- <-]]]. exists i. split; [auto|]. rewrite run_len_eq. split; [lia|].
      apply in_seq. lia.
  - rewrite nth_overflow by (rewrite convert_length; auto). split; [discriminate|].
    intros [s [e [[_ [Hm _]] Hr]]]. lia.
Qed.

Lemma anomaly_exact time pad mask l d :
  get_intervals time pad mask = Some l ->
  (forall s e, In (s, e) (map idx_pair (anomaly_intervals d l)) <-> (maximal_run mask s e /\ d <= e - s + 1)) /\
  (forall s e, In (s, e) (map idx_pair (caution_intervals d l)) <-> (maximal_run mask s e /\ e - s + 1 < d)) /\
  increasing_with_gaps (map idx_pair l) /\
  Permutation (anomaly_intervals d l ++ caution_intervals d l) l.
Proof.
  intros H. unfold get_intervals in H. destruct (get_true_run_indices mask) as [runs|] eqn:E; [|discriminate].
  apply mk_intervals_idx in H. destruct H as [H _]. change (map idx_pair l = runs) in H.
  destruct (get_runs_exact mask runs E) as [Hin Hgap].
  assert (Hl : forall i, In i l -> maximal_run mask (iv_start_idx i) (iv_end_idx i)).
  { intros i Hi. apply Hin. rewrite <- H. apply in_map_iff. exists i; auto. }
  assert (Hfil : forall (f : ab_interval -> bool) s e,
    In (s, e) (map idx_pair (filter f l)) <-> exists i, In i l /\ f i = true /\ iv_start_idx i = s /\ iv_end_idx i = e).
  { intros f s e. rewrite in_map_iff. split.
    - intros [i [Hi1 Hi2]]. apply filter_In in Hi2. injection Hi1 as <- <-. exists i. tauto.
    - intros [i [Hi1 [Hi2 [<- <-]]]]. exists i. split; [reflexivity|]. apply filter_In. auto. }
  assert (Hex : forall s e, maximal_run mask s e -> exists i, In i l /\ iv_start_idx i = s /\ iv_end_idx i = e).
  { intros s e Hm. apply Hin in Hm. rewrite <- H in Hm. apply in_map_iff in Hm.
    destruct Hm as [i [Hi1 Hi2]]. injection Hi1 as <- <-. exists i. auto. }
  split; [|split; [|split]].
  - intros s e. unfold anomaly_intervals. rewrite Hfil. split.
    + intros [i [Hi [Hf [<- <-]]]]. pose proof (Hl i Hi) as Hm. split; [exact Hm|]. destruct Hm as [Hse _].
      apply Nat.leb_le in Hf. change (length (iv_indices i)) with (run_len i) in Hf. rewrite run_len_eq in Hf. lia.
    + intros [Hm Hd]. destruct (Hex s e Hm) as [i [Hi [<- <-]]]. exists i. split; [exact Hi|]. split; [|auto].
      destruct Hm as [Hse _].
      apply Nat.leb_le. change (length (iv_indices i)) with (run_len i). rewrite run_len_eq. lia.
  - intros s e. unfold caution_intervals. rewrite Hfil. split.
    + intros [i [Hi [Hf [<- <-]]]]. pose proof (Hl i Hi) as Hm. split; [exact Hm|]. destruct Hm as [Hse _].
      apply Nat.ltb_lt in Hf. change (length (iv_indices i)) with (run_len i) in Hf. rewrite run_len_eq in Hf. lia.
    + intros [Hm Hd]. destruct (Hex s e Hm) as [i [Hi [<- <-]]]. exists i. split; [exact Hi|]. split; [|auto].
      destruct Hm as [Hse _].
      apply Nat.ltb_lt. change (length (iv_indices i)) with (run_len i). rewrite run_len_eq. lia.
  - rewrite H. exact Hgap.
  - unfold anomaly_intervals, caution_intervals. clear.
    induction l as [|i l IH]; [constructor|]. cbn [filter].
    destruct (Nat.leb_spec d (length (iv_indices i))), (Nat.ltb_spec (length (iv_indices i)) d); try lia.
    + simpl. constructor. exact IH.
    + etransitivity; [symmetry; apply Permutation_middle|]. constructor. exact IH.
Qed.

Lemma interval_times time pad mask l :
  get_intervals time pad mask = Some l ->
  forall i, In i l ->
    iv_start i = (nth (iv_start_idx i) time 0 - pad)%Z /\ iv_end i = (nth (iv_end_idx i) time 0 + pad)%Z.
Proof.
  unfold get_intervals. destruct (get_true_run_indices mask); [|discriminate]. intros H i Hi.
  apply mk_intervals_idx in H. destruct H as [_ H]. specialize (H i Hi). tauto.
Qed.

Lemma intervals_raise_iff time pad mask : mask <> [] ->
  get_intervals time pad mask = None <->
  exists s e, maximal_run mask s e /\ (nth e time 0 - nth s time 0 + 2 * pad <= 0)%Z.
Proof.
  intros Hne. unfold get_intervals. destruct (get_true_run_indices mask) as [runs|] eqn:E.
  - destruct (get_runs_exact mask runs E) as [Hin _]. rewrite mk_intervals_none.
    split; intros [s [e [H1 H2]]]; exists s, e; (split; [apply Hin; auto|lia]).
  - apply get_runs_none in E. contradiction.
Qed.
