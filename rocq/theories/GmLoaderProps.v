(** Theorems about the batches of the global model (C195, C196). *)
From Coq Require Import List Bool Arith ZArith QArith Lia Lqa Permutation Sorting.Sorted.
From Verif Require Import Common GmLoaderModel.
Import ListNotations.
Open Scope nat_scope.

(** what the random number generator gives to a call with batch size b: numbers in [0, 1) and an order of the full batches *)
Definition good_draw (n : nat) (b : Z) (d : draw) : Prop :=
  length (noise d) = n /\ (forall u, In u (noise d) -> 0 <= u /\ u < 1)%Q /\ Permutation (perm d) (seq 0 (n / Z.to_nat b)).
Definition good_call (n : nat) (c : Z * draw) : Prop := (1 <= fst c)%Z /\ good_draw n (fst c) (snd c).
(** number of batches of size b that n series make *)
Definition epoch_length (n b : nat) : nat := (n + b - 1) / b.

Lemma insert_le_perm {A} le (x : A) l : Permutation (x :: l) (insert_le le x l).
Proof. induction l as [|y l IH]; cbn; [constructor; constructor|]. destruct (le x y); [apply Permutation_refl|]. rewrite perm_swap. constructor. exact IH. Qed.
Lemma sort_le_perm {A} le (l : list A) : Permutation l (sort_le le l).
Proof. induction l as [|x l IH]; [constructor|]. cbn. rewrite <- insert_le_perm. constructor. exact IH. Qed.
Lemma sort_le_sorted {A} (le : A -> A -> bool) : (forall x y, le x y = true \/ le y x = true) ->
  (forall x y z, le x y = true -> le y z = true -> le x z = true) -> forall l, StronglySorted (fun x y => le x y = true) (sort_le le l).
Proof.
  intros T Tr. induction l as [|x l IH]; cbn [sort_le fold_right]; [constructor|]. change (fold_right (insert_le le) [] l) with (sort_le le l).
  revert IH. generalize (sort_le le l). clear l. induction l as [|y l IHl]; intros S; cbn; [repeat constructor|]. inversion S as [|? ? S1 F]; subst.
  destruct (le x y) eqn:E.
  - constructor; [exact S|]. constructor; [exact E|]. apply Forall_forall. intros z I. apply (Tr x y z E). exact (proj1 (Forall_forall _ _) F z I).
  - constructor; [apply IHl; exact S1|]. apply Forall_forall. intros z I. apply (Permutation_in _ (Permutation_sym (insert_le_perm le x l))) in I. destruct I as [<-|I].
    + destruct (T x y) as [H|H]; [congruence|exact H].
    + exact (proj1 (Forall_forall _ _) F z I).
Qed.
Lemma reshape_app : forall q b l, concat (reshape q b l) ++ skipn (q * b) l = l.
Proof.
  induction q as [|q IH]; intros b l; [reflexivity|]. cbn [reshape concat]. rewrite <- app_assoc. replace (S q * b) with (b + q * b) by lia.
  rewrite <- (firstn_skipn b l) at 4. f_equal. rewrite <- (IH b (skipn b l)) at 2. f_equal.
  symmetry. apply skipn_skipn_add.
Qed.
Lemma nth_map_lt {A B} (f : A -> B) l i d d' : i < length l -> nth i (map f l) d' = f (nth i l d).
Proof. intros H. rewrite (nth_indep _ d' (f d)) by (rewrite map_length; exact H). apply map_nth. Qed.
Lemma reshape_len : forall q b l, length (reshape q b l) = q.
Proof. induction q; intros; cbn; [reflexivity|]. f_equal. apply IHq. Qed.
Lemma reshape_row : forall q b l r, q * b <= length l -> In r (reshape q b l) -> length r = b.
Proof.
  induction q as [|q IH]; intros b l r H I; [destruct I|]. destruct I as [<-|I]; [rewrite firstn_length; lia|].
  apply (IH b (skipn b l)); [rewrite skipn_length; lia|exact I].
Qed.
Lemma map_nth_seq_all {A} (l : list A) d : map (fun i => nth i l d) (seq 0 (length l)) = l.
Proof. induction l as [|x l IH]; [reflexivity|]. cbn [length seq map nth]. f_equal. rewrite <- seq_shift, map_map. exact IH. Qed.
Lemma perm_rows {A} (rows : list A) d p : Permutation p (seq 0 (length rows)) -> Permutation (map (fun r => nth r rows d) p) rows.
Proof. intros P. etransitivity; [apply Permutation_map; exact P|]. rewrite map_nth_seq_all. apply Permutation_refl. Qed.
Lemma perm_concat {A} (l l' : list (list A)) : Permutation l l' -> Permutation (concat l) (concat l').
Proof.
  induction 1; cbn; [constructor|apply Permutation_app_head; assumption| |etransitivity; eassumption].
  rewrite !app_assoc. apply Permutation_app_tail. apply Permutation_app_comm.
Qed.
Lemma epoch_len n b : 1 <= b -> epoch_length n b = n / b + (if n / b * b <? n then 1 else 0).
Proof.
  intros B. unfold epoch_length. pose proof (Nat.div_mod n b ltac:(lia)) as D. pose proof (Nat.mod_upper_bound n b ltac:(lia)) as M.
  remember (n / b) as q. remember (n mod b) as r. destruct (Nat.ltb_spec (q * b) n).
  - symmetry. apply (Nat.div_unique _ b _ (r - 1)); nia.
  - symmetry. apply (Nat.div_unique _ b _ (b - 1)); nia.
Qed.

Section Loader.
Variables (data : list (nat * nat)) (test : option (list (nat * nat))) (mag : Q) (L : loader).
Hypothesis made : make_loader data test mag = Some L.
Hypothesis magpos : test <> None -> (0 < mag)%Q.
Notation n := (length data).

Lemma made_fields : keys L = map fst data /\ lengths L = map snd data /\ test_lengths L = option_map (map snd) test /\ num L = n /\ 1 <= n
  /\ (test <> None -> magnitude L = Some mag).
Proof.
  revert made magpos. unfold make_loader, num. intros E M. destruct data as [|x l] eqn:D; [discriminate|]. destruct test as [[|y t]|]; [discriminate| |].
  - match type of E with (if ?b then _ else _) = _ => destruct b; [discriminate|] end. injection E as <-. cbn [keys lengths test_lengths magnitude]. repeat split; try (cbn [map length]; rewrite ?map_length; lia).
    intros _. destruct (Qle_bool mag 0) eqn:Q; [|reflexivity]. apply Qle_bool_iff in Q. exfalso. assert (P : (0 < mag)%Q) by (apply M; discriminate). apply (Qlt_irrefl 0). eapply Qlt_le_trans; eassumption.
  - injection E as <-. cbn [keys lengths test_lengths magnitude]. repeat split; try (cbn [map length]; rewrite ?map_length; lia). congruence.
Qed.

(** the batches that a regrouping makes *)
Definition groups (b : Z) (d : draw) : list (list nat) :=
  match shuffle L b d with None => [] | Some s => batch_ids s ++ match last_batch s with Some l => [l] | None => [] end end.

Definition order_le (d : draw) : nat -> nat -> bool :=
  match test with None => le_noisy L d | Some t => le_lex L (map snd t) mag d end.
Lemma order_total d i j : order_le d i j = true \/ order_le d j i = true.
Proof.
  unfold order_le. assert (T : forall x y : Q, Qle_bool x y = true \/ Qle_bool y x = true).
  { intros x y. rewrite !Qle_bool_iff. destruct (Qlt_le_dec x y); [left; apply Qlt_le_weak; assumption|right; assumption]. }
  destruct test as [t|]; [|unfold le_noisy; apply T].
  unfold le_lex. rewrite !orb_true_iff, !andb_true_iff, !Nat.ltb_lt, !Nat.eqb_eq.
  destruct (lt_eq_lt_dec (nth i (lengths L) O) (nth j (lengths L) O)) as [[H|H]|H]; [left; left; exact H| |right; left; exact H].
  destruct (T (noisy_test (map snd t) mag d i) (noisy_test (map snd t) mag d j)); [left|right]; right; split; auto.
Qed.
Lemma order_trans d i j k : order_le d i j = true -> order_le d j k = true -> order_le d i k = true.
Proof.
  unfold order_le. destruct test as [t|]; [|unfold le_noisy; rewrite !Qle_bool_iff; apply Qle_trans].
  unfold le_lex. rewrite !orb_true_iff, !andb_true_iff, !Nat.ltb_lt, !Nat.eqb_eq, !Qle_bool_iff.
  intros [A|[A A']] [B|[B B']]; [left; lia|left; lia|left; lia|right; split; [lia|eapply Qle_trans; eassumption]].
Qed.
Definition orders (d : draw) : list nat := sort_le (order_le d) (seq 0 n).
Lemma orders_ok d : new_order L d = Some (orders d).
Proof.
  destruct made_fields as (_ & _ & TL & NU & _ & MG). unfold new_order, orders, order_le. rewrite TL, NU. clear TL. destruct test as [t|]; cbn; [|reflexivity].
  rewrite MG by discriminate. reflexivity.
Qed.
Lemma orders_len d : length (orders d) = n.
Proof. unfold orders. rewrite <- (Permutation_length (sort_le_perm _ _)). apply seq_length. Qed.

Lemma shuffle_ok b d : good_call n (b, d) -> exists s, shuffle L b d = Some s /\ idx s = (-1)%Z /\ batch_num s = Z.of_nat (length (batch_ids s)) /\ batch_size s = b
  /\ batch_ids s = map (map (fun i => nth i (map fst data) O)) (map (fun r => nth r (reshape (n / Z.to_nat b) (Z.to_nat b) (orders d)) []) (perm d))
  /\ last_batch s = (if n / Z.to_nat b * Z.to_nat b <? n then Some (map (fun i => nth i (map fst data) O) (skipn (n / Z.to_nat b * Z.to_nat b) (orders d))) else None).
Proof.
  intros [B G]. cbn [fst snd] in B, G. destruct made_fields as (K & _ & _ & NU & _). unfold shuffle. rewrite (proj2 (Z.ltb_ge b 1) B), orders_ok. cbv zeta.
  eexists. split; [reflexivity|]. cbn [idx batch_num batch_size batch_ids last_batch]. rewrite K, NU. repeat split. rewrite !map_length. reflexivity.
Qed.
Lemma groups_len b d : good_call n (b, d) -> length (groups b d) = epoch_length n (Z.to_nat b).
Proof.
  intros G. destruct (shuffle_ok b d G) as (s & E & _ & _ & _ & I & La). destruct G as [B (_ & _ & P)]. cbn [fst snd] in *. unfold groups. rewrite E, I, La, app_length, !map_length.
  rewrite (Permutation_length P), seq_length, epoch_len by lia. destruct (_ <? _); reflexivity.
Qed.

(** the calls of an epoch, from its k-th batch on *)
Lemma walk b all : forall calls k s, (forall c, In c calls -> fst c = b) -> batch_size s = b -> batch_num s = Z.of_nat (length (batch_ids s)) ->
  all = batch_ids s ++ match last_batch s with Some l => [l] | None => [] end -> idx s = (Z.of_nat k - 1)%Z -> k + length calls = length all ->
  exists s', run L s calls = (map Some (skipn k all), s') /\ batch_size s' = b /\ batch_num s' = batch_num s /\ last_batch s' = last_batch s /\ idx s' = (Z.of_nat (length all) - 1)%Z.
Proof.
  induction calls as [|[b0 d] calls IH]; intros k s Cb Sb Sn Ea Ei Len.
  - exists s. cbn [run]. cbn [length] in Len. rewrite skipn_all2 by lia. replace (length all) with k by lia. repeat split; assumption.
  - assert (b0 = b) by (apply (Cb (b0, d)); left; reflexivity). subst b0. cbn [length] in Len. cbn [run]. unfold get_batch.
    assert (A : at_idx (step s) b = Some (nth k all [])).
    { unfold at_idx. cbn [step idx batch_size batch_num batch_ids last_batch]. rewrite Sb, Z.eqb_refl, Sn, Ei. replace (Z.of_nat k - 1 + 1)%Z with (Z.of_nat k) by lia. rewrite Nat2Z.id.
      rewrite Ea in *. rewrite app_length in Len. destruct (Z.ltb_spec (Z.of_nat k) (Z.of_nat (length (batch_ids s)))); [rewrite app_nth1 by lia; reflexivity|].
      destruct (last_batch s) as [l|]; cbn [length] in Len; [|lia]. rewrite (proj2 (Z.eqb_eq _ _)) by lia. rewrite app_nth2 by lia. replace (k - _) with 0 by lia. reflexivity. }
    rewrite A. destruct (IH (S k) (step s)) as (s' & R & S1 & S2 & S3 & S4); cbn [step idx batch_size batch_num batch_ids last_batch]; try assumption; [intros c I; apply Cb; right; exact I|lia|lia|].
    rewrite R. exists s'. split; [|repeat split; assumption]. f_equal. assert (K : k < length all) by lia. clear -K. revert all K. induction k as [|k IHk]; intros all K; destruct all; cbn [length] in K; try lia; [reflexivity|].
    cbn [skipn nth]. rewrite <- IHk by lia. reflexivity.
Qed.
(** an epoch is over, or the batch size changes *)
Definition boundary (s : state) (b : Z) : Prop :=
  batch_size s <> b \/ (batch_num s + (match last_batch s with Some _ => 1 | None => 0 end) <= idx s + 1)%Z.
Lemma epoch_run b d calls s : boundary s b -> good_call n (b, d) -> (forall c, In c calls -> fst c = b) -> S (length calls) = epoch_length n (Z.to_nat b) ->
  exists s', run L s ((b, d) :: calls) = (map Some (groups b d), s') /\ batch_size s' = b /\ boundary s' b.
Proof.
  intros Bd G Cb Len. destruct (shuffle_ok b d G) as (s2 & E & I2 & N2 & Z2 & _ & _).
  assert (GR : groups b d = batch_ids s2 ++ match last_batch s2 with Some l => [l] | None => [] end) by (unfold groups; rewrite E; reflexivity).
  pose proof (groups_len b d G) as GL.
  destruct (walk b (groups b d) ((b, d) :: calls) 0 s2) as (s' & R & S1 & S2 & S3 & S4); try assumption; [intros c [<-|I]; [reflexivity|apply Cb; exact I]|cbn [length]; lia|].
  exists s'. cbn [skipn] in R. split; [|split; [exact S1|]].
  - rewrite <- R. cbn [run]. replace (get_batch L s b d) with (get_batch L s2 b d); [reflexivity|].
    assert (A : at_idx (step s) b = None).
    { unfold at_idx. cbn [step idx batch_size batch_num last_batch]. destruct (Z.eqb_spec b (batch_size s)) as [Q|Q]; [|reflexivity]. destruct Bd as [Bd|Bd]; [congruence|].
      destruct (Z.ltb_spec (idx s + 1) (batch_num s)); [destruct (last_batch s); lia|]. destruct (Z.eqb_spec (idx s + 1) (batch_num s)); [|reflexivity]. destruct (last_batch s); [lia|reflexivity]. }
    unfold get_batch. rewrite A, E.
    destruct (at_idx (step s2) b) as [r|] eqn:F; [reflexivity|]. exfalso. revert F. unfold at_idx. cbn [step idx batch_size batch_num last_batch]. rewrite Z2, Z.eqb_refl, I2, N2. cbn [Z.add].
    rewrite <- GL, GR, app_length in Len. destruct (batch_ids s2); cbn [length] in *; [|cbn; discriminate]. cbn. destruct (last_batch s2); [discriminate|cbn in Len; lia].
  - right. rewrite S2, S3, S4, GR, app_length, N2. destruct (last_batch s2); cbn [length]; lia.
Qed.
Lemma run_app s : forall c1 c2, run L s (c1 ++ c2) = (fst (run L s c1) ++ fst (run L (snd (run L s c1)) c2), snd (run L (snd (run L s c1)) c2)).
Proof.
  intros c1. revert s. induction c1 as [|[b d] c1 IH]; intros s c2; [cbn; destruct (run L s c2); reflexivity|]. cbn [app run]. destruct (get_batch L s b d) as [r s1]. rewrite IH. destruct (run L s1 c1). reflexivity.
Qed.
Lemma split_len {A} (l : list A) k : k <= length l -> exists a b, l = a ++ b /\ length a = k.
Proof. intros H. exists (firstn k l), (skipn k l). split; [symmetry; apply firstn_skipn|apply firstn_length_le; exact H]. Qed.
Lemma epochs_run b : (1 <= b)%Z -> forall e calls s, boundary s b -> (forall c, In c calls -> good_call n c /\ fst c = b) -> length calls = e * epoch_length n (Z.to_nat b) ->
  boundary (snd (run L s calls)) b.
Proof.
  intros B. assert (E1 : 1 <= epoch_length n (Z.to_nat b)).
  { destruct made_fields as (_ & _ & _ & _ & N1 & _). unfold epoch_length. apply Nat.div_le_lower_bound; lia. }
  induction e as [|e IH]; intros calls s Bd G Len.
  - destruct calls; [exact Bd|cbn in Len; lia].
  - destruct (split_len calls (epoch_length n (Z.to_nat b))) as (c1 & c2 & -> & L1); [lia|]. rewrite app_length in Len. destruct c1 as [|[b0 d] c1]; [cbn in L1; lia|].
    destruct (G (b0, d)) as [G0 G1]; [left; reflexivity|]. cbn [fst] in G1. subst b0.
    destruct (epoch_run b d c1 s Bd G0) as (s' & R & _ & Bd'); [intros c I; apply G; right; apply in_or_app; left; exact I|exact L1|].
    rewrite run_app, R. cbn [fst snd]. apply IH; [exact Bd'|intros c I; apply G; apply in_or_app; right; exact I|lia].
Qed.
(** a good call leaves its batch size *)
Lemma call_size s b d : good_call n (b, d) -> batch_size (snd (get_batch L s b d)) = b.
Proof.
  intros G. destruct (shuffle_ok b d G) as (s2 & E & _ & _ & Z2 & _). unfold get_batch. destruct (at_idx (step s) b) as [r|] eqn:A.
  - cbn [snd]. unfold at_idx in A. cbn [step batch_size] in A |- *. destruct (Z.eqb_spec b (batch_size s)); [congruence|discriminate].
  - rewrite E. exact Z2.
Qed.
Lemma before_boundary before b : (forall c, In c before -> good_call n c) -> (1 <= b)%Z -> (forall l c, before = l ++ [c] -> fst c <> b) -> boundary (snd (run L fresh before)) b.
Proof.
  intros G B N. left. destruct before as [|x l]; [cbn; lia|]. destruct (exists_last (l := x :: l)) as (l' & [b0 d] & E); [discriminate|]. rewrite E in *. clear x l E.
  rewrite run_app. cbn [snd run]. pose proof (call_size (snd (run L fresh l')) b0 d) as C. destruct (get_batch L (snd (run L fresh l')) b0 d) as [r s1]. cbn [snd] in *.
  rewrite C; [apply (N l' (b0, d)); reflexivity|]. apply G. apply in_or_app. right. left. reflexivity.
Qed.
Lemma groups_perm b d : good_call n (b, d) -> Permutation (concat (groups b d)) (map fst data).
Proof.
  intros G. destruct (shuffle_ok b d G) as (s & E & _ & _ & _ & I & La). destruct G as [B (_ & _ & P)]. cbn [fst snd] in *. unfold groups. rewrite E, I, La. clear E I La s.
  set (b' := Z.to_nat b) in *. set (q := n / b') in *. set (key := fun i => nth i (map fst data) O).
  assert (PR : Permutation (map (fun r => nth r (reshape q b' (orders d)) []) (perm d)) (reshape q b' (orders d))) by (apply perm_rows; rewrite reshape_len; exact P).
  replace (concat _) with (map key (concat (map (fun r => nth r (reshape q b' (orders d)) []) (perm d)) ++ skipn (q * b') (orders d))).
  - rewrite <- (map_nth_seq_all (map fst data) O). fold key. apply Permutation_map. rewrite map_length. etransitivity; [apply Permutation_app_tail, perm_concat; exact PR|]. rewrite reshape_app. symmetry. apply sort_le_perm.
  - rewrite concat_app, map_app, concat_map. f_equal. destruct (Nat.ltb_spec (q * b') n); [cbn; rewrite app_nil_r; reflexivity|]. rewrite skipn_all2 by (rewrite orders_len; lia). reflexivity.
Qed.
Lemma groups_sizes b d : good_call n (b, d) -> (forall i, S i < length (groups b d) -> length (nth i (groups b d) []) = Z.to_nat b) /\ (forall x, In x (groups b d) -> 1 <= length x <= Z.to_nat b).
Proof.
  intros G. destruct (shuffle_ok b d G) as (s & E & _ & _ & _ & I & La). destruct G as [B (_ & _ & P)]. cbn [fst snd] in *. unfold groups. rewrite E, I, La. clear E I La s.
  set (b' := Z.to_nat b) in *. set (q := n / b') in *. set (key := fun i => nth i (map fst data) O).
  assert (QB : q * b' <= n) by (pose proof (Nat.mul_div_le n b'); unfold q; lia). assert (QB' : n < S q * b') by (pose proof (Nat.mul_succ_div_gt n b'); unfold q; lia).
  assert (PR : Permutation (map (fun r => nth r (reshape q b' (orders d)) []) (perm d)) (reshape q b' (orders d))) by (apply perm_rows; rewrite reshape_len; exact P).
  assert (RW : forall x, In x (map (map key) (map (fun r => nth r (reshape q b' (orders d)) []) (perm d))) -> length x = b').
  { intros x X. apply in_map_iff in X as (y & <- & Y). rewrite map_length. apply (Permutation_in _ PR) in Y. apply (reshape_row _ _ _ _) in Y; [exact Y|rewrite orders_len; exact QB]. }
  split.
  - intros i Hi. rewrite app_length in Hi. rewrite app_nth1; [|destruct (_ <? _) in Hi; cbn [length] in Hi; lia]. apply RW, nth_In. destruct (_ <? _) in Hi; cbn [length] in Hi; lia.
  - intros x X. apply in_app_or in X as [X|X]; [rewrite (RW x X); lia|]. destruct (Nat.ltb_spec (q * b') n); [|destruct X]. destruct X as [<-|[]]. rewrite map_length, skipn_length, orders_len. cbn in QB'. lia.
Qed.

(** every batch of an epoch comes before or after every other one in the order of the series *)
Lemma sorted_app {A} (R : A -> A -> Prop) l1 l2 : StronglySorted R (l1 ++ l2) -> StronglySorted R l2 /\ forall x y, In x l1 -> In y l2 -> R x y.
Proof.
  induction l1 as [|a l1 IH]; cbn; intros S; [split; [exact S|intros ? ? []]|]. inversion S as [|? ? S1 F]; subst. destruct (IH S1) as [S2 C]. split; [exact S2|].
  intros x y [<-|X] Y; [|apply C; assumption]. apply (proj1 (Forall_forall _ _) F). apply in_or_app. right. exact Y.
Qed.
Definition before_all (R : nat -> nat -> Prop) (A B : list nat) : Prop := forall x y, In x A -> In y B -> R x y.
Lemma concat_sorted R : forall ls, StronglySorted R (concat ls) -> forall i j, i < j -> j < length ls -> before_all R (nth i ls []) (nth j ls []).
Proof.
  induction ls as [|l ls IH]; intros S i j Hi Hj; [cbn in Hj; lia|]. cbn [concat] in S. destruct (sorted_app R _ _ S) as [S2 C]. cbn [length] in Hj. destruct j as [|j]; [lia|]. destruct i as [|i]; cbn [nth].
  - intros x y X Y. apply C; [exact X|]. apply in_concat. exists (nth j ls []). split; [apply nth_In; lia|exact Y].
  - apply IH; [exact S2|lia|lia].
Qed.
Lemma groups_order b d : good_call n (b, d) -> forall i j, i <> j -> i < length (groups b d) -> j < length (groups b d) ->
  let ok A B := forall x y, In x A -> In y B -> exists p q, x = nth p (map fst data) O /\ y = nth q (map fst data) O /\ p < n /\ q < n /\ order_le d p q = true in
  ok (nth i (groups b d) []) (nth j (groups b d) []) \/ ok (nth j (groups b d) []) (nth i (groups b d) []).
Proof.
  intros G i j NE Hi Hj ok. pose proof (groups_len b d G) as GL. destruct (shuffle_ok b d G) as (s & E & _ & _ & _ & I & La). destruct G as [B (_ & _ & P)]. cbn [fst snd] in *.
  rewrite epoch_len in GL by lia.
  set (b' := Z.to_nat b) in *. set (q := n / b') in *. set (key := fun i => nth i (map fst data) O) in *.
  set (all := reshape q b' (orders d) ++ (if q * b' <? n then [skipn (q * b') (orders d)] else [])).
  set (pos := fun i => if i <? q then nth i (perm d) 0 else i).
  assert (LP : length (perm d) = q) by (rewrite (Permutation_length P); apply seq_length).
  assert (LA : length all = length (groups b d)) by (rewrite GL; unfold all; rewrite app_length, reshape_len; destruct (_ <? _); reflexivity).
  assert (CA : concat all = orders d).
  { unfold all. rewrite concat_app. rewrite <- (reshape_app q b' (orders d)) at 3. f_equal. destruct (Nat.ltb_spec (q * b') n); [cbn; apply app_nil_r|]. cbn. rewrite skipn_all2; [reflexivity|]. rewrite orders_len. lia. }
  assert (SO : StronglySorted (fun x y => order_le d x y = true) (concat all)) by (rewrite CA; apply sort_le_sorted; [apply order_total|apply order_trans]).
  assert (NG : forall k, k < length (groups b d) -> nth k (groups b d) [] = map key (nth (pos k) all [])).
  { intros k Hk. unfold groups in *. rewrite E, I, La in *. unfold pos, all. destruct (Nat.ltb_spec k q) as [Kq|Kq].
    - rewrite app_nth1 by (rewrite !map_length; lia). rewrite (nth_map_lt (map key) _ k []) by (rewrite map_length; lia). f_equal.
      rewrite (nth_map_lt (fun r => nth r (reshape q b' (orders d)) []) _ k 0) by lia. symmetry. apply app_nth1. rewrite reshape_len.
      assert (In (nth k (perm d) 0) (seq 0 q)) as S by (apply (Permutation_in _ P); apply nth_In; lia). apply in_seq in S. lia.
    - rewrite app_nth2 by (rewrite !map_length; lia). rewrite app_nth2 by (rewrite reshape_len; lia). rewrite !map_length, reshape_len, LP. rewrite app_length, !map_length, LP in Hk.
      destruct (q * b' <? n); cbn [length] in Hk; [|lia]. replace (k - q) with 0 by lia. reflexivity. }
  assert (PB : forall k, k < length (groups b d) -> pos k < length all).
  { intros k Hk. unfold pos. destruct (Nat.ltb_spec k q) as [Kq|Kq]; [|lia]. assert (In (nth k (perm d) 0) (seq 0 q)) as S by (apply (Permutation_in _ P); apply nth_In; lia). apply in_seq in S. rewrite LA, GL. lia. }
  assert (PN : pos i <> pos j).
  { unfold pos. assert (ND : NoDup (perm d)) by (apply (Permutation_NoDup (Permutation_sym P)); apply seq_NoDup). assert (IB : forall k, k < q -> nth k (perm d) 0 < q).
    { intros k K. assert (In (nth k (perm d) 0) (seq 0 q)) as S by (apply (Permutation_in _ P); apply nth_In; lia). apply in_seq in S. lia. }
    destruct (Nat.ltb_spec i q) as [Iq|Iq]; destruct (Nat.ltb_spec j q) as [Jq|Jq]; [|specialize (IB i Iq); lia|specialize (IB j Jq); lia|exact NE].
    intros X. apply NE. apply (proj1 (NoDup_nth (perm d) 0) ND); [lia|lia|exact X]. }
  assert (IN : forall k x, k < length all -> In x (nth k all []) -> x < n).
  { intros k x K X. assert (C : In x (concat all)) by (apply in_concat; exists (nth k all []); split; [apply nth_In; exact K|exact X]). rewrite CA in C. apply (Permutation_in _ (Permutation_sym (sort_le_perm _ _))) in C. apply in_seq in C. lia. }
  rewrite !NG by assumption. pose proof (PB i Hi). pose proof (PB j Hj).
  destruct (Nat.lt_ge_cases (pos i) (pos j)) as [Lt|Ge]; [left|right].
  - intros x y X Y. apply in_map_iff in X as (p & <- & X). apply in_map_iff in Y as (p' & <- & Y). exists p, p'. repeat split; [apply (IN (pos i)); assumption|apply (IN (pos j)); assumption|]. apply (concat_sorted _ _ SO (pos i) (pos j)); assumption.
  - intros x y X Y. apply in_map_iff in X as (p & <- & X). apply in_map_iff in Y as (p' & <- & Y). exists p, p'. repeat split; [apply (IN (pos j)); assumption|apply (IN (pos i)); assumption|]. apply (concat_sorted _ _ SO (pos j) (pos i)); [lia|assumption|assumption|assumption].
Qed.

(** the calls of an epoch: after calls with other sizes, after any number of whole epochs with the same size *)
Definition epoch_calls (b : Z) (before earlier calls : list (Z * draw)) : Prop :=
  (1 <= b)%Z /\ (forall c, In c (before ++ earlier ++ calls) -> good_call n c) /\ (forall l c, before = l ++ [c] -> fst c <> b)
  /\ (forall c, In c (earlier ++ calls) -> fst c = b)
  /\ (exists e, length earlier = e * epoch_length n (Z.to_nat b)) /\ length calls = epoch_length n (Z.to_nat b).
Lemma epoch_outcome b before earlier calls : epoch_calls b before earlier calls ->
  exists d rest, calls = (b, d) :: rest /\ good_call n (b, d) /\ exists outs, length outs = length (before ++ earlier) /\ fst (run L fresh (before ++ earlier ++ calls)) = outs ++ map Some (groups b d).
Proof.
  intros (B & G & N & Sz & (e & Le) & Lc). assert (E1 : 1 <= epoch_length n (Z.to_nat b)).
  { destruct made_fields as (_ & _ & _ & _ & N1 & _). unfold epoch_length. apply Nat.div_le_lower_bound; lia. }
  destruct calls as [|[b0 d] rest]; [cbn in Lc; lia|]. assert (b0 = b) by (apply (Sz (b0, d)); apply in_or_app; right; left; reflexivity). subst b0.
  assert (G0 : good_call n (b, d)) by (apply G; apply in_or_app; right; apply in_or_app; right; left; reflexivity).
  exists d, rest. split; [reflexivity|]. split; [exact G0|].
  assert (B1 : boundary (snd (run L fresh before)) b) by (apply before_boundary; [intros c I; apply G; apply in_or_app; left; exact I|exact B|exact N]).
  assert (B2 : boundary (snd (run L fresh (before ++ earlier))) b).
  { rewrite run_app. cbn [snd]. apply (epochs_run b B e); [exact B1| |exact Le]. intros c I. split; [apply G; apply in_or_app; right; apply in_or_app; left; exact I|apply Sz; apply in_or_app; left; exact I]. }
  rewrite app_assoc, run_app. cbn [fst]. exists (fst (run L fresh (before ++ earlier))). split.
  - clear. generalize fresh. generalize (before ++ earlier). induction l as [|[b d] l IH]; intros s; [reflexivity|]. cbn [run]. destruct (get_batch L s b d) as [r s1]. specialize (IH s1). destruct (run L s1 l). cbn [fst length] in *. f_equal. exact IH.
  - f_equal. destruct (epoch_run b d rest _ B2 G0) as (s' & R & _); [intros c I; apply Sz; apply in_or_app; right; right; exact I|exact Lc|]. rewrite R. reflexivity.
Qed.
End Loader.

(** C195.  In every epoch, no call fails and every series is in exactly one batch; all batches but the last have the size
    asked for, the last one at most that. *)
Theorem C195_epoch_partial : forall data test mag L, make_loader data test mag = Some L -> (test <> None -> (0 < mag)%Q) ->
  forall b before earlier calls, epoch_calls data b before earlier calls ->
  exists outs batches, fst (run L fresh (before ++ earlier ++ calls)) = outs ++ map Some batches /\ length outs = length (before ++ earlier)
    /\ Permutation (concat batches) (map fst data)
    /\ (forall i, S i < length batches -> length (nth i batches []) = Z.to_nat b) /\ (forall x, In x batches -> 1 <= length x <= Z.to_nat b).
Proof.
  intros data test mag L M P b before earlier calls E. destruct (epoch_outcome data test mag L M P b before earlier calls E) as (d & rest & _ & G & outs & Lo & R).
  exists outs, (groups L b d). split; [exact R|]. split; [exact Lo|]. split; [eapply groups_perm; eassumption|]. eapply groups_sizes; eassumption.
Qed.
Definition draw4 (p : list nat) : draw := {| noise := [1#2; 0; 0; 0]%Q; perm := p |}.
Example C195_case : let data := [(7, 20); (8, 12); (9, 20); (4, 15)] in
  exists L, make_loader data None 5 = Some L /\ epoch_calls data 3 [(2%Z, draw4 [1; 0])] [(3%Z, draw4 [0]); (3%Z, draw4 [0])] [(3%Z, draw4 [0]); (3%Z, draw4 [0])]
  /\ fst (run L fresh [(2%Z, draw4 [1; 0]); (3%Z, draw4 [0]); (3%Z, draw4 [0])]) = [Some [9; 7]; Some [8; 4; 9]; Some [7]].
Proof.
  cbv zeta. eexists. split; [reflexivity|]. split; [|vm_compute; reflexivity]. assert (GD : forall b p, Permutation p (seq 0 (4 / Z.to_nat b)) -> good_draw 4 b (draw4 p)).
  { intros b p P. repeat split; [| |exact P]; repeat (destruct H as [<-|H]; [vm_compute; congruence|]); destruct H. }
  split; [lia|]. split; [|split; [|split; [|split; [|reflexivity]]]].
  - intros c H. destruct H as [<-|[<-|[<-|[<-|[<-|[]]]]]]; (split; [cbn; lia|]); apply GD; cbn; (apply Permutation_refl || apply perm_swap).
  - intros l c E. destruct l as [|x l]; [injection E as <-; cbn; lia|]. injection E as _ E. destruct l; discriminate.
  - intros c H. destruct H as [<-|[<-|[<-|[<-|[]]]]]; reflexivity.
  - exists 1. reflexivity.
Qed.
(** A call that raises moves the position on all the same, and a batch of the epoch is skipped: two of the four series are not
    given out, two others twice. *)
Theorem C195_failed_call_refuted : ~ (forall data L b d1 d2 d3 A B, make_loader data None 5 = Some L -> good_call (length data) (b, d1) -> good_call (length data) (b, d3) -> epoch_length (length data) (Z.to_nat b) = 2 ->
  fst (run L fresh [(b, d1); (0%Z, d2); (b, d3)]) = [Some A; None; Some B] -> Permutation (A ++ B) (map fst data)).
Proof.
  intros H. assert (GD : good_call 4 (2%Z, draw4 [0; 1])).
  { split; [cbn; lia|]. repeat split; [| |apply Permutation_refl]; repeat (destruct H0 as [<-|H0]; [vm_compute; congruence|]); destruct H0. }
  specialize (H [(7, 20); (8, 12); (9, 20); (4, 15)] _ 2%Z (draw4 [0; 1]) (draw4 [0; 1]) (draw4 [0; 1]) [8; 4] [8; 4] eq_refl GD GD eq_refl eq_refl).
  assert (I : In 7 ([8; 4] ++ [8; 4])) by (apply (Permutation_in _ (Permutation_sym H)); left; reflexivity). cbn in I. lia.
Qed.

Lemma app_inj_len {A} (a b c d : list A) : a ++ b = c ++ d -> length a = length c -> a = c /\ b = d.
Proof. revert c. induction a as [|x a IH]; intros [|y c] E Le; cbn in *; try discriminate; [auto|]. injection E as -> E. injection Le as Le. destruct (IH c E Le) as [-> ->]. auto. Qed.
Lemma map_some_inj {A} : forall a b : list A, map Some a = map Some b -> a = b.
Proof. induction a as [|x a IH]; intros [|y b] E; try discriminate; [reflexivity|]. injection E as -> E. f_equal. apply IH. exact E. Qed.
Lemma key_pos {A} : forall (data : list (nat * A)) p (l : A), NoDup (map fst data) -> p < length data -> forall dflt, In (nth p (map fst data) O, l) data -> l = nth p (map snd data) dflt.
Proof.
  induction data as [|[k x] data IH]; intros p l ND Hp dflt I; [cbn in Hp; lia|]. inversion ND as [|? ? N1 N2]; subst. destruct p as [|p]; cbn [map nth fst snd] in *.
  - destruct I as [E|I]; [congruence|]. exfalso. apply N1. change k with (fst (k, l)). apply in_map. exact I.
  - destruct I as [E|I]; [|apply IH; [exact N2|cbn in Hp; lia|exact I]]. exfalso. injection E as E _. apply N1. rewrite E. apply nth_In. rewrite map_length. cbn in Hp. lia.
Qed.
Lemma order_lengths n test mag L b d p q : good_call n (b, d) -> p < n -> q < n -> order_le test mag L d p q = true -> nth p (lengths L) O <= nth q (lengths L) O.
Proof.
  intros [_ (LN & U & _)] Hp Hq HO. cbn [snd] in *. unfold order_le in HO. destruct test as [t|].
  - unfold le_lex in HO. apply orb_true_iff in HO as [HO|HO]; [apply Nat.ltb_lt in HO; lia|]. apply andb_true_iff in HO as [HO _]. apply Nat.eqb_eq in HO. lia.
  - unfold le_noisy in HO. apply Qle_bool_iff in HO. unfold noisy_length, qn in HO. destruct (U (nth p (noise d) 0%Q)) as [Up _]; [apply nth_In; lia|]. destruct (U (nth q (noise d) 0%Q)) as [_ Uq]; [apply nth_In; lia|].
    destruct (Nat.le_gt_cases (nth p (lengths L) O) (nth q (lengths L) O)) as [H|H]; [exact H|]. exfalso.
    assert (F : (inject_Z (Z.of_nat (nth q (lengths L) O)) + 1 <= inject_Z (Z.of_nat (nth p (lengths L) O)))%Q) by (rewrite <- (inject_Z_plus _ 1), <- Zle_Qle; lia). lra.
Qed.
(** C196.  Batches hold series of similar length: of two batches of an epoch, no series of the one is longer than a series of
    the other. *)
Theorem C196_lengths : forall data test mag L, make_loader data test mag = Some L -> (test <> None -> (0 < mag)%Q) -> NoDup (map fst data) ->
  forall b before earlier calls outs batches, epoch_calls data b before earlier calls ->
  fst (run L fresh (before ++ earlier ++ calls)) = outs ++ map Some batches -> length outs = length (before ++ earlier) ->
  forall i j, i <> j -> i < length batches -> j < length batches ->
  let shorter A B := forall k1 l1 k2 l2, In k1 A -> In k2 B -> In (k1, l1) data -> In (k2, l2) data -> l1 <= l2 in
  shorter (nth i batches []) (nth j batches []) \/ shorter (nth j batches []) (nth i batches []).
Proof.
  intros data test mag L M MP ND b before earlier calls outs batches E R Lo i j NE Hi Hj shorter.
  destruct (epoch_outcome data test mag L M MP b before earlier calls E) as (d & rest & _ & G & outs' & Lo' & R'). rewrite R in R'.
  apply app_inj_len in R' as [_ Eb]; [|congruence]. apply map_some_inj in Eb. subst batches.
  assert (K : forall A B, (forall x y, In x A -> In y B -> exists p q, x = nth p (map fst data) O /\ y = nth q (map fst data) O /\ p < length data /\ q < length data /\ order_le test mag L d p q = true) -> shorter A B).
  { intros A B H k1 l1 k2 l2 I1 I2 D1 D2. destruct (H k1 k2 I1 I2) as (p & q & -> & -> & Hp & Hq & OO). apply (fun I => key_pos _ _ _ ND Hp O I) in D1. apply (fun I => key_pos _ _ _ ND Hq O I) in D2. subst l1 l2.
    destruct (made_fields data test mag L M MP) as (_ & <- & _). eapply order_lengths; eassumption. }
  destruct (groups_order data test mag L M MP b d G i j NE Hi Hj) as [H|H]; [left|right]; apply K; exact H.
Qed.
(** If the keys of the test data come in the order of the keys of the data, then of two series of the same length the one whose
    test series is shorter by the magnitude of the noise or more is not in a later batch. *)
Theorem C196_test_partial : forall data test mag L, make_loader data (Some test) mag = Some L -> (0 < mag)%Q -> NoDup (map fst data) -> map fst test = map fst data ->
  forall b before earlier calls outs batches, epoch_calls data b before earlier calls ->
  fst (run L fresh (before ++ earlier ++ calls)) = outs ++ map Some batches -> length outs = length (before ++ earlier) ->
  forall i j, i <> j -> i < length batches -> j < length batches ->
  let sooner A B := forall k1 l1 t1 k2 l2 t2, In k1 A -> In k2 B -> In (k1, l1) data -> In (k2, l2) data -> In (k1, t1) test -> In (k2, t2) test ->
    l1 < l2 \/ (l1 = l2 /\ inject_Z (Z.of_nat t1) < inject_Z (Z.of_nat t2) + mag)%Q in
  sooner (nth i batches []) (nth j batches []) \/ sooner (nth j batches []) (nth i batches []).
Proof.
  intros data test mag L M MP ND TK b before earlier calls outs batches E R Lo i j NE Hi Hj sooner. assert (MP' : Some test <> None -> (0 < mag)%Q) by (intros _; exact MP).
  destruct (epoch_outcome data (Some test) mag L M MP' b before earlier calls E) as (d & rest & _ & G & outs' & Lo' & R'). rewrite R in R'.
  apply app_inj_len in R' as [_ Eb]; [|congruence]. apply map_some_inj in Eb. subst batches.
  assert (LT : length test = length data) by (rewrite <- (map_length fst test), TK; apply map_length).
  assert (K : forall A B, (forall x y, In x A -> In y B -> exists p q, x = nth p (map fst data) O /\ y = nth q (map fst data) O /\ p < length data /\ q < length data /\ order_le (Some test) mag L d p q = true) -> sooner A B).
  { intros A B H k1 l1 t1 k2 l2 t2 I1 I2 D1 D2 T1 T2. destruct (H k1 k2 I1 I2) as (p & q & -> & -> & Hp & Hq & OO). apply (fun I => key_pos _ _ _ ND Hp O I) in D1. apply (fun I => key_pos _ _ _ ND Hq O I) in D2. subst l1 l2.
    rewrite <- TK in T1, T2, ND. apply (fun I => key_pos _ _ _ ND (eq_ind_r (fun m => p < m) Hp LT) O I) in T1. apply (fun I => key_pos _ _ _ ND (eq_ind_r (fun m => q < m) Hq LT) O I) in T2. subst t1 t2.
    destruct (made_fields data (Some test) mag L M MP') as (_ & <- & _). cbn [order_le] in OO. unfold le_lex in OO. apply orb_true_iff in OO as [OO|OO]; [left; apply Nat.ltb_lt; exact OO|].
    apply andb_true_iff in OO as [O1 O2]. right. split; [apply Nat.eqb_eq; exact O1|]. apply Qle_bool_iff in O2. unfold noisy_test, qn in O2. destruct G as [_ (LN & U & _)]. cbn [snd] in *.
    destruct (U (nth p (noise d) 0%Q)) as [Up _]; [apply nth_In; lia|]. destruct (U (nth q (noise d) 0%Q)) as [_ Uq]; [apply nth_In; lia|].
    revert O2. generalize (inject_Z (Z.of_nat (nth p (map snd test) O))) (inject_Z (Z.of_nat (nth q (map snd test) O))). intros x y O2. revert Up Uq O2. generalize (nth p (noise d) 0%Q) (nth q (noise d) 0%Q). intros u v Up Uq O2.
    assert (0 <= u * mag)%Q by (apply Qmult_le_0_compat; [exact Up|apply Qlt_le_weak; exact MP]). assert (v * mag < 1 * mag)%Q by (apply Qmult_lt_compat_r; assumption). lra. }
  destruct (groups_order data (Some test) mag L M MP' b d G i j NE Hi Hj) as [H|H]; [left|right]; apply K; exact H.
Qed.
(** If they come in another order — the constructor only compares the sets — the lengths of the test series are taken for those
    of other series, and batches are mixed of short and long ones. *)
Theorem C196_test_refuted : ~ (forall data test mag L, make_loader data (Some test) mag = Some L -> (0 < mag)%Q -> NoDup (map fst data) -> Permutation (map fst test) (map fst data) ->
  forall b before earlier calls outs batches, epoch_calls data b before earlier calls ->
  fst (run L fresh (before ++ earlier ++ calls)) = outs ++ map Some batches -> length outs = length (before ++ earlier) ->
  forall i j, i <> j -> i < length batches -> j < length batches ->
  let sooner A B := forall k1 l1 t1 k2 l2 t2, In k1 A -> In k2 B -> In (k1, l1) data -> In (k2, l2) data -> In (k1, t1) test -> In (k2, t2) test ->
    l1 < l2 \/ (l1 = l2 /\ inject_Z (Z.of_nat t1) < inject_Z (Z.of_nat t2) + mag)%Q in
  sooner (nth i batches []) (nth j batches []) \/ sooner (nth j batches []) (nth i batches [])).
Proof.
  intros H. set (data := [(1, 9); (2, 9); (3, 9); (4, 9)]). set (test := [(1, 1); (3, 80); (2, 1); (4, 80)]).
  assert (EC : epoch_calls data 2 [] [] [(2%Z, draw4 [0; 1]); (2%Z, draw4 [0; 1])]).
  { assert (GD : good_call 4 (2%Z, draw4 [0; 1])) by (split; [cbn; lia|]; repeat split; [| |apply Permutation_refl]; repeat (destruct H0 as [<-|H0]; [vm_compute; congruence|]); destruct H0).
    split; [lia|]. split; [intros c [<-|[<-|[]]]; exact GD|]. split; [intros [|? ?] c E; discriminate|]. split; [intros c [<-|[<-|[]]]; reflexivity|]. split; [exists 0; reflexivity|reflexivity]. }
  specialize (H data test 5%Q _ eq_refl ltac:(reflexivity)).
  assert (ND : NoDup (map fst data)) by (cbn; repeat constructor; cbn; lia). specialize (H ND ltac:(cbn; apply perm_skip, perm_swap) 2%Z [] [] _ [] [[3; 1]; [2; 4]] EC ltac:(vm_compute; reflexivity) eq_refl 0 1 ltac:(lia) ltac:(cbn; lia) ltac:(cbn; lia)).
  cbn [nth] in H. destruct H as [H|H].
  - destruct (H 3 9 80 2 9 1) as [F|[_ F]]; cbn; auto; [lia|]. vm_compute in F. discriminate.
  - destruct (H 4 9 80 1 9 1) as [F|[_ F]]; cbn; auto; [lia|]. vm_compute in F. discriminate.
Qed.
(** A loader is made exactly for a non-empty dataset, together with test data for exactly
    the same series if test data are given. *)
Theorem C196_refused : forall data test mag, NoDup (map fst data) ->
  (make_loader data None mag <> None <-> data <> []) /\
  (NoDup (map fst test) ->
   (make_loader data (Some test) mag <> None <-> data <> [] /\ forall k, In k (map fst data) <-> In k (map fst test))).
Proof.
  intros data test mag N. split.
  - unfold make_loader. destruct data; split; intros H; try discriminate; congruence.
  - intros NT.
    assert (EX : forall k l, existsb (Nat.eqb k) l = true <-> In k l).
    { intros k l. rewrite existsb_exists. split; [intros (x & I & E); apply Nat.eqb_eq in E; subst; exact I|].
      intros I. exists k. split; [exact I|apply Nat.eqb_refl]. }
    assert (FL : forall p (l : list nat), length (filter p l) = length l -> forall x, In x l -> p x = true).
    { intros p. induction l as [|y l IH]; simpl; intros E x I; [destruct I|].
      assert (LE : (length (filter p l) <= length l)%nat).
      { clear. induction l as [|z l IH]; simpl; [lia|]. destruct (p z); simpl; lia. }
      destruct (p y) eqn:Y; simpl in E; [|lia]. destruct I as [<-|I]; [exact Y|]. apply IH; [lia|exact I]. }
    unfold make_loader. destruct data as [|d0 ds] eqn:D.
    { split; [congruence|intros [X _]; congruence]. }
    rewrite <- D in *. assert (NE : data <> []) by (rewrite D; discriminate).
    destruct test as [|x0 xs] eqn:T.
    { split; [congruence|]. intros [_ X]. exfalso. apply (proj1 (X (fst d0))). rewrite D. now left. }
    rewrite <- T in *.
    replace (match test with [] => None | _ :: _ => _ end) with (if negb (length data =? length test) || negb (length (filter (fun k => existsb (Nat.eqb k) (map fst test)) (map fst data)) =? length data) then None else Some {| keys := map fst data; lengths := map snd data; test_lengths := Some (map snd test); magnitude := if Qle_bool mag 0 then None else Some mag |}) by (rewrite T; reflexivity).
    destruct (Nat.eqb_spec (length data) (length test)) as [L|L]; simpl.
    + destruct (Nat.eqb_spec (length (filter (fun k => existsb (Nat.eqb k) (map fst test)) (map fst data))) (length data)) as [F|F]; simpl.
      * split; [intros _|intros _; discriminate]. split; [exact NE|].
        assert (INC : incl (map fst data) (map fst test)).
        { intros k I. apply EX. apply (FL _ _ ltac:(rewrite F, map_length; reflexivity) k I). }
        intros k. split; [apply INC|]. apply (NoDup_length_incl N); [rewrite !map_length; lia|exact INC].
      * split; [congruence|]. intros [_ X]. exfalso. apply F.
        assert (A : forall k, In k (map fst data) -> existsb (Nat.eqb k) (map fst test) = true) by (intros k I; apply EX, X, I).
        rewrite <- (map_length fst data). clear -A. induction (map fst data) as [|y l IH]; [reflexivity|]. simpl.
        rewrite (A y (or_introl eq_refl)). simpl. f_equal. apply IH. intros k I. apply A. now right.
    + split; [congruence|]. intros [_ X]. exfalso. apply L.
      rewrite <- (map_length fst data), <- (map_length fst test).
      apply Nat.le_antisymm; [apply (NoDup_incl_length N)|apply (NoDup_incl_length NT)]; intros k I; apply X; exact I.
Qed.

Example C196_case : exists L, make_loader [(1, 9); (2, 9); (3, 9); (4, 9)] (Some [(1, 80); (2, 1); (3, 80); (4, 1)]) 5 = Some L
  /\ fst (run L fresh [(2%Z, draw4 [0; 1]); (2%Z, draw4 [0; 1])]) = [Some [2; 4]; Some [3; 1]].
Proof. eexists. split; vm_compute; reflexivity. Qed.
(** A loader with test data whose magnitude is not positive is made, and every call raises. *)
Theorem C195_magnitude_refuted : ~ (forall data test mag L b d, make_loader data (Some test) mag = Some L -> good_call (length data) (b, d) -> fst (get_batch L fresh b d) <> None).
Proof.
  intros H. assert (GD : good_call 4 (2%Z, draw4 [0; 1])) by (split; [cbn; lia|]; repeat split; [| |apply Permutation_refl]; repeat (destruct H0 as [<-|H0]; [vm_compute; congruence|]); destruct H0).
  apply (H [(1, 9); (2, 9); (3, 9); (4, 9)] [(1, 80); (2, 1); (3, 80); (4, 1)] 0%Q _ 2%Z (draw4 [0; 1]) eq_refl GD). reflexivity.
Qed.

Print Assumptions C195_epoch_partial.
Print Assumptions C195_failed_call_refuted.
Print Assumptions C196_lengths.
Print Assumptions C196_test_partial.
Print Assumptions C196_test_refuted.
Print Assumptions C195_magnitude_refuted.

Print Assumptions C196_refused.
