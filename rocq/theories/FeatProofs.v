(** Lemmas on the feature columns. *)
From Verif Require Import Common FeatModel FeatSpec.
Open Scope nat_scope.

Lemma nth_firstn_lt {A} : forall k (l : list A) i d, i < k -> nth i (firstn k l) d = nth i l d.
Proof. induction k as [|k IH]; intros [|x l] [|i] d H; cbn; try reflexivity; try lia. apply IH. lia. Qed.
Lemma shift_length {A} n (s : list (option A)) : length (shift n s) = length s.
Proof. unfold shift. rewrite firstn_length, app_length, repeat_length. lia. Qed.
Lemma shift_nth {A} n (s : list (option A)) i : i < length s -> nth i (shift n s) None = if i <? n then None else nth (i - n) s None.
Proof.
  intros H. unfold shift. rewrite nth_firstn_lt by exact H. destruct (Nat.ltb_spec i n).
  - rewrite app_nth1 by (rewrite repeat_length; lia). apply nth_repeat.
  - rewrite app_nth2 by (rewrite repeat_length; lia). now rewrite repeat_length.
Qed.
Lemma shift_firstn {A} n k (s : list (option A)) : shift n (firstn k s) = firstn k (shift n s).
Proof.
  unfold shift. rewrite firstn_firstn, firstn_length.
  set (m := Nat.min k (length s)). rewrite !firstn_app, repeat_length, firstn_firstn. f_equal.
  replace (Nat.min (m - n) k) with (m - n) by (unfold m; lia). reflexivity.
Qed.
Lemma shift_back_length {A} n (s : list (option A)) : length (shift_back n s) = length s.
Proof. unfold shift_back. rewrite app_length, skipn_length, repeat_length. lia. Qed.
Lemma nth_skipn_add {A} : forall n (l : list A) i d, nth i (skipn n l) d = nth (n + i) l d.
Proof. induction n as [|n IH]; intros [|x l] i d; cbn; try reflexivity. - now destruct i. - apply IH. Qed.
Lemma shift_back_nth {A} n (s : list (option A)) i : nth i (shift_back n s) None = nth (i + n) s None.
Proof.
  unfold shift_back. destruct (Nat.ltb_spec (i + n) (length s)) as [H|H].
  - rewrite app_nth1 by (rewrite skipn_length; lia). rewrite nth_skipn_add. f_equal. lia.
  - rewrite (nth_overflow s) by lia. destruct (Nat.ltb_spec i (length (skipn n s))) as [L|L].
    + rewrite skipn_length in L. lia.
    + rewrite app_nth2 by exact L. apply nth_repeat.
Qed.
Lemma map2_length {A B C} (f : A -> B -> C) : forall a b, length (map2 f a b) = Nat.min (length a) (length b).
Proof. induction a as [|x a IH]; intros [|y b]; cbn; try reflexivity. now rewrite IH. Qed.
Lemma map2_firstn {A B C} (f : A -> B -> C) : forall k a b, map2 f (firstn k a) (firstn k b) = firstn k (map2 f a b).
Proof. induction k as [|k IH]; intros [|x a] [|y b]; cbn; try reflexivity. now rewrite IH. Qed.
Lemma map2_nth {A B C} (f : A -> B -> C) : forall a b i da db dc, i < length a -> i < length b -> nth i (map2 f a b) dc = f (nth i a da) (nth i b db).
Proof. induction a as [|x a IH]; intros [|y b] [|i] da db dc H1 H2; cbn in *; try lia; [reflexivity|]. apply IH; lia. Qed.
Lemma map_firstn {A B} (f : A -> B) : forall k l, map f (firstn k l) = firstn k (map f l).
Proof. intros. symmetry. apply firstn_map. Qed.

Lemma rolling_go_length {A B} (agg : list A -> option B) n : forall s seen, length (rolling_go agg n seen s) = length s.
Proof. induction s as [|x s IH]; intros seen; cbn; [reflexivity|]. now rewrite IH. Qed.
Lemma rolling_go_firstn {A B} (agg : list A -> option B) n : forall s seen k, rolling_go agg n seen (firstn k s) = firstn k (rolling_go agg n seen s).
Proof. induction s as [|x s IH]; intros seen [|k]; try reflexivity. cbn [firstn rolling_go]. now rewrite IH. Qed.
Lemma all_some_map {A} (l : list A) : all_some (map Some l) = Some l.
Proof. induction l as [|x l IH]; [reflexivity|]. cbn. now rewrite IH. Qed.
Lemma all_some_inv {A} : forall (l : list (option A)) w, all_some l = Some w -> l = map Some w.
Proof.
  induction l as [|[x|] l IH]; intros w H; cbn in H; [injection H as <-; reflexivity| |discriminate].
  destruct (all_some l); [|discriminate]. injection H as <-. cbn. now rewrite (IH _ eq_refl).
Qed.
Lemma all_some_none {A} : forall (l : list (option A)), all_some l = None -> In None l.
Proof.
  induction l as [|[x|] l IH]; intros H; cbn in H; [discriminate| |now left].
  destruct (all_some l); [discriminate|]. right. now apply IH.
Qed.
(** row i of a rolling aggregate: [seen] reversed is what precedes *)
Lemma rolling_go_nth {A B} (agg : list A -> option B) n : forall s seen i, i < length s ->
  nth i (rolling_go agg n seen s) None =
    (let w := firstn n (rev (firstn (S i) s) ++ seen) in
     if n <=? S i + length seen then match all_some w with Some w => agg (rev w) | None => None end else None).
Proof.
  induction s as [|x s IH]; intros seen i H; [cbn in H; lia|].
  destruct i as [|i].
  - cbn [rolling_go nth firstn rev app length]. reflexivity.
  - cbn [rolling_go nth]. rewrite IH by (cbn in H; lia). cbn zeta.
    replace (S i + length (x :: seen)) with (S (S i) + length seen) by (cbn; lia).
    replace (rev (firstn (S (S i)) (x :: s)) ++ seen) with (rev (firstn (S i) s) ++ x :: seen); [reflexivity|].
    change (firstn (S (S i)) (x :: s)) with (x :: firstn (S i) s). cbn [rev]. now rewrite <- app_assoc.
Qed.
Lemma firstn_rev {A} n (l : list A) : n <= length l -> firstn n (rev l) = rev (skipn (length l - n) l).
Proof.
  intros H. rewrite <- (firstn_skipn (length l - n) l) at 1. rewrite rev_app_distr, firstn_app.
  rewrite rev_length, skipn_length. replace (n - (length l - (length l - n))) with 0 by lia. cbn [firstn]. rewrite app_nil_r.
  apply firstn_all2. rewrite rev_length, skipn_length. lia.
Qed.
(** the rolling window of row i is the list of rows i-n+1 .. i *)
Lemma rolling_some {A B} (agg : list A -> option B) n s i w : i < length s -> n <= S i ->
  firstn n (skipn (S i - n) s) = map Some w -> nth i (rolling agg n s) None = agg w.
Proof.
  intros H L E. unfold rolling. rewrite rolling_go_nth by exact H. cbn zeta. rewrite app_nil_r. cbn [length]. rewrite Nat.add_0_r.
  rewrite (proj2 (Nat.leb_le _ _) L).
  rewrite firstn_rev by (rewrite firstn_length; lia). rewrite firstn_length, Nat.min_l by lia.
  assert (W : skipn (S i - n) (firstn (S i) s) = map Some w).
  { rewrite <- E. rewrite skipn_firstn_comm. f_equal. lia. }
  rewrite W, <- map_rev, all_some_map. now rewrite rev_involutive.
Qed.
Lemma rolling_none {A B} (agg : list A -> option B) n s i : i < length s ->
  (S i < n \/ exists j, S i - n <= j <= i /\ nth j s None = None) -> 1 <= n -> nth i (rolling agg n s) None = None.
Proof.
  intros H C N. unfold rolling. rewrite rolling_go_nth by exact H. cbn zeta. rewrite app_nil_r. cbn [length]. rewrite Nat.add_0_r.
  destruct (Nat.leb_spec n (S i)) as [L|L]; [|reflexivity]. destruct C as [C|(j & J & E)]; [lia|].
  destruct (all_some (firstn n (rev (firstn (S i) s)))) as [w|] eqn:A1; [|reflexivity]. exfalso.
  apply all_some_inv in A1. rewrite firstn_rev in A1 by (rewrite firstn_length; lia). rewrite firstn_length, Nat.min_l in A1 by lia.
  assert (IN : In (nth j s None) (rev (skipn (S i - n) (firstn (S i) s)))).
  { rewrite <- in_rev. rewrite <- (nth_firstn_lt (S i) s j None) by lia.
    replace j with ((S i - n) + (j - (S i - n))) by lia. rewrite <- nth_skipn_add. apply nth_In. rewrite skipn_length, firstn_length. lia. }
  rewrite A1, E in IN. apply in_map_iff in IN as (x & X & _). discriminate.
Qed.

Section Ewm.
Variables (alpha : Q) (adjust : bool) (minp : nat).
Lemma ewm_go_length : forall s st, length (ewm_go alpha adjust minp st s) = length s.
Proof. induction s as [|x s IH]; intros st; cbn [ewm_go length]; [reflexivity|]. now rewrite IH. Qed.
Lemma ewm_go_firstn : forall s st k, ewm_go alpha adjust minp st (firstn k s) = firstn k (ewm_go alpha adjust minp st s).
Proof. induction s as [|x s IH]; intros st [|k]; try reflexivity. cbn [firstn ewm_go]. now rewrite IH. Qed.
(** the state after the first k rows *)
Definition after (k : nat) (s : column) := fold_left (ewm_step alpha adjust) (firstn k s) (None, 1%Q, O).
Lemma ewm_go_nth : forall s st i, i < length s ->
  nth i (ewm_go alpha adjust minp st s) None = ewm_out minp (fold_left (ewm_step alpha adjust) (firstn (S i) s) st).
Proof.
  induction s as [|x s IH]; intros st i H; [cbn in H; lia|]. destruct i as [|i].
  - reflexivity.
  - cbn [ewm_go nth]. rewrite IH by (cbn in H; lia). reflexivity.
Qed.
Lemma ewm_nth s i : i < length s -> nth i (ewm alpha adjust minp s) None = ewm_out minp (after (S i) s).
Proof. intros H. unfold ewm. now rewrite ewm_go_nth. Qed.
Lemma after_S k s : k < length s -> after (S k) s = ewm_step alpha adjust (after k s) (row s k).
Proof.
  intros H. unfold after, row.
  assert (E : firstn (S k) s = firstn k s ++ [nth k s None]).
  { revert k H. induction s as [|x s IH]; intros [|k] H; cbn in H; try lia; [reflexivity|]. cbn [firstn nth app]. f_equal. apply IH. lia. }
  rewrite E, fold_left_app. reflexivity.
Qed.
Definition nobs (st : option Q * Q * nat) : nat := snd st.
Lemma after_nobs : forall k s, k < length s -> nobs (after (S k) s) = present s k /\ (fst (fst (after (S k) s)) = None <-> present s k = 0).
Proof.
  induction k as [|k IH]; intros s H.
  - rewrite after_S by exact H. unfold after. cbn [firstn fold_left]. cbn [present]. unfold ewm_step.
    destruct (row s 0); cbn; split; try lia; split; try discriminate; try lia; reflexivity.
  - rewrite after_S by exact H. destruct (IH s) as [E N]; [lia|]. cbn [present].
    destruct (after (S k) s) as [[w o] n]. cbn [nobs snd fst] in E, N. unfold ewm_step.
    destruct w as [w|], (row s (S k)) as [c|]; cbn; split; try lia; split; intros X; try discriminate; try lia; try reflexivity.
    all: try (rewrite (proj1 N eq_refl) in *; cbn; lia).
    assert (F : Some w = None) by (apply N; lia). discriminate F.
Qed.
End Ewm.
