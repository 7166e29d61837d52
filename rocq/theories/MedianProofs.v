(** The median computed by [qmedian]. *)
From Verif Require Import Common MetricsModel MedianSpec.
From Coq Require Import Lqa Lia Permutation Sorted.
Open Scope nat_scope.

Lemma qinsert_perm x l : Permutation (x :: l) (qinsert x l).
Proof.
  induction l as [|y t IH]; [apply Permutation_refl|]. cbn. destruct (Qle_bool x y); [apply Permutation_refl|].
  eapply perm_trans; [apply perm_swap|]. apply perm_skip, IH.
Qed.
Lemma qsort_perm l : Permutation l (qsort l).
Proof. induction l as [|x t IH]; [constructor|]. cbn. eapply perm_trans; [apply perm_skip, IH|apply qinsert_perm]. Qed.
Lemma qinsert_sorted x l : StronglySorted Qle l -> StronglySorted Qle (qinsert x l).
Proof.
  induction 1 as [|y t Ht IH Hy]; cbn; [repeat constructor|]. destruct (Qle_bool x y) eqn:E.
  - apply Qle_bool_iff in E. constructor; [constructor; assumption|]. constructor; [exact E|].
    eapply Forall_impl; [|exact Hy]. intros z Hz. eapply Qle_trans; eassumption.
  - assert (y <= x)%Q. { apply Qnot_lt_le. intros L. apply Qlt_le_weak, Qle_bool_iff in L. congruence. }
    constructor; [exact IH|]. apply Forall_forall. intros z Hz.
    apply (Permutation_in z (Permutation_sym (qinsert_perm x t))) in Hz. destruct Hz as [<-|Hz]; [exact H|].
    rewrite Forall_forall in Hy. apply Hy, Hz.
Qed.
Lemma qsort_sorted l : StronglySorted Qle (qsort l).
Proof. induction l as [|x t IH]; [constructor|]. cbn. apply qinsert_sorted, IH. Qed.
Lemma qmedian_spec l : median_of l (qmedian l).
Proof.
  exists (qsort l). split; [apply qsort_perm|]. split; [apply qsort_sorted|]. reflexivity.
Qed.

(** sorted permutations of the same sample agree up to [==] *)
Lemma sorted_nth_mono s i j : StronglySorted Qle s -> i <= j -> j < length s -> (nth i s 0 <= nth j s 0)%Q.
Proof.
  intros H. revert i j. induction H as [|a t Ht IH Ha]; intros i j Hij Hj; [cbn in Hj; lia|].
  destruct j as [|j]; [replace i with 0 by lia; apply Qle_refl|]. destruct i as [|i].
  - cbn. rewrite Forall_forall in Ha. apply Ha, nth_In. cbn in Hj. lia.
  - cbn. apply IH; cbn in Hj; lia.
Qed.
Definition below (v : Q) (l : list Q) : nat := length (filter (fun x => negb (Qle_bool v x)) l).
Definition above (v : Q) (l : list Q) : nat := length (filter (fun x => negb (Qle_bool x v)) l).
Lemma filter_perm_length {A} (f : A -> bool) l1 l2 : Permutation l1 l2 -> length (filter f l1) = length (filter f l2).
Proof.
  induction 1 as [|x l1 l2 _ IH|x y l|l1 l2 l3 _ IH1 _ IH2]; cbn; [reflexivity| | |congruence].
  - destruct (f x); cbn; congruence.
  - destruct (f x), (f y); reflexivity.
Qed.
Lemma filter_le {A} (f : A -> bool) l : length (filter f l) <= length l.
Proof. induction l as [|x t IH]; cbn; [lia|]. destruct (f x); cbn; lia. Qed.
Lemma filter_all_false {A} (f : A -> bool) l : (forall x, In x l -> f x = false) -> filter f l = [].
Proof. induction l as [|x t IH]; intros H; [reflexivity|]. cbn. rewrite (H x) by (left; reflexivity). apply IH. intros; apply H; right; assumption. Qed.
Lemma below_sorted s v i : StronglySorted Qle s -> i < length s -> (v <= nth i s 0)%Q -> below v s <= i.
Proof.
  intros Hs Hi Hv. unfold below. rewrite <- (firstn_skipn i s) at 1. rewrite filter_app, app_length.
  rewrite (filter_all_false _ (skipn i s)).
  - cbn. pose proof (filter_le (fun x => negb (Qle_bool v x)) (firstn i s)). rewrite firstn_length in H. lia.
  - intros x Hx. apply negb_false_iff, Qle_bool_iff. apply (In_nth _ _ 0%Q) in Hx as (k & Hk & <-).
    rewrite skipn_length in Hk. assert (E : nth k (skipn i s) 0%Q = nth (i + k) s 0%Q).
    { clear. revert s. induction i as [|i IH]; intros s; [reflexivity|]. destruct s; [destruct k; reflexivity|]. cbn. apply IH. }
    rewrite E. eapply Qle_trans; [exact Hv|]. apply sorted_nth_mono; [exact Hs|lia|lia].
Qed.
Lemma above_sorted s v i : StronglySorted Qle s -> i < length s -> (nth i s 0 <= v)%Q -> above v s <= length s - S i.
Proof.
  intros Hs Hi Hv. unfold above. rewrite <- (firstn_skipn (S i) s) at 1. rewrite filter_app, app_length.
  rewrite (filter_all_false _ (firstn (S i) s)).
  - cbn [length plus]. pose proof (filter_le (fun x => negb (Qle_bool x v)) (skipn (S i) s)). rewrite skipn_length in H. lia.
  - intros x Hx. apply negb_false_iff, Qle_bool_iff. apply (In_nth _ _ 0%Q) in Hx as (k & Hk & <-).
    rewrite firstn_length in Hk. assert (E : nth k (firstn (S i) s) 0%Q = nth k s 0%Q).
    { assert (L : k < S i) by lia. clear - L. revert k s L. generalize (S i). induction n as [|n IH]; intros k s L; [lia|].
      destruct s; [reflexivity|]. destruct k; [reflexivity|]. cbn. apply IH. lia. }
    rewrite E. eapply Qle_trans; [|exact Hv]. apply sorted_nth_mono; [exact Hs|lia|lia].
Qed.
Lemma sorted_perm_nth s1 s2 i : Permutation s1 s2 -> StronglySorted Qle s1 -> StronglySorted Qle s2 -> i < length s1 ->
  (nth i s1 0 <= nth i s2 0)%Q.
Proof.
  intros P H1 H2 Hi. pose proof (Permutation_length P) as L. apply Qnot_lt_le. intros C.
  (* v = s1[i]: at most i entries of s1 are below v, but s2[0..i] are *)
  pose proof (below_sorted s1 (nth i s1 0%Q) i H1 Hi (Qle_refl _)) as B.
  unfold below in B. rewrite (filter_perm_length _ _ _ P) in B.
  assert (S i <= length (filter (fun x => negb (Qle_bool (nth i s1 0%Q) x)) s2)); [|lia].
  rewrite <- (firstn_skipn (S i) s2), filter_app, app_length.
  assert (G : filter (fun x => negb (Qle_bool (nth i s1 0%Q) x)) (firstn (S i) s2) = firstn (S i) s2).
  { set (v := nth i s1 0%Q) in *. clearbody v.
    assert (Hall : forall x, In x (firstn (S i) s2) -> (x < v)%Q).
    { intros x Hx. apply (In_nth _ _ 0%Q) in Hx as (k & Hk & <-). rewrite firstn_length in Hk.
      assert (E : nth k (firstn (S i) s2) 0%Q = nth k s2 0%Q).
      { assert (L2 : k < S i) by lia. clear - L2. revert k s2 L2. generalize (S i). induction n as [|n IH]; intros k s L; [lia|].
        destruct s; [reflexivity|]. destruct k; [reflexivity|]. cbn. apply IH. lia. }
      rewrite E. eapply Qle_lt_trans; [|exact C]. apply sorted_nth_mono; [exact H2|lia|lia]. }
    revert Hall. generalize (firstn (S i) s2). intros l Hall. induction l as [|x t IH]; [reflexivity|]. cbn [filter].
    assert (E : Qle_bool v x = false).
    { destruct (Qle_bool v x) eqn:E; [|reflexivity]. apply Qle_bool_iff in E. specialize (Hall x (or_introl eq_refl)). lra. }
    rewrite E. cbn. f_equal. apply IH. intros; apply Hall; right; assumption. }
  rewrite G, firstn_length. lia.
Qed.
Lemma sorted_perm_nth_eq s1 s2 i : Permutation s1 s2 -> StronglySorted Qle s1 -> StronglySorted Qle s2 ->
  (nth i s1 0 == nth i s2 0)%Q.
Proof.
  intros P H1 H2. pose proof (Permutation_length P) as L. destruct (Nat.lt_ge_cases i (length s1)) as [Hi|Hi].
  - apply Qle_antisym; [apply sorted_perm_nth; assumption|].
    apply sorted_perm_nth; [apply Permutation_sym, P|exact H2|exact H1|lia].
  - rewrite !nth_overflow by lia. reflexivity.
Qed.
Lemma median_unique l u v : median_of l u -> median_of l v -> (u == v)%Q.
Proof.
  intros (s1 & P1 & H1 & E1) (s2 & P2 & H2 & E2). rewrite E1, E2.
  assert (P : Permutation s1 s2) by (eapply perm_trans; [apply Permutation_sym, P1|exact P2]).
  rewrite (sorted_perm_nth_eq s1 s2 ((length l - 1) / 2) P H1 H2), (sorted_perm_nth_eq s1 s2 (length l / 2) P H1 H2). reflexivity.
Qed.
Lemma median_perm l l' v : Permutation l l' -> median_of l v -> median_of l' v.
Proof.
  intros P (s & Ps & Hs & E). exists s. rewrite <- (Permutation_length P). split; [|split; assumption].
  eapply perm_trans; [apply Permutation_sym, P|exact Ps].
Qed.
Lemma median_qmedian l v : median_of l v -> (v == qmedian l)%Q.
Proof. intros H. apply (median_unique l); [exact H|apply qmedian_spec]. Qed.
Lemma qmedian_perm l l' : Permutation l l' -> (qmedian l == qmedian l')%Q.
Proof. intros P. apply median_qmedian, (median_perm l), qmedian_spec. exact P. Qed.

Lemma half_bounds n : 1 <= n -> (n - 1) / 2 <= n / 2 /\ n / 2 < n /\ (n - 1) / 2 + n / 2 = n - 1.
Proof.
  intros H. destruct (Nat.Even_or_Odd n) as [[q ->]|[q ->]].
  - replace (2 * q - 1) with (1 + (q - 1) * 2) by lia. rewrite Nat.div_add by lia.
    replace (2 * q) with (q * 2) by lia. rewrite Nat.div_mul by lia. cbn. lia.
  - replace (2 * q + 1 - 1) with (q * 2) by lia. rewrite Nat.div_mul by lia.
    replace (2 * q + 1) with (1 + q * 2) by lia. rewrite Nat.div_add by lia. cbn. lia.
Qed.
Lemma median_middle l v s : l <> [] -> Permutation l s -> StronglySorted Qle s ->
  (v == (nth ((length l - 1) / 2) s 0 + nth (length l / 2) s 0) / 2)%Q ->
  (nth ((length l - 1) / 2) s 0 <= v)%Q /\ (v <= nth (length l / 2) s 0)%Q.
Proof.
  intros Hl P Hs E. assert (1 <= length l) by (destruct l; [contradiction|cbn; lia]).
  destruct (half_bounds (length l) H) as (A & B & C).
  assert (M : (nth ((length l - 1) / 2) s 0 <= nth (length l / 2) s 0)%Q).
  { apply sorted_nth_mono; [exact Hs|exact A|]. rewrite <- (Permutation_length P). exact B. }
  set (a := nth ((length l - 1) / 2) s 0%Q) in *. set (b := nth (length l / 2) s 0%Q) in *. clearbody a b.
  assert (E2 : (v == a * (1#2) + b * (1#2))%Q) by (rewrite E; field). split; lra.
Qed.
Lemma median_halves l v : median_of l v -> halves l v.
Proof.
  intros (s & P & Hs & E). destruct l as [|x0 l0]; [split; cbn; lia|]. set (l := x0 :: l0) in *.
  destruct (median_middle l v s ltac:(discriminate) P Hs E) as [M1 M2].
  destruct (half_bounds (length l) ltac:(cbn; lia)) as (A & B & C). pose proof (Permutation_length P) as L. unfold halves.
  rewrite (filter_perm_length _ _ _ P), (filter_perm_length (fun x => negb (Qle_bool x v)) _ _ P).
  pose proof (below_sorted s v (length l / 2) Hs ltac:(lia) M2) as B1.
  pose proof (above_sorted s v ((length l - 1) / 2) Hs ltac:(lia) M1) as B2. unfold below, above in *.
  assert (2 * (length l / 2) <= length l) by (apply Nat.mul_div_le; lia). split; lia.
Qed.
(** the median lies between the extremes *)
Lemma median_between l v lo hi : l <> [] -> median_of l v -> (forall x, In x l -> lo <= x <= hi)%Q -> (lo <= v <= hi)%Q.
Proof.
  intros Hl (s & P & Hs & E) H. destruct (median_middle l v s Hl P Hs E) as [M1 M2].
  assert (1 <= length l) by (destruct l; [contradiction|cbn; lia]).
  destruct (half_bounds (length l) H0) as (A & B & C). pose proof (Permutation_length P) as L.
  assert (I1 : In (nth ((length l - 1) / 2) s 0%Q) l) by (apply (Permutation_in _ (Permutation_sym P)), nth_In; lia).
  assert (I2 : In (nth (length l / 2) s 0%Q) l) by (apply (Permutation_in _ (Permutation_sym P)), nth_In; lia).
  apply H in I1, I2. lra.
Qed.
