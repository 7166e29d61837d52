(** C286: features of the autocorrelation. *)
From Coq Require Import Reals Lra String.
From Coq Require Import List ZArith Bool Lia.
From Verif Require Import TsfAcfModel.
Import ListNotations.
Open Scope R_scope.

(** ** Specification *)
Definition sum (l : list R) : R := fold_right Rplus 0 l.
(** the autocorrelation of a series at a lag *)
Definition autocorr (x : list R) (k : nat) (r : R) : Prop :=
  exists m, m * INR (length x) = sum x /\
    let dev t := nth t x 0 - m in
    sum (map (fun t => dev t ^ 2) (seq 0 (length x))) <> 0 /\
    r * sum (map (fun t => dev t ^ 2) (seq 0 (length x))) = sum (map (fun t => dev t * dev (t + k)%nat) (seq 0 (length x - k))).
(** the sum of squares of the autocorrelations at the lags 1 .. n *)
Definition squares (x : list R) (n : nat) (s : R) : Prop :=
  exists r, (forall k, (1 <= k <= n)%nat -> autocorr x k (r k)) /\ s = sum (map (fun k => r k ^ 2) (seq 1 n)).
(** the differences *)
Definition differences (x d : list R) : Prop :=
  length d = (length x - 1)%nat /\ forall i, (S i < length x)%nat -> nth i d 0 = nth (S i) x 0 - nth i x 0.
Definition everything : option (string -> option bool) := Some (fun _ => None).
Definition constant_series (x : list R) : Prop := forall i j, (i < length x)%nat -> (j < length x)%nat -> nth i x 0 = nth j x 0.

(** ** Sums *)
Lemma rsum_sum l : rsum l = sum l.
Proof. induction l as [|x l IH]; [reflexivity|]. cbn [rsum]. rewrite IH. reflexivity. Qed.
Lemma sum_cons a l : sum (a :: l) = a + sum l.
Proof. reflexivity. Qed.
Lemma sum_nil : sum [] = 0.
Proof. reflexivity. Qed.
Lemma sum_app l m : sum (l ++ m) = sum l + sum m.
Proof. induction l as [|x l IH]; cbn [app]; [rewrite sum_nil; lra|]. rewrite !sum_cons, IH. ring. Qed.
Lemma sum_nonneg {A} (f : A -> R) l : (forall x, 0 <= f x) -> 0 <= sum (map f l).
Proof. intros H. induction l as [|x l IH]; cbn [map]; [rewrite sum_nil; lra|]. rewrite sum_cons. pose proof (H x). lra. Qed.
Lemma sum_le {A} (f g : A -> R) l : (forall x, f x <= g x) -> sum (map f l) <= sum (map g l).
Proof. intros H. induction l as [|x l IH]; cbn [map]; [rewrite sum_nil; lra|]. rewrite !sum_cons. pose proof (H x). lra. Qed.
Lemma sum_plus {A} (f g : A -> R) l : sum (map (fun x => f x + g x) l) = sum (map f l) + sum (map g l).
Proof. induction l as [|x l IH]; cbn [map]; [rewrite sum_nil; lra|]. rewrite !sum_cons, IH. ring. Qed.
Lemma sum_scale {A} c (f : A -> R) l : sum (map (fun x => c * f x) l) = c * sum (map f l).
Proof. induction l as [|x l IH]; cbn [map]; [rewrite sum_nil; lra|]. rewrite !sum_cons, IH. ring. Qed.
Lemma sum_zero_all {A} (f : A -> R) l : (forall x, 0 <= f x) -> sum (map f l) = 0 -> forall x, In x l -> f x = 0.
Proof.
  intros H. induction l as [|y l IH]; intros E x Hin; [destruct Hin|]. cbn [map] in E. rewrite sum_cons in E.
  pose proof (H y). pose proof (sum_nonneg f l H). destruct Hin as [<-|Hin]; [lra|]. apply IH; [lra|exact Hin].
Qed.
Lemma sum_by_index (f : R -> R) l : sum (map f l) = sum (map (fun t => f (nth t l 0)) (seq 0 (length l))).
Proof.
  induction l as [|x l IH]; [reflexivity|]. cbn [length seq map nth]. rewrite <- seq_shift, map_map.
  change (sum (?a :: ?b)) with (a + sum b). rewrite IH. reflexivity.
Qed.
(** a sum of lagged products is at most the sum of squares *)
Lemma lagged (d : nat -> R) n k : (k <= n)%nat ->
  - sum (map (fun t => d t ^ 2) (seq 0 n)) <= sum (map (fun t => d t * d (t + k)%nat) (seq 0 (n - k)))
  <= sum (map (fun t => d t ^ 2) (seq 0 n)).
Proof.
  intros H. set (Q := sum (map (fun t => d t ^ 2) (seq 0 n))).
  assert (sum (map (fun t => d t ^ 2) (seq 0 (n - k))) <= Q) as P1.
  { unfold Q. replace (seq 0 n) with (seq 0 (n - k) ++ seq (0 + (n - k)) k) by (rewrite <- seq_app; f_equal; lia).
    rewrite map_app, sum_app. pose proof (sum_nonneg (fun t => d t ^ 2) (seq (0 + (n - k)) k) (fun t => pow2_ge_0 (d t))). lra. }
  assert (sum (map (fun t => d (t + k)%nat ^ 2) (seq 0 (n - k))) <= Q) as P2.
  { unfold Q. replace (seq 0 n) with (seq 0 k ++ seq (0 + k) (n - k)) by (rewrite <- seq_app; f_equal; lia).
    rewrite map_app, sum_app. pose proof (sum_nonneg (fun t => d t ^ 2) (seq 0 k) (fun t => pow2_ge_0 (d t))) as P0.
    assert (map (fun t => d (t + k)%nat ^ 2) (seq 0 (n - k)) = map (fun t => d t ^ 2) (seq (0 + k) (n - k))) as ->; [|lra].
    generalize (n - k)%nat. intros j. clear. cbn [Nat.add].
    apply nth_ext with (d := 0 ^ 2) (d' := 0 ^ 2); [rewrite !map_length, !seq_length; reflexivity|].
    intros i Hi. rewrite map_length, seq_length in Hi.
    rewrite (nth_indep _ _ ((fun t => d (t + k)%nat ^ 2) 0%nat)), (nth_indep (map (fun t => d t ^ 2) _) _ ((fun t => d t ^ 2) 0%nat))
      by (rewrite map_length, seq_length; exact Hi).
    rewrite (map_nth (fun t => d (t + k)%nat ^ 2)), (map_nth (fun t => d t ^ 2)), !seq_nth by exact Hi.
    replace (0 + i + k)%nat with (k + i)%nat by lia. reflexivity. }
  assert (forall t, - ((d t ^ 2 + d (t + k)%nat ^ 2) / 2) <= d t * d (t + k)%nat <= (d t ^ 2 + d (t + k)%nat ^ 2) / 2) as AG.
  { intros t. pose proof (pow2_ge_0 (d t - d (t + k)%nat)). pose proof (pow2_ge_0 (d t + d (t + k)%nat)). lra. }
  set (G := sum (map (fun t => / 2 * (d t ^ 2 + d (t + k)%nat ^ 2)) (seq 0 (n - k)))).
  assert (G <= Q) as GQ. { unfold G. rewrite sum_scale, sum_plus. lra. }
  split.
  - apply Rle_trans with (- G); [lra|]. unfold G. rewrite <- (Rmult_1_l (sum _)), Ropp_mult_distr_l, <- sum_scale.
    apply sum_le. intros t. pose proof (AG t). lra.
  - apply Rle_trans with G; [|exact GQ]. apply sum_le. intros t. pose proof (AG t). lra.
Qed.

(** ** The list of autocorrelations *)
Definition devs (x : list R) (t : nat) : R := nth t x 0 - mean x.
Definition dev2 (x : list R) : R := sum (map (fun t => devs x t ^ 2) (seq 0 (length x))).
Lemma acov0 x : acov x 0 = dev2 x / INR (length x).
Proof.
  unfold acov, dev2. rewrite rsum_sum, Nat.sub_0_r. f_equal. f_equal. apply map_ext. intros t.
  rewrite Nat.add_0_r. unfold devs. ring.
Qed.
Lemma determinant_acov x : determinant x = acov x 0.
Proof. rewrite acov0. unfold determinant, dev2. rewrite rsum_sum, (sum_by_index (fun v => (v - mean x) ^ 2)). reflexivity. Qed.
Lemma zero_true x : zero x = true <-> x = 0.
Proof. unfold zero. destruct (Req_EM_T x 0); split; auto; discriminate. Qed.
Lemma zero_false x : zero x = false <-> x <> 0.
Proof. unfold zero. destruct (Req_EM_T x 0); split; auto; try discriminate; contradiction. Qed.
Lemma mean_spec x : x <> [] -> mean x * INR (length x) = sum x.
Proof. intros H. unfold mean. rewrite rsum_sum. field. apply not_0_INR. destruct x; [congruence|discriminate]. Qed.
Definition ratio (x : list R) (k : nat) : R := acov x k / acov x 0.
Lemma acov0_nonempty x : acov x 0 <> 0 -> x <> [].
Proof. intros H ->. apply H. unfold acov. cbn. unfold Rdiv. ring. Qed.
Lemma ratio_autocorr x k : acov x 0 <> 0 -> autocorr x k (ratio x k).
Proof.
  intros H. pose proof (acov0_nonempty x H) as NE. exists (mean x). split; [exact (mean_spec x NE)|]. cbv zeta.
  assert (INR (length x) <> 0) as N by (apply not_0_INR; destruct x; [congruence|discriminate]).
  change (sum (map (fun t => (nth t x 0 - mean x) ^ 2) (seq 0 (length x)))) with (dev2 x).
  rewrite acov0 in H. assert (dev2 x <> 0) as D by (intros E; apply H; rewrite E; unfold Rdiv; ring).
  split; [exact D|]. unfold ratio. rewrite acov0. unfold acov. rewrite rsum_sum.
  change (sum (map (fun t => (nth t x 0 - mean x) ^ 2) (seq 0 (length x)))) with (dev2 x). field. split; assumption.
Qed.
Lemma autocorr_bound x k r : (k <= length x)%nat -> autocorr x k r -> -1 <= r <= 1.
Proof.
  intros Hk (m & _ & N & E). cbv zeta in *. set (Q := sum (map (fun t => (nth t x 0 - m) ^ 2) (seq 0 (length x)))) in *.
  pose proof (lagged (fun t => nth t x 0 - m) (length x) k Hk) as [L U]. cbv beta in *. fold Q in L, U.
  assert (0 <= Q) as P by (apply sum_nonneg; intros t; apply pow2_ge_0). rewrite <- E in L, U.
  split; apply Rmult_le_reg_r with Q; lra.
Qed.
Lemma acf_defined x n : acov x 0 <> 0 ->
  tl (acf x n) = map (fun k => Some (ratio x k)) (seq 1 (Nat.min n (length x - 1))).
Proof.
  intros H. pose proof (acov0_nonempty x H) as NE. unfold acf. rewrite (proj2 (zero_false _) H).
  destruct x as [|a x]; [congruence|]. cbn [length]. replace (S (length x) - 1)%nat with (length x) by lia. reflexivity.
Qed.
Lemma acf_bound x n v : In (Some v) (acf x n) -> -1 <= v <= 1.
Proof.
  unfold acf. intros H. apply in_map_iff in H. destruct H as [k [E Hk]]. apply in_seq in Hk.
  destruct (zero (acov x 0)) eqn:Z; [discriminate|]. injection E as <-. apply zero_false in Z.
  apply (autocorr_bound x k); [lia|]. apply ratio_autocorr. exact Z.
Qed.
Lemma in_tl {A} (l : list A) x : In x (tl l) -> In x l.
Proof. destruct l; [intros []|right; assumption]. Qed.
Lemma firstn_in {A} n (l : list A) x : In x (firstn n l) -> In x l.
Proof. intros H. rewrite <- (firstn_skipn n l). apply in_or_app. left. exact H. Qed.
Lemma fold_bound l s : (forall v, In (Some v) l -> -1 <= v <= 1) ->
  fold_right add_nan (Some 0) (map square_nan l) = Some s -> 0 <= s <= INR (length l).
Proof.
  revert s. induction l as [|a l IH]; intros s H E.
  - cbn in E. injection E as <-. cbn. lra.
  - cbn [map fold_right] in E. destruct a as [v|]; [|discriminate]. cbn [square_nan option_map] in E.
    destruct (fold_right add_nan (Some 0) (map square_nan l)) as [s'|] eqn:F; [|discriminate].
    cbn [add_nan] in E. injection E as <-.
    assert (0 <= s' <= INR (length l)) as B by (apply IH; [intros u Hu; apply H; right; exact Hu|reflexivity]).
    pose proof (H v (or_introl eq_refl)) as V. cbn [length]. rewrite S_INR. pose proof (pow2_ge_0 v).
    assert (v ^ 2 <= 1). { replace (v ^ 2) with (v * v) by ring. assert (0 <= (1 - v) * (1 + v)) by (apply Rmult_le_pos; lra). lra. }
    lra.
Qed.
Lemma sum5_bound l s : (forall v, In (Some v) l -> -1 <= v <= 1) -> sum5 l = Some s -> 0 <= s <= 5.
Proof.
  intros H E. apply fold_bound in E.
  - pose proof (firstn_le_length 5 l) as L. apply le_INR in L. change (INR 5) with (1 + 1 + 1 + 1 + 1) in L. lra.
  - intros v Hv. apply H. apply firstn_in with 5%nat. exact Hv.
Qed.
Lemma sum5_defined (r : nat -> R) n a : sum5 (map (fun k => Some (r k)) (seq a n)) = Some (sum (map (fun k => r k ^ 2) (seq a (Nat.min 5 n)))).
Proof.
  unfold sum5. rewrite firstn_map. replace (firstn 5 (seq a n)) with (seq a (Nat.min 5 n)).
  - generalize (Nat.min 5 n). intros j. revert a. induction j as [|j IH]; intros a; [reflexivity|].
    cbn [seq map fold_right square_nan option_map]. rewrite IH. reflexivity.
  - generalize 5%nat. intros j. revert a j. induction n as [|n IH]; intros a [|j]; try reflexivity.
    cbn [seq firstn Nat.min]. rewrite <- IH. reflexivity.
Qed.
Lemma head_in {A} (l : list A) x : hd_error l = Some x -> In x l.
Proof. destruct l; [discriminate|]. intros H. injection H as <-. left. reflexivity. Qed.
Lemma last_in {A} (l : list A) x : last_error l = Some x -> In x l.
Proof. unfold last_error. destruct (rev l) eqn:E; [discriminate|]. intros H. injection H as <-. apply in_rev. rewrite E. left. reflexivity. Qed.

Lemma some_inj {A} (a b : A) : Some a = Some b -> a = b.
Proof. congruence. Qed.

(** ** Theorems *)
Definition within (lo hi : R) (v : option R) : Prop := forall r, v = Some r -> lo <= r <= hi.

Lemma switched_in on v w l : switched on v = Some w -> (forall x, v = Some x -> In x l) -> forall r, w = Some r -> In (Some r) l.
Proof.
  unfold switched. destruct on; intros E H r ->.
  - apply H. exact E.
  - discriminate.
Qed.

(** C286: the correlations are between -1 and 1, the sums of five squares between 0 and 5. *)
Theorem C286_bounds : forall pacf x lag period extra default f,
  acfpacf pacf x lag period extra default = Some f ->
  within (-1) 1 (y_acf1 f) /\ within (-1) 1 (d1_acf1 f) /\ within (-1) 1 (d2_acf1 f) /\ within (-1) 1 (seas_acf1 f)
  /\ within 0 5 (y_acf5 f) /\ within 0 5 (d1_acf5 f) /\ within 0 5 (d2_acf5 f).
Proof.
  intros pacf x lag period extra default f H. unfold acfpacf in H.
  assert (forall lo hi, within lo hi None) as W by (intros lo hi r; discriminate).
  assert (forall g, Some all_nan = Some g ->
    within (-1) 1 (y_acf1 g) /\ within (-1) 1 (d1_acf1 g) /\ within (-1) 1 (d2_acf1 g) /\ within (-1) 1 (seas_acf1 g)
    /\ within 0 5 (y_acf5 g) /\ within 0 5 (d1_acf5 g) /\ within 0 5 (d2_acf5 g)) as NN.
  { intros g E. injection E as <-. exact (conj (W _ _) (conj (W _ _) (conj (W _ _) (conj (W _ _) (conj (W _ _) (conj (W _ _) (W _ _))))))). }
  destruct (Nat.ltb (length x) 10 || Nat.ltb (length x) period || constant x); [apply NN; exact H|].
  destruct (pacf x period) as [py|]; [|discriminate].
  destruct (zero (determinant (diff x)) || zero (determinant (diff (diff x)))); [apply NN; exact H|].
  destruct (pacf (diff x) _) as [p1|]; [|discriminate]. destruct (pacf (diff (diff x)) _) as [p2|]; [|discriminate].
  destruct extra as [ex|]; [|discriminate].
  set (on := fun name => match ex name with Some b => b | None => default end) in H. unfold collect in H.
  set (ly := tl (acf x period)) in *. set (l1 := tl (acf (diff x) _)) in *. set (l2 := tl (acf (diff (diff x)) _)) in *.
  destruct (switched (on "y_acf1"%string) (hd_error ly)) as [a|] eqn:E1; [|discriminate].
  destruct (switched (on "diff1y_acf1"%string) (hd_error l1)) as [b|] eqn:E2; [|discriminate].
  destruct (switched (on "diff2y_acf1"%string) (hd_error l2)) as [c|] eqn:E3; [|discriminate].
  destruct (switched (on "seas_acf1"%string) (last_error ly)) as [s|] eqn:E4; [|discriminate].
  destruct (switched (on "seas_pacf1"%string) (last_error (tl py))) as [t|]; [|discriminate].
  injection H as <-. cbn [y_acf1 d1_acf1 d2_acf1 seas_acf1 y_acf5 d1_acf5 d2_acf5].
  assert (forall v, In (Some v) ly -> -1 <= v <= 1) as By by (intros v Hv; apply (acf_bound x period), in_tl; exact Hv).
  assert (forall v, In (Some v) l1 -> -1 <= v <= 1) as B1 by (intros v Hv; eapply acf_bound; apply in_tl; exact Hv).
  assert (forall v, In (Some v) l2 -> -1 <= v <= 1) as B2 by (intros v Hv; eapply acf_bound; apply in_tl; exact Hv).
  split; [intros r Er; apply By; apply (switched_in _ _ _ _ E1 (head_in ly)); exact Er|].
  split; [intros r Er; apply B1; apply (switched_in _ _ _ _ E2 (head_in l1)); exact Er|].
  split; [intros r Er; apply B2; apply (switched_in _ _ _ _ E3 (head_in l2)); exact Er|].
  split; [intros r Er; apply By; apply (switched_in _ _ _ _ E4 (last_in ly)); exact Er|].
  split; [|split].
  - destruct (on "y_acf5"%string); [intros r Er; apply (sum5_bound ly); assumption|apply W].
  - destruct (on "diff1y_acf5"%string); [intros r Er; apply (sum5_bound l1); assumption|apply W].
  - destruct (on "diff2y_acf5"%string); [intros r Er; apply (sum5_bound l2); assumption|apply W].
Qed.

Lemma diff_differences x : differences x (diff x).
Proof.
  induction x as [|a [|b x] IH]; [split; [reflexivity|cbn; lia]|split; [reflexivity|cbn; lia]|].
  destruct IH as [L N]. split.
  - cbn [diff length] in *. lia.
  - intros i Hi. destruct i as [|i]; [reflexivity|].
    cbn [diff nth]. specialize (N i). cbn [length nth] in *. apply N. lia.
Qed.
Lemma differences_unique x d d' : differences x d -> differences x d' -> d = d'.
Proof.
  intros [L N] [L' N']. apply nth_ext with (d := 0) (d' := 0); [lia|]. intros i Hi. rewrite N, N' by lia. reflexivity.
Qed.
Lemma dev2_zero x : x <> [] -> (acov x 0 = 0 <-> constant_series x).
Proof.
  intros NE. assert (INR (length x) <> 0) as N by (apply not_0_INR; destruct x; [congruence|discriminate]).
  rewrite acov0. split.
  - intros E i j Hi Hj. assert (dev2 x = 0) as D.
    { unfold Rdiv in E. apply Rmult_integral in E. destruct E as [E|E]; [exact E|]. exfalso. apply (Rinv_neq_0_compat _ N E). }
    assert (forall t, (t < length x)%nat -> nth t x 0 = mean x) as A.
    { intros t Ht. pose proof (sum_zero_all (fun u => devs x u ^ 2) (seq 0 (length x)) (fun u => pow2_ge_0 _) D t) as Z.
      assert (devs x t ^ 2 = 0) as Z' by (apply Z; apply in_seq; lia).
      replace (devs x t ^ 2) with (Rsqr (devs x t)) in Z' by (unfold Rsqr; ring). apply Rsqr_0_uniq in Z'. unfold devs in Z'. lra. }
    rewrite !A by assumption. reflexivity.
  - intros C. set (v := nth 0 x 0). assert (0 < length x)%nat as P by (destruct x; [congruence|cbn; lia]).
    assert (forall t, (t < length x)%nat -> nth t x 0 = v) as A by (intros t Ht; apply C; assumption).
    assert (mean x = v) as M.
    { apply Rmult_eq_reg_r with (INR (length x)); [|exact N]. rewrite mean_spec by exact NE.
      rewrite <- (map_id x) at 1. rewrite (sum_by_index (fun u => u)). clear - A. revert A. generalize (length x). intros n A.
      assert (forall a j, (a + j <= n)%nat -> sum (map (fun t => nth t x 0) (seq a j)) = v * INR j) as G.
      { intros a j. revert a. induction j as [|j IH]; intros a Ha; [cbn; ring|].
        cbn [seq map]. change (sum (?p :: ?q)) with (p + sum q). rewrite IH by lia. rewrite A by lia. rewrite S_INR. ring. }
      apply G. lia. }
    assert (dev2 x = 0) as ->; [|unfold Rdiv; ring]. unfold dev2, devs. rewrite M.
    assert (forall l, (forall t, In t l -> (t < length x)%nat) -> sum (map (fun t => (nth t x 0 - v) ^ 2) l) = 0) as G.
    { induction l as [|t l IH]; intros H; [reflexivity|]. cbn [map]. change (sum (?p :: ?q)) with (p + sum q).
      rewrite IH by (intros u Hu; apply H; right; exact Hu). rewrite (A t) by (apply H; left; reflexivity). ring. }
    apply G. intros t Ht. apply in_seq in Ht. lia.
Qed.
Lemma constant_spec x : x <> [] -> (constant x = true <-> constant_series x).
Proof.
  destruct x as [|a x]; [congruence|]. intros _. cbn [constant]. rewrite forallb_forall. split.
  - intros H. assert (forall i, (i < length (a :: x))%nat -> nth i (a :: x) 0 = a) as A.
    { intros [|i] Hi; [reflexivity|]. cbn [nth]. assert (In (nth i x 0) x) as I by (apply nth_In; cbn in Hi; lia).
      specialize (H _ I). destruct (Req_EM_T (nth i x 0) a); [assumption|discriminate]. }
    intros i j Hi Hj. rewrite !A by assumption. reflexivity.
  - intros C v Hv. destruct (In_nth x v 0 Hv) as (i & Hi & E). destruct (Req_EM_T v a) as [|N]; [reflexivity|]. exfalso. apply N.
    specialize (C (S i) 0%nat). cbn [length nth] in C. rewrite <- E. apply C; lia.
Qed.
Lemma diff_length x : length (diff x) = (length x - 1)%nat.
Proof. apply (diff_differences x). Qed.

Definition plain (x : list R) (period : nat) : Prop :=
  (10 <= length x)%nat /\ (period <= length x)%nat
  /\ (forall d d2, differences x d -> differences d d2 -> ~ constant_series d2).

Lemma plain_inv x period : plain x period ->
  Nat.ltb (length x) 10 || Nat.ltb (length x) period || constant x = false
  /\ acov x 0 <> 0 /\ acov (diff x) 0 <> 0 /\ acov (diff (diff x)) 0 <> 0
  /\ zero (determinant (diff x)) || zero (determinant (diff (diff x))) = false.
Proof.
  intros (L & P & C). pose proof (diff_differences x) as D1. pose proof (diff_differences (diff x)) as D2.
  specialize (C _ _ D1 D2). pose proof (diff_length x) as L1. pose proof (diff_length (diff x)) as L2.
  assert (x <> []) as N0 by (intros ->; cbn in L; lia).
  assert (diff x <> []) as N1 by (intros E; rewrite E in L1; cbn in L1; lia).
  assert (diff (diff x) <> []) as N2 by (intros E; rewrite E in L2; cbn in L2; lia).
  assert (~ constant_series (diff x)) as C1.
  { intros K. apply C. intros i j Hi Hj. destruct D2 as [_ D2]. rewrite !D2 by lia.
    rewrite (K (S i) i), (K (S j) j) by lia. ring. }
  assert (~ constant_series x) as C0.
  { intros K. apply C1. intros i j Hi Hj. destruct D1 as [_ D1]. rewrite !D1 by lia.
    rewrite (K (S i) i), (K (S j) j) by lia. ring. }
  assert (acov x 0 <> 0) as A0 by (rewrite (dev2_zero x N0); exact C0).
  assert (acov (diff x) 0 <> 0) as A1 by (rewrite (dev2_zero _ N1); exact C1).
  assert (acov (diff (diff x)) 0 <> 0) as A2 by (rewrite (dev2_zero _ N2); exact C).
  split; [|split; [exact A0|split; [exact A1|split; [exact A2|]]]].
  - rewrite !orb_false_iff. split; [split; apply Nat.ltb_ge; assumption|].
    apply not_true_iff_false. rewrite (constant_spec x N0). exact C0.
  - rewrite !determinant_acov, orb_false_iff. split; apply zero_false; assumption.
Qed.

Lemma last_map_seq {A} (g : nat -> A) n : (1 <= n)%nat -> last_error (map g (seq 1 n)) = Some (g n).
Proof.
  intros H. destruct n as [|n]; [lia|]. rewrite seq_S. rewrite map_app. unfold last_error. rewrite rev_app_distr. reflexivity.
Qed.

Lemma collected pacf x lag period f default : plain x period -> (1 <= period)%nat -> (1 <= lag)%nat -> default = true ->
  acfpacf pacf x lag period everything default = Some f ->
  y_acf1 f = Some (ratio x 1) /\ d1_acf1 f = Some (ratio (diff x) 1) /\ d2_acf1 f = Some (ratio (diff (diff x)) 1)
  /\ seas_acf1 f = Some (ratio x (Nat.min period (length x - 1)))
  /\ y_acf5 f = Some (sum (map (fun k => ratio x k ^ 2) (seq 1 (Nat.min 5 (Nat.min period (length x - 1))))))
  /\ d1_acf5 f = Some (sum (map (fun k => ratio (diff x) k ^ 2) (seq 1 (Nat.min 5 lag))))
  /\ d2_acf5 f = Some (sum (map (fun k => ratio (diff (diff x)) k ^ 2) (seq 1 (Nat.min 5 lag)))).
Proof.
  intros P Hp Hl -> H. destruct (plain_inv x period P) as (G & A0 & A1 & A2 & Z). destruct P as (L & LP & _).
  unfold acfpacf, everything in H. rewrite G, Z in H.
  destruct (pacf x period) as [py|]; [|discriminate].
  destruct (pacf (diff x) _) as [p1|]; [|discriminate]. destruct (pacf (diff (diff x)) _) as [p2|]; [|discriminate].
  rewrite (acf_defined x period A0), (acf_defined (diff x) _ A1), (acf_defined (diff (diff x)) _ A2) in H.
  rewrite !diff_length in H. unfold collect in H. cbn [switched] in H.
  rewrite !sum5_defined in H. rewrite last_map_seq in H by lia.
  assert (forall (g : nat -> option R) n, (1 <= n)%nat -> hd_error (map g (seq 1 n)) = Some (g 1%nat)) as HD.
  { intros g [|n] Hn; [lia|reflexivity]. }
  rewrite !HD in H by lia.
  destruct (last_error (tl py)) as [t|]; [|discriminate]. apply some_inj in H. subst f.
  cbn [y_acf1 d1_acf1 d2_acf1 seas_acf1 y_acf5 d1_acf5 d2_acf5].
  replace (Nat.min 5 (Nat.min (Nat.min lag (length x - 2)) (length x - 1 - 1))) with (Nat.min 5 lag) by lia.
  replace (Nat.min 5 (Nat.min (Nat.min lag (length x - 2)) (length x - 1 - 1 - 1))) with (Nat.min 5 lag) by lia.
  repeat split.
Qed.

Lemma squares_ratio x n : acov x 0 <> 0 -> squares x n (sum (map (fun k => ratio x k ^ 2) (seq 1 n))).
Proof. intros H. exists (ratio x). split; [intros k _; apply ratio_autocorr; exact H|reflexivity]. Qed.

(** C286: with a period and a largest lag of at least five and more values than the period, the features are what their
    names say. *)
Theorem C286_values_partial : forall pacf x lag period f d d2, plain x period ->
  (5 <= period < length x)%nat -> (5 <= lag)%nat ->
  acfpacf pacf x lag period everything true = Some f -> differences x d -> differences d d2 ->
  exists a a5 b b5 c c5 s,
    y_acf1 f = Some a /\ autocorr x 1 a /\ y_acf5 f = Some a5 /\ squares x 5 a5
    /\ d1_acf1 f = Some b /\ autocorr d 1 b /\ d1_acf5 f = Some b5 /\ squares d 5 b5
    /\ d2_acf1 f = Some c /\ autocorr d2 1 c /\ d2_acf5 f = Some c5 /\ squares d2 5 c5
    /\ seas_acf1 f = Some s /\ autocorr x period s.
Proof.
  intros pacf x lag period f d d2 P Hp Hl H D1 D2.
  rewrite (differences_unique x d (diff x) D1 (diff_differences x)) in *.
  rewrite (differences_unique _ d2 (diff (diff x)) D2 (diff_differences _)) in *.
  destruct (plain_inv x period P) as (_ & A0 & A1 & A2 & _).
  destruct (collected pacf x lag period f true P ltac:(lia) ltac:(lia) eq_refl H) as (E1 & E2 & E3 & E4 & E5 & E6 & E7).
  replace (Nat.min 5 (Nat.min period (length x - 1))) with 5%nat in E5 by lia.
  replace (Nat.min 5 lag) with 5%nat in E6, E7 by lia.
  replace (Nat.min period (length x - 1)) with period in E4 by lia.
  do 7 eexists.
  repeat match goal with
  | |- _ /\ _ => split
  | |- y_acf1 f = _ => exact E1 | |- d1_acf1 f = _ => exact E2 | |- d2_acf1 f = _ => exact E3 | |- seas_acf1 f = _ => exact E4
  | |- y_acf5 f = _ => exact E5 | |- d1_acf5 f = _ => exact E6 | |- d2_acf5 f = _ => exact E7
  | |- autocorr _ _ _ => apply ratio_autocorr; assumption
  | |- squares _ _ _ => apply squares_ratio; assumption
  end.
Qed.

(** C286 refuted: with a shorter period fewer squares are summed for the series than for its differences. *)
Theorem C286_five_refuted : forall pacf x lag period f, plain x period -> (1 <= period < 5)%nat -> (1 <= lag)%nat ->
  acfpacf pacf x lag period everything true = Some f -> exists a5, y_acf5 f = Some a5 /\ squares x period a5.
Proof.
  intros pacf x lag period f P Hp Hl H. destruct (plain_inv x period P) as (_ & A0 & _). pose proof P as (L & _).
  destruct (collected pacf x lag period f true P ltac:(lia) Hl eq_refl H) as (_ & _ & _ & _ & E & _).
  replace (Nat.min 5 (Nat.min period (length x - 1))) with period in E by lia.
  eexists. split; [exact E|]. apply squares_ratio. exact A0.
Qed.

(** C286 refuted: for a series of exactly one period the seasonal autocorrelation is that at the lag before. *)
Theorem C286_one_period_refuted : forall pacf x lag f, plain x (length x) -> (1 <= lag)%nat ->
  acfpacf pacf x lag (length x) everything true = Some f ->
  exists s, seas_acf1 f = Some s /\ autocorr x (length x - 1) s.
Proof.
  intros pacf x lag f P Hl H. destruct (plain_inv x _ P) as (_ & A0 & _). pose proof P as (L & _).
  destruct (collected pacf x lag _ f true P ltac:(lia) Hl eq_refl H) as (_ & _ & _ & E & _).
  replace (Nat.min (length x) (length x - 1)) with (length x - 1)%nat in E by lia.
  eexists. split; [exact E|]. apply ratio_autocorr. exact A0.
Qed.

(** C286 refuted: "If None, no feature is disabled": with extra_args=None the call raises. *)
Theorem C286_none_refuted : forall pacf x lag period default, plain x period ->
  acfpacf pacf x lag period None default = None.
Proof.
  intros pacf x lag period default P. destruct (plain_inv x period P) as (G & _ & _ & _ & Z). unfold acfpacf. rewrite G, Z.
  destruct (pacf x period); [|reflexivity]. destruct (pacf (diff x) _); [|reflexivity]. destruct (pacf (diff (diff x)) _); reflexivity.
Qed.

(** C286: short series and series whose first differences are constant get NaN for everything. *)
Theorem C286_undefined : forall pacf x lag period extra default, pacf x period <> None ->
  ((length x < 10)%nat \/ (length x < period)%nat \/ forall d, differences x d -> constant_series d) ->
  acfpacf pacf x lag period extra default = Some all_nan.
Proof.
  intros pacf x lag period extra default HP H. unfold acfpacf.
  destruct (Nat.ltb (length x) 10) eqn:L; [reflexivity|]. apply Nat.ltb_ge in L.
  destruct (Nat.ltb (length x) period) eqn:LP; [reflexivity|]. apply Nat.ltb_ge in LP.
  destruct H as [H|[H|H]]; [lia|lia|]. cbn [orb]. destruct (constant x); [reflexivity|].
  destruct (pacf x period); [|congruence]. specialize (H _ (diff_differences x)).
  assert (diff x <> []) as N1 by (intros E; pose proof (diff_length x) as L1; rewrite E in L1; cbn in L1; lia).
  apply (dev2_zero _ N1) in H. rewrite <- determinant_acov in H. rewrite (proj2 (zero_true _) H). reflexivity.
Qed.

(** C286: a feature that is switched off is NaN. *)
Theorem C286_off : forall pacf x lag period extra default f,
  acfpacf pacf x lag period (Some extra) default = Some f ->
  (extra "y_acf1"%string = Some false -> y_acf1 f = None) /\ (extra "y_acf5"%string = Some false -> y_acf5 f = None)
  /\ (extra "diff1y_acf1"%string = Some false -> d1_acf1 f = None) /\ (extra "diff1y_acf5"%string = Some false -> d1_acf5 f = None)
  /\ (extra "diff2y_acf1"%string = Some false -> d2_acf1 f = None) /\ (extra "diff2y_acf5"%string = Some false -> d2_acf5 f = None)
  /\ (extra "y_pacf5"%string = Some false -> y_pacf5 f = None) /\ (extra "diff1y_pacf5"%string = Some false -> d1_pacf5 f = None)
  /\ (extra "diff2y_pacf5"%string = Some false -> d2_pacf5 f = None) /\ (extra "seas_acf1"%string = Some false -> seas_acf1 f = None)
  /\ (extra "seas_pacf1"%string = Some false -> seas_pacf1 f = None).
Proof.
  intros pacf x lag period extra default f H. unfold acfpacf in H.
  assert (forall g, Some all_nan = Some g -> g = all_nan) as NN by (intros g E; injection E as <-; reflexivity).
  destruct (Nat.ltb (length x) 10 || Nat.ltb (length x) period || constant x); [rewrite (NN _ H); repeat split|].
  destruct (pacf x period) as [py|]; [|discriminate].
  destruct (zero (determinant (diff x)) || zero (determinant (diff (diff x)))); [rewrite (NN _ H); repeat split|].
  destruct (pacf (diff x) _) as [p1|]; [|discriminate]. destruct (pacf (diff (diff x)) _) as [p2|]; [|discriminate].
  set (on := fun name => match extra name with Some b => b | None => default end) in H. unfold collect in H.
  assert (forall name, extra name = Some false -> on name = false) as Off by (intros name E; unfold on; rewrite E; reflexivity).
  destruct (switched (on "y_acf1"%string) _) as [a|] eqn:E1; [|discriminate].
  destruct (switched (on "diff1y_acf1"%string) _) as [b|] eqn:E2; [|discriminate].
  destruct (switched (on "diff2y_acf1"%string) _) as [c|] eqn:E3; [|discriminate].
  destruct (switched (on "seas_acf1"%string) _) as [s|] eqn:E4; [|discriminate].
  destruct (switched (on "seas_pacf1"%string) _) as [t|] eqn:E5; [|discriminate].
  injection H as <-.
  cbn [y_acf1 d1_acf1 d2_acf1 seas_acf1 y_acf5 d1_acf5 d2_acf5 y_pacf5 d1_pacf5 d2_pacf5 seas_pacf1].
  assert (forall name v w, extra name = Some false -> switched (on name) v = Some w -> w = None) as Sw.
  { intros name v w E S'. rewrite (Off name E) in S'. cbn in S'. injection S' as <-. reflexivity. }
  repeat match goal with
  | |- _ /\ _ => split
  | |- _ -> (if _ then _ else None) = None => let E := fresh in intros E; rewrite (Off _ E); reflexivity
  | |- _ -> _ => let E := fresh in intros E; eapply Sw; [exact E|eassumption]
  end.
Qed.

(** C286: a call with every feature returns when the partial autocorrelations are there. *)
Theorem C286_returns : forall pacf x lag period, plain x period -> (1 <= period)%nat -> (1 <= lag)%nat ->
  (forall y n, exists l, pacf y n = Some l /\ (2 <= length l)%nat) ->
  exists f, acfpacf pacf x lag period everything true = Some f.
Proof.
  intros pacf x lag period P Hp Hl HP. destruct (plain_inv x period P) as (G & A0 & A1 & A2 & Z). destruct P as (L & LP & _).
  unfold acfpacf, everything. rewrite G, Z.
  destruct (HP x period) as (py & -> & Lpy). destruct (HP (diff x) (Nat.min lag (length x - 2))) as (p1 & -> & _).
  destruct (HP (diff (diff x)) (Nat.min lag (length x - 2))) as (p2 & -> & _).
  rewrite (acf_defined x period A0), (acf_defined (diff x) _ A1), (acf_defined (diff (diff x)) _ A2), !diff_length.
  unfold collect. cbn [switched]. rewrite last_map_seq by lia.
  assert (forall (g : nat -> option R) n, (1 <= n)%nat -> hd_error (map g (seq 1 n)) = Some (g 1%nat)) as HD.
  { intros g [|n] Hn; [lia|reflexivity]. }
  rewrite !HD by lia.
  assert (exists t, last_error (tl py) = Some t) as [t ->].
  { unfold last_error. destruct (rev (tl py)) as [|t r] eqn:E; [|exists t; reflexivity].
    apply (f_equal (@length _)) in E. rewrite rev_length in E. destruct py as [|a [|b py]]; cbn in *; lia. }
  eexists. reflexivity.
Qed.

(** ** Units *)
Definition affine (a b : R) (x : list R) : list R := map (fun v => a * v + b) x.
Lemma affine_length a b x : length (affine a b x) = length x.
Proof. apply map_length. Qed.
Lemma affine_nth a b x t : (t < length x)%nat -> nth t (affine a b x) 0 = a * nth t x 0 + b.
Proof.
  intros H. unfold affine. rewrite (nth_indep _ 0 ((fun v => a * v + b) 0)) by (rewrite map_length; exact H).
  exact (map_nth (fun v => a * v + b) x 0 t).
Qed.
Lemma affine_mean a b x : x <> [] -> mean (affine a b x) = a * mean x + b.
Proof.
  intros NE. assert (INR (length x) <> 0) as N by (apply not_0_INR; destruct x; [congruence|discriminate]).
  unfold mean, affine. rewrite map_length, !rsum_sum.
  assert (sum (map (fun v => a * v + b) x) = a * sum x + b * INR (length x)) as ->; [|rewrite ?(rsum_sum x); field; exact N].
  clear. induction x as [|v x IH]; [cbn; ring|]. cbn [map length]. rewrite !sum_cons, IH, S_INR. ring.
Qed.
Lemma affine_acov a b x k : acov (affine a b x) k = a ^ 2 * acov x k.
Proof.
  destruct x as [|v x]; [unfold acov; cbn; unfold Rdiv; ring|]. set (y := v :: x).
  assert (y <> []) as NE by discriminate. unfold acov. rewrite !rsum_sum.
  rewrite !affine_length.
  assert (sum (map (fun t => (nth t (affine a b y) 0 - mean (affine a b y)) * (nth (t + k) (affine a b y) 0 - mean (affine a b y))) (seq 0 (length y - k)))
    = a ^ 2 * sum (map (fun t => (nth t y 0 - mean y) * (nth (t + k) y 0 - mean y)) (seq 0 (length y - k)))) as ->; [|match goal with |- context [rsum ?l] => rewrite (rsum_sum l) end; unfold Rdiv; ring].
  rewrite <- sum_scale. f_equal. apply map_ext_in. intros t Ht. apply in_seq in Ht.
  rewrite (affine_mean a b y NE), !affine_nth by lia. ring.
Qed.
Lemma affine_diff a b x : diff (affine a b x) = affine a 0 (diff x).
Proof.
  induction x as [|u [|v x] IH]; [reflexivity|reflexivity|].
  cbn [affine map diff] in *. f_equal; [ring|exact IH].
Qed.
Lemma affine_zero a b x : a <> 0 -> zero (acov (affine a b x) 0) = zero (acov x 0).
Proof.
  intros Ha. rewrite affine_acov. unfold zero. assert (a ^ 2 <> 0) as S2 by (apply pow_nonzero; exact Ha).
  destruct (Req_EM_T (acov x 0) 0) as [E|N]; destruct (Req_EM_T (a ^ 2 * acov x 0) 0) as [E'|N']; try reflexivity.
  - exfalso. apply N'. rewrite E. ring.
  - exfalso. apply Rmult_integral in E'. tauto.
Qed.
Lemma affine_acf a b x n : a <> 0 -> acf (affine a b x) n = acf x n.
Proof.
  intros Ha. unfold acf. rewrite affine_length, (affine_zero a b x Ha). apply map_ext. intros k.
  destruct (zero (acov x 0)) eqn:Z; [reflexivity|]. apply zero_false in Z. rewrite !affine_acov. apply (f_equal Some). field.
  split; assumption.
Qed.
Lemma affine_constant a b x : a <> 0 -> constant (affine a b x) = constant x.
Proof.
  intros Ha. destruct x as [|v x]; [reflexivity|]. unfold affine. cbn [map constant].
  induction x as [|u x IH]; [reflexivity|]. cbn [map forallb]. rewrite IH. f_equal.
  destruct (Req_EM_T (a * u + b) (a * v + b)) as [E|N]; destruct (Req_EM_T u v) as [E'|N']; try reflexivity.
  - exfalso. apply N'. apply Rmult_eq_reg_l with a; [lra|exact Ha].
  - exfalso. apply N. rewrite E'. reflexivity.
Qed.

(** C286: the unit and the zero of the values do not matter, nor does their sign. *)
Theorem C286_units : forall pacf x lag period extra default f g a b, a <> 0 ->
  acfpacf pacf x lag period extra default = Some f -> acfpacf pacf (map (fun v => a * v + b) x) lag period extra default = Some g ->
  y_acf1 g = y_acf1 f /\ y_acf5 g = y_acf5 f /\ d1_acf1 g = d1_acf1 f /\ d1_acf5 g = d1_acf5 f
  /\ d2_acf1 g = d2_acf1 f /\ d2_acf5 g = d2_acf5 f /\ seas_acf1 g = seas_acf1 f.
Proof.
  intros pacf x lag period extra default f g a b Ha F G.
  change (map (fun v => a * v + b) x) with (affine a b x) in G. unfold acfpacf in F, G.
  rewrite !affine_diff, affine_length, affine_constant, !determinant_acov, !affine_zero, !affine_acf in G by exact Ha.
  rewrite !determinant_acov in F.
  destruct (Nat.ltb (length x) 10 || Nat.ltb (length x) period || constant x).
  { apply some_inj in F, G. subst. repeat split. }
  destruct (pacf x period) as [py|]; [|discriminate]. destruct (pacf (affine a b x) period) as [qy|]; [|discriminate].
  destruct (zero (acov (diff x) 0) || zero (acov (diff (diff x)) 0)).
  { apply some_inj in F, G. subst. repeat split. }
  destruct (pacf (diff x) _) as [p1|]; [|discriminate]. destruct (pacf (diff (diff x)) _) as [p2|]; [|discriminate].
  destruct (pacf (affine a 0 (diff x)) _) as [q1|]; [|discriminate].
  destruct (pacf (affine a 0 (affine a 0 _)) _) as [q2|] in G || destruct (pacf _ _) as [q2|] in G; [|discriminate].
  destruct extra as [ex|]; [|discriminate]. set (on := fun name => match ex name with Some b => b | None => default end) in *.
  unfold collect in F, G.
  destruct (switched (on "y_acf1"%string) _) as [v1|]; [|discriminate].
  destruct (switched (on "diff1y_acf1"%string) _) as [v2|]; [|discriminate].
  destruct (switched (on "diff2y_acf1"%string) _) as [v3|]; [|discriminate].
  destruct (switched (on "seas_acf1"%string) _) as [v4|]; [|discriminate].
  destruct (switched (on "seas_pacf1"%string) (last_error (tl py))) as [v5|]; [|discriminate].
  destruct (switched (on "seas_pacf1"%string) (last_error (tl qy))) as [v6|]; [|discriminate].
  apply some_inj in F, G. subst. repeat split.
Qed.

(** A series that meets the hypotheses. *)
Example C286_case : let x := [0; 1; 0; 2; 0; 1; 0; 3; 0; 1; 0; 2] in
  plain x 5 /\ plain x 12 /\ plain x 3 /\ exists f, acfpacf (fun y n => Some [Some 1; Some 0]) x 7 5 everything true = Some f.
Proof.
  intros x. assert (forall p, (p <= 12)%nat -> plain x p) as P.
  { intros p Hp. split; [cbn; lia|split; [cbn; lia|]]. intros d d2 [L D] [L2 D2] C.
    cbn [x length] in *. assert (length d = 11)%nat as Ld by lia. assert (length d2 = 10)%nat as Ld2 by lia.
    assert (nth 0 d2 0 = nth 1 d2 0) as E by (apply C; lia).
    rewrite !D2, !D in E by (cbn; lia). cbn in E. lra. }
  split; [apply P; lia|split; [apply P; lia|split; [apply P; lia|]]].
  apply C286_returns; [apply P; lia|lia|lia|]. intros y n. eexists. split; [reflexivity|cbn; lia].
Qed.

Print Assumptions C286_bounds.
Print Assumptions C286_values_partial.
Print Assumptions C286_five_refuted.
Print Assumptions C286_one_period_refuted.
Print Assumptions C286_none_refuted.
Print Assumptions C286_undefined.
Print Assumptions C286_off.
Print Assumptions C286_returns.
Print Assumptions C286_units.
