(** C287, continued: linearity, gradient and slope of the trend; the Hurst exponent; positions and rounding. *)
From Coq Require Import Reals Lra Permutation.
From Coq Require Import List ZArith Bool Lia.
From Verif Require Import TsfAcfModel TsfShapeModel TsfAcfProps TsfShapeProps.
Import ListNotations.
Open Scope R_scope.

(** ** Two columns u and v *)
Lemma quad (u v : nat -> R) c l :
  sum (map (fun t => (v t - c * u t) ^ 2) l) =
  sum (map (fun t => v t ^ 2) l) - 2 * c * sum (map (fun t => u t * v t) l) + c ^ 2 * sum (map (fun t => u t ^ 2) l).
Proof. induction l as [|t l IH]; cbn [map]; [rewrite !sum_nil; ring|]. rewrite !sum_cons, IH. ring. Qed.
Lemma quad_shift (w : nat -> R) d l : sum (map w l) = 0 ->
  sum (map (fun t => (w t + d) ^ 2) l) = sum (map (fun t => w t ^ 2) l) + d ^ 2 * INR (length l).
Proof.
  intros H. assert (forall m, sum (map (fun t => (w t + d) ^ 2) m) = sum (map (fun t => w t ^ 2) m) + 2 * d * sum (map w m) + d ^ 2 * INR (length m)) as G.
  { induction m as [|t m IH]; [cbn; ring|]. cbn [map length]. rewrite !sum_cons, IH, S_INR. ring. }
  rewrite G, H. ring.
Qed.
Definition idx (n : nat) : list R := map INR (seq 0 n).
Lemma idx_length n : length (idx n) = n.
Proof. unfold idx. rewrite map_length, seq_length. reflexivity. Qed.
Lemma idx_nth n t : (t < n)%nat -> nth t (idx n) 0 = INR t.
Proof.
  intros H. unfold idx. rewrite (nth_indep _ 0 (INR 0)) by (rewrite map_length, seq_length; exact H).
  rewrite map_nth, seq_nth by exact H. reflexivity.
Qed.
Lemma combine_index (a b : list R) : length a = length b ->
  combine a b = map (fun t => (nth t a 0, nth t b 0)) (seq 0 (length a)).
Proof.
  revert b. induction a as [|x a IH]; intros [|y b] H; try discriminate; [reflexivity|].
  cbn [combine length seq map nth]. rewrite <- seq_shift, map_map. rewrite (IH b) by (cbn in H; lia). reflexivity.
Qed.
Definition dv (x : list R) (t : nat) : R := nth t x 0 - mean x.
Lemma cross_index x y : length x = length y -> cross x y = sum (map (fun t => dv x t * dv y t) (seq 0 (length x))).
Proof. intros H. unfold cross. rewrite (combine_index x y H), map_map. rs. reflexivity. Qed.
Lemma cross_self x : cross x x = sum (map (fun t => dv x t ^ 2) (seq 0 (length x))).
Proof. rewrite cross_index by reflexivity. apply sum_map_ext. intros t _. ring. Qed.
Lemma sum_dv x : sum (map (dv x) (seq 0 (length x))) = 0.
Proof.
  destruct x as [|a x]; [reflexivity|]. set (y := a :: x). unfold dv. rewrite sum_minus, sum_const, seq_length.
  rewrite <- (sum_by_index (fun v => v) y), map_id, mean_spec by discriminate. ring.
Qed.
Lemma cross_self_spread x : x <> [] -> spread x (cross x x).
Proof.
  intros H. exists (mean x). split; [exact (mean_spec x H)|]. rewrite cross_self. symmetry. apply (sum_by_index (fun v => (v - mean x) ^ 2)).
Qed.
Lemma spread_unique x s s' : x <> [] -> spread x s -> spread x s' -> s = s'.
Proof. intros H (m & A & ->) (m' & A' & ->). rewrite (average_mean x m H A), (average_mean x m' H A'). reflexivity. Qed.
Lemma cross_nonneg x : 0 <= cross x x.
Proof. rewrite cross_self. apply sum_nonneg. intros t. apply pow2_ge_0. Qed.
Lemma cross_zero x : x <> [] -> (cross x x = 0 <-> constant_series x).
Proof.
  intros H. rewrite <- (var_zero x H). pose proof (var_sum x) as V. pose proof (len_pos x H) as P.
  destruct (cross_self_spread x H) as (m & A & E). rewrite (average_mean x m H A) in E. rewrite E, <- V. split.
  - intros Z. apply Rmult_integral in Z. destruct Z; lra.
  - intros ->. ring.
Qed.
Lemma cross_idx_pos n : (2 <= n)%nat -> 0 < cross (idx n) (idx n).
Proof.
  intros H. assert (idx n <> []) as NE by (intros E; apply (f_equal (@length _)) in E; rewrite idx_length in E; cbn in E; lia).
  pose proof (cross_nonneg (idx n)) as P. destruct (Req_dec (cross (idx n) (idx n)) 0) as [Z|Z]; [|lra].
  exfalso. apply (cross_zero _ NE) in Z. specialize (Z 0%nat 1%nat). rewrite idx_length, !idx_nth in Z by lia.
  specialize (Z ltac:(lia) ltac:(lia)). cbn in Z. lra.
Qed.

(** The misfit of a line, from its slope and what its height misses the averages by. *)
Lemma misfit_split x a b : x <> [] ->
  misfit x a b = sum (map (fun t => (dv x t - b * dv (idx (length x)) t) ^ 2) (seq 0 (length x)))
    + (mean x - a - b * mean (idx (length x))) ^ 2 * INR (length x).
Proof.
  intros H. unfold misfit. set (n := length x). set (d := mean x - a - b * mean (idx n)).
  assert (sum (map (fun i => (nth i x 0 - (a + b * INR i)) ^ 2) (seq 0 n)) =
    sum (map (fun t => ((dv x t - b * dv (idx n) t) + d) ^ 2) (seq 0 n))) as ->.
  { apply sum_map_ext. intros t Ht. apply in_seq in Ht. unfold dv, d. rewrite idx_nth by lia. f_equal. ring. }
  rewrite quad_shift, seq_length; [reflexivity|].
  rewrite sum_minus. unfold n at 1. rewrite sum_dv. rewrite sum_scale.
  pose proof (sum_dv (idx n)) as Z. rewrite idx_length in Z. rewrite Z. ring.
Qed.
Lemma misfit_best x : (2 <= length x)%nat ->
  let A := cross (idx (length x)) (idx (length x)) in let B := cross (idx (length x)) x in
  misfit x (mean x - B / A * mean (idx (length x))) (B / A) = cross x x - B ^ 2 / A
  /\ forall a b, cross x x - B ^ 2 / A <= misfit x a b.
Proof.
  intros L A B. assert (x <> []) as NE by (intros ->; cbn in L; lia).
  pose proof (cross_idx_pos (length x) L) as PA. fold A in PA.
  assert (forall b, sum (map (fun t => (dv x t - b * dv (idx (length x)) t) ^ 2) (seq 0 (length x))) = cross x x - 2 * b * B + b ^ 2 * A) as Q.
  { intros b. rewrite quad. unfold A, B. rewrite !cross_self, (cross_index (idx (length x)) x) by apply idx_length.
    rewrite idx_length. reflexivity. }
  split.
  - rewrite (misfit_split x _ _ NE), Q. field. lra.
  - intros a b. rewrite (misfit_split x _ _ NE), Q. pose proof (len_pos x NE) as PN.
    assert (0 <= (mean x - a - b * mean (idx (length x))) ^ 2 * INR (length x)) by (apply Rmult_le_pos; [apply pow2_ge_0|lra]).
    assert (0 <= A * (b - B / A) ^ 2) by (apply Rmult_le_pos; [lra|apply pow2_ge_0]).
    replace (A * (b - B / A) ^ 2) with (b ^ 2 * A - 2 * b * B + B ^ 2 / A) in * by (field; lra). lra.
Qed.

(** C287: the linearity is the share of the variation that the best line explains. *)
Theorem C287_linearity : forall x s, (2 <= length x)%nat -> ~ constant_series x -> spread x s ->
  exists a b, misfit x a b = (1 - linearity x) * s /\ forall a' b', misfit x a b <= misfit x a' b'.
Proof.
  intros x s L NC SP. assert (x <> []) as NE by (intros ->; cbn in L; lia).
  rewrite (spread_unique x s (cross x x) NE SP (cross_self_spread x NE)).
  destruct (misfit_best x L) as [E M]. pose proof (cross_idx_pos (length x) L) as PA.
  assert (cross x x <> 0) as NZ by (rewrite (cross_zero x NE); exact NC). pose proof (cross_nonneg x) as PC.
  do 2 eexists. split; [|intros a' b'; rewrite E; apply M]. rewrite E. unfold linearity. fold (idx (length x)).
  rewrite (proj2 (zero_false (cross (idx (length x)) (idx (length x))))) by lra. rewrite (proj2 (zero_false _) NZ). cbn [orb].
  set (A := cross (idx (length x)) (idx (length x))) in *. set (C := cross x x) in *. set (B := cross (idx (length x)) x).
  assert (0 < sqrt (A * C)) as SQ by (apply sqrt_lt_R0, Rmult_lt_0_compat; lra).
  assert ((B / sqrt (A * C)) ^ 2 = B ^ 2 / (A * C)) as ->; [|field; lra].
  rewrite <- (pow2_sqrt (A * C)) at 2 by (apply Rmult_le_pos; lra). field. lra.
Qed.
Lemma linearity_constant x : constant_series x -> linearity x = 0.
Proof.
  intros H. unfold linearity. destruct x as [|a x]; [cbn; rewrite (proj2 (zero_true 0) eq_refl); reflexivity|].
  rewrite (proj2 (zero_true (cross (a :: x) (a :: x)))); [rewrite orb_true_r; reflexivity|]. apply cross_zero; [discriminate|exact H].
Qed.
Lemma short_constant (x : list R) : (length x < 2)%nat -> constant_series x.
Proof. intros H i j Hi Hj. assert (i = 0%nat /\ j = 0%nat) as [-> ->] by lia. reflexivity. Qed.

(** C287: it lies in [0, 1]; it is 1 exactly for a straight line that is not flat, and 0 for a flat one. *)
Theorem C287_line : forall x, 0 <= linearity x <= 1 /\ (constant_series x -> linearity x = 0)
  /\ (linearity x = 1 <-> ~ constant_series x /\ exists a b, straight x a b).
Proof.
  intros x. split; [|split; [apply linearity_constant|]].
  - assert (0 <= linearity x) as P. { unfold linearity. destruct (_ || _); [lra|apply pow2_ge_0]. }
    split; [exact P|]. destruct (Nat.lt_ge_cases (length x) 2) as [S2|L]; [rewrite linearity_constant by (apply short_constant; exact S2); lra|].
    assert (x <> []) as NE by (intros ->; cbn in L; lia).
    destruct (Req_dec (cross x x) 0) as [Z|NZ]; [rewrite linearity_constant by (apply cross_zero; assumption); lra|].
    assert (~ constant_series x) as NC by (rewrite <- (cross_zero x NE); exact NZ).
    destruct (C287_linearity x (cross x x) L NC (cross_self_spread x NE)) as (a & b & E & _).
    assert (0 <= misfit x a b) as Q by (apply sum_nonneg; intros t; apply pow2_ge_0). rewrite E in Q.
    pose proof (cross_nonneg x) as PC. apply Rnot_lt_le. intros K.
    assert (0 < (linearity x - 1) * cross x x) by (apply Rmult_lt_0_compat; lra). lra.
  - split.
    + intros E. assert (~ constant_series x) as NC by (intros C; rewrite (linearity_constant x C) in E; lra).
      split; [exact NC|]. assert (2 <= length x)%nat as L.
      { destruct (Nat.lt_ge_cases (length x) 2) as [S2|L]; [exfalso; apply NC, short_constant; exact S2|exact L]. }
      assert (x <> []) as NE by (intros ->; cbn in L; lia).
      destruct (C287_linearity x (cross x x) L NC (cross_self_spread x NE)) as (a & b & F & _). rewrite E in F.
      exists a, b. intros i Hi.
      assert ((nth i x 0 - (a + b * INR i)) ^ 2 = 0) as Z.
      { apply (sum_zero_all (fun i => (nth i x 0 - (a + b * INR i)) ^ 2) (seq 0 (length x))).
        - intros t. apply pow2_ge_0.
        - change (misfit x a b = 0). rewrite F. ring.
        - apply in_seq. lia. }
      replace ((nth i x 0 - (a + b * INR i)) ^ 2) with (Rsqr (nth i x 0 - (a + b * INR i))) in Z by (unfold Rsqr; ring).
      apply Rsqr_0_uniq in Z. lra.
    + intros (NC & a & b & St). assert (2 <= length x)%nat as L.
      { destruct (Nat.lt_ge_cases (length x) 2) as [S2|L]; [exfalso; apply NC, short_constant; exact S2|exact L]. }
      assert (x <> []) as NE by (intros ->; cbn in L; lia).
      destruct (C287_linearity x (cross x x) L NC (cross_self_spread x NE)) as (a' & b' & F & M).
      specialize (M a b). assert (misfit x a b = 0) as Z.
      { unfold misfit. transitivity (sum (map (fun _ : nat => 0) (seq 0 (length x)))); [|rewrite sum_const; ring].
        apply sum_map_ext. intros i Hi. apply in_seq in Hi. rewrite St by lia. ring. }
      assert (0 <= misfit x a' b') as P by (apply sum_nonneg; intros t; apply pow2_ge_0).
      assert ((1 - linearity x) * cross x x = 0) as Q by lra. apply Rmult_integral in Q. destruct Q as [Q|Q]; [lra|].
      exfalso. apply NC, cross_zero; assumption.
Qed.

(** ** Gradient *)
Lemma gradient_nth x i : (i < length x)%nat -> nth i (gradient x) 0 =
  (if Nat.eqb i 0 then nth 1 x 0 - nth 0 x 0
   else if Nat.eqb (S i) (length x) then nth i x 0 - nth (i - 1) x 0 else (nth (S i) x 0 - nth (i - 1) x 0) / 2).
Proof.
  intros H. unfold gradient.
  set (f := fun i => if Nat.eqb i 0 then _ else _). rewrite (nth_indep _ 0 (f 0%nat)) by (rewrite map_length, seq_length; exact H).
  rewrite map_nth, seq_nth by exact H. reflexivity.
Qed.
(** C287: the standard deviation of the derivative is 0 exactly for straight lines. *)
Theorem C287_derivative : forall x, (2 <= length x)%nat -> exists s, std1st_der x = Some s /\ 0 <= s
  /\ (s = 0 <-> exists a b, straight x a b).
Proof.
  intros x L. exists (std (gradient x)). split; [unfold std1st_der; rewrite (proj2 (Nat.ltb_ge _ _) L); reflexivity|].
  split; [apply sqrt_pos|].
  assert (length (gradient x) = length x) as GL by (unfold gradient; rewrite map_length, seq_length; reflexivity).
  assert (gradient x <> []) as NE by (intros E; rewrite E in GL; cbn in GL; lia).
  assert (std (gradient x) = 0 <-> constant_series (gradient x)) as ->.
  { rewrite <- (var_zero _ NE). unfold std. split; intros E; [apply sqrt_eq_0; [apply var_nonneg|exact E]|rewrite E; apply sqrt_0]. }
  split.
  - intros C. set (b := nth 1 x 0 - nth 0 x 0). exists (nth 0 x 0), b.
    assert (forall i, (i < length x)%nat -> nth i (gradient x) 0 = b) as G.
    { intros i Hi. rewrite (C i 0%nat) by lia. rewrite gradient_nth by lia. reflexivity. }
    assert (forall i, (S i < length x)%nat -> nth i x 0 = nth 0 x 0 + b * INR i /\ nth (S i) x 0 = nth 0 x 0 + b * INR (S i)) as H.
    { induction i as [|i IH]; intros Hi; [split; [cbn; ring|unfold b; cbn; ring]|].
      destruct (IH ltac:(lia)) as [I0 I1]. split; [exact I1|].
      specialize (G (S i) ltac:(lia)). rewrite gradient_nth in G by lia. change (Nat.eqb (S i) 0) with false in G. cbv iota in G.
      destruct (Nat.eqb (S (S i)) (length x)) eqn:E; [apply Nat.eqb_eq in E; lia|].
      replace (S i - 1)%nat with i in G by lia. rewrite I0 in G. rewrite !S_INR. lra. }
    intros i Hi. destruct i as [|i]; [cbn; ring|]. apply H. lia.
  - intros (a & b & St) i j. rewrite GL. intros Hi Hj.
    assert (forall k, (k < length x)%nat -> nth k (gradient x) 0 = b) as G; [|rewrite !G by assumption; reflexivity].
    intros k Hk. rewrite gradient_nth by exact Hk. destruct (Nat.eqb k 0) eqn:K.
    + rewrite !St by lia. cbn. ring.
    + apply Nat.eqb_neq in K. destruct k as [|k]; [congruence|]. replace (S k - 1)%nat with k by lia.
      destruct (Nat.eqb (S (S k)) (length x)) eqn:E.
      * rewrite !St by lia. rewrite S_INR. ring.
      * apply Nat.eqb_neq in E. rewrite !St by lia. rewrite !S_INR. field.
Qed.

(** ** Slope of the trend *)
Lemma sq_idx_pos n : (2 <= n)%nat -> 0 < sum (map (fun t => INR t ^ 2) (seq 0 n)).
Proof.
  intros H. destruct n as [|[|n]]; [lia|lia|]. cbn [seq map]. rewrite !sum_cons.
  pose proof (sum_nonneg (fun t => INR t ^ 2) (seq 2 n) (fun t => pow2_ge_0 _)). cbn [INR] in *. lra.
Qed.
(** C287: the slope is that of the best line through the first point of the trend. *)
Theorem C287_trend_slope : forall trend, (2 <= length trend)%nat -> exists b, trend_mag trend = Some b
  /\ (forall b', misfit trend (nth 0 trend 0) b <= misfit trend (nth 0 trend 0) b')
  /\ (forall a c, straight trend a c -> b = c).
Proof.
  intros x L. destruct x as [|first x']; [cbn in L; lia|]. set (x := first :: x') in *.
  set (u := fun t : nat => INR t). set (v := fun t => nth t x 0 - first).
  set (A := sum (map (fun t => u t ^ 2) (seq 0 (length x)))). set (B := sum (map (fun t => u t * v t) (seq 0 (length x)))).
  pose proof (sq_idx_pos (length x) L) as PA. change (0 < A) in PA.
  assert (trend_mag x = Some (B / A)) as E.
  { unfold trend_mag, x. fold x. apply (f_equal Some).
    rewrite map_length. fold (idx (length x)). rewrite (combine_index (idx (length x)) (map (fun w => w - first) x)) by (rewrite idx_length, map_length; reflexivity).
    rewrite idx_length, map_map. cbn [fst snd]. rs. f_equal.
    - apply sum_map_ext. intros t Ht. apply in_seq in Ht. rewrite idx_nth by lia. unfold u, v. f_equal.
      rewrite (nth_indep _ 0 ((fun w => w - first) 0)) by (rewrite map_length; lia). exact (map_nth (fun w => w - first) x 0 t).
    - unfold idx. rewrite map_map. reflexivity. }
  exists (B / A). split; [exact E|].
  assert (forall b, misfit x (nth 0 x 0) b = sum (map (fun t => v t ^ 2) (seq 0 (length x))) - 2 * b * B + b ^ 2 * A) as M.
  { intros b. unfold A, B. rewrite <- quad. apply sum_map_ext. intros t _. unfold u, v, x. cbn [nth]. ring. }
  split.
  - intros b'. rewrite !M. assert (0 <= A * (b' - B / A) ^ 2) as P by (apply Rmult_le_pos; [lra|apply pow2_ge_0]).
    replace (A * (b' - B / A) ^ 2) with (b' ^ 2 * A - 2 * b' * B + B ^ 2 / A) in P by (field; lra).
    replace (2 * (B / A) * B) with (2 * (B ^ 2 / A)) by (field; lra). replace ((B / A) ^ 2 * A) with (B ^ 2 / A) by (field; lra). lra.
  - intros a c St. assert (B = c * A) as ->; [|field; lra]. unfold A, B. rewrite <- sum_scale. apply sum_map_ext.
    intros t Ht. apply in_seq in Ht. unfold u, v. rewrite St by lia.
    assert (first = a) as -> by (specialize (St 0%nat ltac:(lia)); cbn in St; lra). ring.
Qed.

(** ** Rounding *)
Lemma round_close x : Rabs (IZR (round x) - x) <= 1 / 2.
Proof.
  destruct (archimed x) as [U1 U2]. unfold round. set (f := (up x - 1)%Z).
  assert (IZR f = IZR (up x) - 1) as F by (unfold f; rewrite minus_IZR; reflexivity).
  destruct (Rlt_dec (x - IZR f) (1 / 2)) as [d|d]; [apply Rabs_le; lra|].
  destruct (Rlt_dec (1 / 2) (x - IZR f)) as [d'|d']; [rewrite plus_IZR; apply Rabs_le; lra|].
  destruct (Z.even f); [|rewrite plus_IZR]; apply Rabs_le; lra.
Qed.
(** C287: the size of the seasonality is off by at most one half from the distance of the quantiles. *)
Theorem C287_size_partial : forall q95 q05, Rabs (seasonality_mag q95 q05 - (q95 - q05)) <= 1 / 2.
Proof. intros. apply round_close. Qed.
(** C287 refuted: it is rounded to a whole number, so a seasonality of less than half a unit has size 0. *)
Theorem C287_size_refuted : forall q95 q05, 0 < q95 - q05 < 1 / 2 -> seasonality_mag q95 q05 = 0.
Proof.
  intros a b H. unfold seasonality_mag. apply f_equal. pose proof (round_close (a - b)) as C. set (r := round (a - b)) in *.
  assert (-1 < IZR r < 1) as [L U] by (unfold Rabs in C; destruct (Rcase_abs _) in C; lra). apply lt_IZR in L, U. lia.
Qed.

(** ** Positions *)
Definition first_greatest (l : list R) (k : nat) : Prop :=
  (k < length l)%nat /\ (forall j, (j < length l)%nat -> nth j l 0 <= nth k l 0) /\ (forall j, (j < k)%nat -> nth j l 0 < nth k l 0).
Definition first_least (l : list R) (k : nat) : Prop :=
  (k < length l)%nat /\ (forall j, (j < length l)%nat -> nth k l 0 <= nth j l 0) /\ (forall j, (j < k)%nat -> nth k l 0 < nth j l 0).
Lemma argmax_from_inv l : forall pre best, first_greatest pre best ->
  first_greatest (pre ++ l) (argbest_from rgtb (length pre) best (nth best pre 0) l).
Proof.
  induction l as [|v l IH]; intros pre best (B1 & B2 & B3); [rewrite app_nil_r; repeat split; assumption|].
  cbn [argbest_from]. assert (length (pre ++ [v]) = S (length pre)) as LP by (rewrite app_length; cbn; lia).
  assert (nth (length pre) (pre ++ [v]) 0 = v) as NV by (rewrite app_nth2, Nat.sub_diag by lia; reflexivity).
  assert (forall j, (j < length pre)%nat -> nth j (pre ++ [v]) 0 = nth j pre 0) as NP by (intros j Hj; apply app_nth1; exact Hj).
  replace (pre ++ v :: l) with ((pre ++ [v]) ++ l) by (rewrite <- app_assoc; reflexivity).
  unfold rgtb at 1. destruct (Rlt_dec (nth best pre 0) v) as [G|G].
  - specialize (IH (pre ++ [v]) (length pre)). rewrite LP, NV in IH. apply IH. split; [lia|]. rewrite NV. split.
    + intros j Hj. destruct (Nat.eq_dec j (length pre)) as [->|]; [lra|]. rewrite NP by lia. specialize (B2 j ltac:(lia)). lra.
    + intros j Hj. rewrite NP by lia. specialize (B2 j ltac:(lia)). lra.
  - specialize (IH (pre ++ [v]) best). rewrite LP, (NP best B1) in IH. apply IH. split; [lia|]. rewrite (NP best B1). split.
    + intros j Hj. destruct (Nat.eq_dec j (length pre)) as [->|]; [lra|]. rewrite NP by lia. apply B2. lia.
    + intros j Hj. rewrite NP by lia. apply B3. exact Hj.
Qed.
Lemma argmax_spec l k : argbest rgtb l = Some k -> first_greatest l k.
Proof.
  destruct l as [|v l]; [discriminate|]. intros E. apply some_inj in E. subst k.
  apply (argmax_from_inv l [v] 0%nat). split; [cbn; lia|split; [|lia]]. intros j Hj. cbn in Hj. assert (j = 0%nat) as -> by lia. lra.
Qed.
Lemma argmin_from_inv l : forall pre best, first_least pre best ->
  first_least (pre ++ l) (argbest_from rltb (length pre) best (nth best pre 0) l).
Proof.
  induction l as [|v l IH]; intros pre best (B1 & B2 & B3); [rewrite app_nil_r; repeat split; assumption|].
  cbn [argbest_from]. assert (length (pre ++ [v]) = S (length pre)) as LP by (rewrite app_length; cbn; lia).
  assert (nth (length pre) (pre ++ [v]) 0 = v) as NV by (rewrite app_nth2, Nat.sub_diag by lia; reflexivity).
  assert (forall j, (j < length pre)%nat -> nth j (pre ++ [v]) 0 = nth j pre 0) as NP by (intros j Hj; apply app_nth1; exact Hj).
  replace (pre ++ v :: l) with ((pre ++ [v]) ++ l) by (rewrite <- app_assoc; reflexivity).
  unfold rltb at 1. destruct (Rlt_dec v (nth best pre 0)) as [G|G].
  - specialize (IH (pre ++ [v]) (length pre)). rewrite LP, NV in IH. apply IH. split; [lia|]. rewrite NV. split.
    + intros j Hj. destruct (Nat.eq_dec j (length pre)) as [->|]; [lra|]. rewrite NP by lia. specialize (B2 j ltac:(lia)). lra.
    + intros j Hj. rewrite NP by lia. specialize (B2 j ltac:(lia)). lra.
  - specialize (IH (pre ++ [v]) best). rewrite LP, (NP best B1) in IH. apply IH. split; [lia|]. rewrite (NP best B1). split.
    + intros j Hj. destruct (Nat.eq_dec j (length pre)) as [->|]; [lra|]. rewrite NP by lia. apply B2. lia.
    + intros j Hj. rewrite NP by lia. apply B3. exact Hj.
Qed.
(** C287: peak and trough are the first positions of the greatest and least value of the first period. *)
Theorem C287_peak : forall seasonal period k,
  (peak seasonal period = Some k -> first_greatest (firstn period seasonal) k)
  /\ (trough seasonal period = Some k -> first_least (firstn period seasonal) k).
Proof.
  intros s p k. split; [apply argmax_spec|]. unfold trough. set (l := firstn p s). clearbody l.
  destruct l as [|v l]; [discriminate|]. intros E. apply some_inj in E. subst k.
  apply (argmin_from_inv l [v] 0%nat). split; [cbn; lia|split; [|lia]]. intros j Hj. cbn in Hj. assert (j = 0%nat) as -> by lia. lra.
Qed.

Print Assumptions C287_linearity.
Print Assumptions C287_line.
Print Assumptions C287_derivative.
Print Assumptions C287_trend_slope.
Print Assumptions C287_size_partial.
Print Assumptions C287_size_refuted.
Print Assumptions C287_peak.
