(** C287, continued: the Hurst exponent, the histogram mode, the detected period. *)
From Coq Require Import Reals Lra Permutation Sorted.
From Coq Require Import List ZArith Bool Lia.
From Verif Require Import TsfAcfModel TsfShapeModel TsfAcfProps TsfShapeProps TsfLineProps.
Import ListNotations.
Open Scope R_scope.

(** ** Specification *)
(** s is the standard deviation of the differences over a lag *)
Definition lag_deviation (x : list R) (lag : nat) (s : R) : Prop :=
  0 <= s /\ exists d m, length d = (length x - lag)%nat /\ (forall i, (i + lag < length x)%nat -> nth i d 0 = nth (i + lag) x 0 - nth i x 0)
    /\ average d m /\ s ^ 2 * INR (length d) = sum (map (fun v => (v - m) ^ 2) d).
(** the interval number i of n equal ones between lo and hi; the last is closed *)
Definition bin (lo hi : R) (n i : nat) (v : R) : Prop :=
  let w := (hi - lo) / INR n in
  lo + INR i * w <= v /\ (v < lo + INR (S i) * w \/ (S i = n /\ v <= hi)).
(** k of the values satisfy P *)
Inductive tally (P : R -> Prop) : list R -> nat -> Prop :=
| tally_nil : tally P [] 0
| tally_yes v l k : P v -> tally P l k -> tally P (v :: l) (S k)
| tally_no v l k : ~ P v -> tally P l k -> tally P (v :: l) k.

(** ** Hurst exponent *)
Lemma cross_affine x y a b : length x = length y -> cross x (affine a b y) = a * cross x y.
Proof.
  intros L. destruct y as [|y0 y']; [destruct x; [|discriminate]; cbn; ring|]. set (y := y0 :: y') in *.
  rewrite !cross_index by (rewrite ?affine_length; exact L). rewrite <- sum_scale. apply sum_map_ext. intros t Ht. apply in_seq in Ht.
  unfold dv. rewrite affine_mean by discriminate. rewrite affine_nth by lia. ring.
Qed.
Lemma slope_affine x y a b : length x = length y -> slope x (affine a b y) = a * slope x y.
Proof. intros L. unfold slope. rewrite cross_affine by exact L. unfold Rdiv. ring. Qed.
Lemma vsub_length a b : length a = length b -> length (vsub a b) = length a.
Proof. intros H. unfold vsub. rewrite map_length, combine_length. lia. Qed.
Lemma vsub_nth a b i : length a = length b -> (i < length a)%nat -> nth i (vsub a b) 0 = nth i a 0 - nth i b 0.
Proof.
  revert b i. induction a as [|u a IH]; intros [|v b] i H Hi; try discriminate; [cbn in Hi; lia|].
  destruct i as [|i]; [reflexivity|]. cbn [nth]. apply (IH b i); cbn in *; lia.
Qed.
Lemma lag_lengths {A} (x : list A) lag : length (skipn lag x) = length (firstn (length x - lag) x).
Proof. rewrite skipn_length, firstn_length. lia. Qed.
Lemma nth_skip (x : list R) k i : nth i (skipn k x) 0 = nth (i + k) x 0.
Proof.
  revert x. induction k as [|k IH]; intros x; [rewrite Nat.add_0_r; reflexivity|].
  destruct x as [|a x]; [destruct i; reflexivity|]. cbn [skipn]. rewrite IH. replace (i + S k)%nat with (S (i + k)) by lia. reflexivity.
Qed.
Lemma nth_first (x : list R) k i : (i < k)%nat -> nth i (firstn k x) 0 = nth i x 0.
Proof.
  revert x i. induction k as [|k IH]; intros x i H; [lia|]. destruct x as [|a x]; [destruct i; reflexivity|].
  destruct i as [|i]; [reflexivity|]. cbn [firstn nth]. apply IH. lia.
Qed.
Lemma lagged_std_spec x lag s : (lag < length x)%nat -> (lag_deviation x lag s <-> s = lagged_std x lag).
Proof.
  intros Hl. set (d := vsub (skipn lag x) (firstn (length x - lag) x)).
  assert (length d = (length x - lag)%nat) as Ld by (unfold d; rewrite vsub_length, skipn_length by apply lag_lengths; lia).
  assert (forall i, (i + lag < length x)%nat -> nth i d 0 = nth (i + lag) x 0 - nth i x 0) as Nd.
  { intros i Hi. unfold d. rewrite vsub_nth; [|apply lag_lengths|rewrite skipn_length; lia].
    rewrite nth_skip, nth_first by lia. reflexivity. }
  assert (d <> []) as NE by (intros E; rewrite E in Ld; cbn in Ld; lia). pose proof (len_pos d NE) as PN.
  assert (lagged_std x lag ^ 2 = var d) as SQ by (unfold lagged_std, std; apply pow2_sqrt, var_nonneg).
  split.
  - intros (P & d' & m & Ld' & Nd' & A & E). assert (d' = d) as ->.
    { apply nth_ext with (d := 0) (d' := 0); [lia|]. intros i Hi. rewrite Nd, Nd' by lia. reflexivity. }
    rewrite (average_mean d m NE A), <- var_sum in E. apply Rmult_eq_reg_r in E; [|lra].
    unfold lagged_std, std. fold d. rewrite <- E. symmetry. apply sqrt_pow2. exact P.
  - intros ->. split; [apply sqrt_pos|]. exists d, (mean d). split; [exact Ld|split; [exact Nd|split; [exact (mean_spec d NE)|]]].
    rewrite SQ. apply var_sum.
Qed.
Lemma lagged_std_affine a b x lag : (lag < length x)%nat -> lagged_std (affine a b x) lag = Rabs a * lagged_std x lag.
Proof.
  intros Hl. unfold lagged_std, std. rewrite !var_acov.
  assert (vsub (skipn lag (affine a b x)) (firstn (length (affine a b x) - lag) (affine a b x)) = affine a 0 (vsub (skipn lag x) (firstn (length x - lag) x))) as ->.
  { pose proof (lag_lengths (affine a b x) lag) as L1. pose proof (lag_lengths x lag) as L2.
    apply nth_ext with (d := 0) (d' := 0).
    - rewrite (vsub_length _ _ L1), skipn_length, !affine_length, (vsub_length _ _ L2), skipn_length. reflexivity.
    - intros i Hi. rewrite (vsub_length _ _ L1) in Hi. rewrite skipn_length, affine_length in Hi.
      rewrite affine_nth by (rewrite (vsub_length _ _ L2), skipn_length; lia).
      rewrite (vsub_nth _ _ i L1), (vsub_nth _ _ i L2) by (rewrite skipn_length, ?affine_length; lia).
      rewrite !nth_skip, !nth_first by (rewrite ?affine_length; lia). rewrite !affine_nth by lia. ring. }
  rewrite affine_acov. rewrite sqrt_mult by (try apply pow2_ge_0; rewrite <- var_acov; apply var_nonneg).
  f_equal. replace (a ^ 2) with (Rsqr a) by (unfold Rsqr; ring). apply sqrt_Rsqr_abs.
Qed.
Lemma existsb_ext {A B} (f : A -> bool) (g : B -> bool) l m : Forall2 (fun a b => f a = g b) l m -> existsb f l = existsb g m.
Proof. induction 1 as [|a b l m E _ IH]; [reflexivity|]. cbn. rewrite E, IH. reflexivity. Qed.
Lemma map_forall2 {A B C} (P : B -> C -> Prop) (f : A -> B) (g : A -> C) l : (forall x, In x l -> P (f x) (g x)) -> Forall2 P (map f l) (map g l).
Proof. induction l as [|x l IH]; intros H; [constructor|]. constructor; [apply H; left; reflexivity|]. apply IH. intros y Hy. apply H. right. exact Hy. Qed.

(** C287: the Hurst exponent depends on neither unit, sign nor origin. *)
Theorem C287_hurst_units : forall x lag_size a b, a <> 0 -> hurst (map (fun v => a * v + b) x) lag_size = hurst x lag_size.
Proof.
  intros x k a b Ha. change (map (fun v => a * v + b) x) with (affine a b x). unfold hurst. rewrite affine_length.
  set (lags := seq 2 (Nat.min k (length x - 1) - 2)).
  assert (forall lag, In lag lags -> (lag < length x)%nat) as LL by (intros lag H; unfold lags in H; apply in_seq in H; lia).
  assert (0 < Rabs a) as PA by (apply Rabs_pos_lt; exact Ha).
  assert (existsb zero (map (lagged_std (affine a b x)) lags) = existsb zero (map (lagged_std x) lags)) as ->.
  { apply existsb_ext. apply map_forall2. intros lag H. rewrite lagged_std_affine by (apply LL; exact H).
    destruct (zero (lagged_std x lag)) eqn:Z.
    - apply zero_true in Z. apply zero_true. rewrite Z. ring.
    - apply zero_false in Z. apply zero_false. intros E. apply Rmult_integral in E. lra. }
  destruct (Nat.ltb (length lags) 2 || existsb zero (map (lagged_std x) lags)) eqn:G; [reflexivity|]. apply (f_equal Some).
  apply orb_false_iff in G. destruct G as [_ G].
  assert (map ln (map (lagged_std (affine a b x)) lags) = affine 1 (ln (Rabs a)) (map ln (map (lagged_std x) lags))) as ->.
  { unfold affine at 2. rewrite !map_map. apply map_ext_in. intros lag H. rewrite lagged_std_affine by (apply LL; exact H).
    assert (0 < lagged_std x lag) as P.
    { assert (0 <= lagged_std x lag) as P0 by apply sqrt_pos. destruct (Req_dec (lagged_std x lag) 0) as [Z|Z]; [|lra].
      exfalso. assert (existsb zero (map (lagged_std x) lags) = true) as C; [|congruence].
      apply existsb_exists. exists (lagged_std x lag). split; [apply in_map; exact H|apply zero_true; exact Z]. }
    rewrite ln_mult by assumption. ring. }
  rewrite slope_affine by (rewrite !map_length; reflexivity). ring.
Qed.
(** C287: when the deviation of the differences is a power of the lag, the exponent of that power is returned. *)
Theorem C287_hurst_power : forall x lag_size c h, (4 <= lag_size)%nat -> (5 <= length x)%nat -> 0 < c ->
  (forall lag s, (2 <= lag < Nat.min lag_size (length x - 1))%nat -> lag_deviation x lag s -> s = c * Rpower (INR lag) h) ->
  hurst x lag_size = Some h.
Proof.
  intros x k c h Hk L Pc H. unfold hurst. set (n := (Nat.min k (length x - 1) - 2)%nat). assert (2 <= n)%nat as N2 by lia.
  set (lags := seq 2 n).
  assert (forall lag, In lag lags -> lagged_std x lag = c * Rpower (INR lag) h) as T.
  { intros lag Hl. unfold lags in Hl. apply in_seq in Hl. apply H; [lia|]. apply lagged_std_spec; [lia|reflexivity]. }
  assert (forall lag, In lag lags -> 0 < INR lag) as PL by (intros lag Hl; unfold lags in Hl; apply in_seq in Hl; apply lt_0_INR; lia).
  assert (Nat.ltb (length lags) 2 = false) as -> by (apply Nat.ltb_ge; unfold lags; rewrite seq_length; exact N2).
  assert (existsb zero (map (lagged_std x) lags) = false) as ->.
  { apply not_true_iff_false. intros E. apply existsb_exists in E. destruct E as (v & Hv & Z). apply in_map_iff in Hv.
    destruct Hv as (lag & <- & Hl). apply zero_true in Z. rewrite (T lag Hl) in Z. apply Rmult_integral in Z.
    destruct Z as [Z|Z]; [lra|]. unfold Rpower in Z. pose proof (exp_pos (h * ln (INR lag))). lra. }
  cbn [orb]. apply (f_equal Some). set (u := map (fun lag => ln (INR lag)) lags).
  assert (map ln (map (lagged_std x) lags) = affine h (ln c) u) as ->.
  { unfold affine, u. rewrite !map_map. apply map_ext_in. intros lag Hl. rewrite (T lag Hl).
    rewrite ln_mult by (try exact Pc; apply exp_pos). unfold Rpower. rewrite ln_exp. ring. }
  rewrite slope_affine by reflexivity. unfold slope. assert (cross u u <> 0) as NZ.
  { assert (u <> []) as NE. { intros E. apply (f_equal (@length _)) in E. unfold u, lags in E. rewrite map_length, seq_length in E. cbn in E. lia. }
    rewrite (cross_zero u NE). intros C. specialize (C 0%nat 1%nat). unfold u, lags in C. rewrite map_length, seq_length in C.
    specialize (C ltac:(lia) ltac:(lia)). destruct n as [|[|n']]; [lia|lia|]. cbn [seq map nth] in C.
    assert (ln (INR 2) < ln (INR 3)) as LT by (apply ln_increasing; [apply lt_0_INR; lia|apply lt_INR; lia]). lra. }
  field. exact NZ.
Qed.

(** ** Histogram mode *)
Lemma rmin_spec x : x <> [] -> In (rmin_list x) x /\ forall v, In v x -> rmin_list x <= v.
Proof.
  intros NE. unfold rmin_list. assert (In (hd 0 x) x) as Hd by (destruct x; [congruence|left; reflexivity]).
  revert Hd. generalize (hd 0 x). intros a Ha.
  assert (forall l, (fold_right Rmin a l = a \/ In (fold_right Rmin a l) l) /\ forall v, In v l -> fold_right Rmin a l <= v) as G.
  { induction l as [|b l [I1 I2]]; [split; [left; reflexivity|intros v []]|]. cbn [fold_right]. split.
    - unfold Rmin at 1 3. destruct (Rle_dec b (fold_right Rmin a l)); [right; left; reflexivity|]. destruct I1 as [->|I1]; [left; reflexivity|right; right; exact I1].
    - intros v [<-|Hv]; [apply Rmin_l|]. eapply Rle_trans; [apply Rmin_r|apply I2; exact Hv]. }
  destruct (G x) as [[E|E] B]; split; try exact B; [rewrite E; exact Ha|exact E].
Qed.
Lemma rmax_spec x : x <> [] -> In (rmax_list x) x /\ forall v, In v x -> v <= rmax_list x.
Proof.
  intros NE. unfold rmax_list. assert (In (hd 0 x) x) as Hd by (destruct x; [congruence|left; reflexivity]).
  revert Hd. generalize (hd 0 x). intros a Ha.
  assert (forall l, (fold_right Rmax a l = a \/ In (fold_right Rmax a l) l) /\ forall v, In v l -> v <= fold_right Rmax a l) as G.
  { induction l as [|b l [I1 I2]]; [split; [left; reflexivity|intros v []]|]. cbn [fold_right]. split.
    - unfold Rmax at 1 3. destruct (Rle_dec b (fold_right Rmax a l)); [|right; left; reflexivity]. destruct I1 as [->|I1]; [left; reflexivity|right; right; exact I1].
    - intros v [<-|Hv]; [apply Rmax_l|]. eapply Rle_trans; [apply I2; exact Hv|apply Rmax_r]. }
  destruct (G x) as [[E|E] B]; split; try exact B; [rewrite E; exact Ha|exact E].
Qed.
Lemma tally_filter (P : R -> Prop) (f : R -> bool) l k : (forall v, In v l -> (f v = true <-> P v)) -> tally P l k -> k = length (filter f l).
Proof.
  intros H T. induction T as [|v l k Hv T IH|v l k Hv T IH]; [reflexivity| |].
  - cbn [filter]. rewrite (proj2 (H v (or_introl eq_refl)) Hv). cbn [length]. f_equal. apply IH. intros w Hw. apply H. right. exact Hw.
  - cbn [filter]. destruct (f v) eqn:E; [apply (H v (or_introl eq_refl)) in E; contradiction|]. apply IH. intros w Hw. apply H. right. exact Hw.
Qed.
Lemma filter_tally (P : R -> Prop) (f : R -> bool) l : (forall v, In v l -> (f v = true <-> P v)) -> tally P l (length (filter f l)).
Proof.
  induction l as [|v l IH]; intros H; [constructor|]. cbn [filter]. assert (forall w, In w l -> (f w = true <-> P w)) as H' by (intros w Hw; apply H; right; exact Hw).
  destruct (f v) eqn:E; [cbn [length]; apply tally_yes; [apply (H v (or_introl eq_refl)); exact E|apply IH; exact H']|].
  apply tally_no; [|apply IH; exact H']. intros Pv. apply (H v (or_introl eq_refl)) in Pv. congruence.
Qed.
Lemma pigeon (f : nat -> R -> bool) n c l : (forall v, In v l -> exists i, (i < n)%nat /\ f i v = true) ->
  (forall i, (i < n)%nat -> (length (filter (f i) l) <= c)%nat) -> (length l <= n * c)%nat.
Proof.
  intros H B. assert (length l <= list_sum (map (fun i => length (filter (f i) l)) (seq 0 n)))%nat as G.
  { clear B. induction l as [|v l IH]; [cbn; lia|]. specialize (IH (fun w Hw => H w (or_intror Hw))).
    destruct (H v (or_introl eq_refl)) as (i & Hi & Fi).
    assert (forall js, list_sum (map (fun i => length (filter (f i) (v :: l))) js) =
      (list_sum (map (fun i => length (filter (f i) l)) js) + length (filter (fun i => f i v) js))%nat) as E.
    { induction js as [|j js IHj]; [reflexivity|]. cbn [map]. change (list_sum (?p :: ?q)) with (p + list_sum q)%nat. rewrite IHj. cbn [filter]. destruct (f j v); cbn [length]; lia. }
    rewrite E. assert (In i (filter (fun i => f i v) (seq 0 n))) as I by (apply filter_In; split; [apply in_seq; lia|exact Fi]).
    destruct (filter (fun i => f i v) (seq 0 n)) as [|z zs]; [destruct I|]. cbn [length]. lia. }
  etransitivity; [exact G|]. clear G H.
  assert (forall js, (forall j, In j js -> (j < n)%nat) -> (list_sum (map (fun i => length (filter (f i) l)) js) <= length js * c)%nat) as K.
  { induction js as [|j js IHj]; intros Hj; [cbn; lia|]. cbn [map length]. change (list_sum (?p :: ?q)) with (p + list_sum q)%nat.
    specialize (IHj (fun k Hk => Hj k (or_intror Hk))). specialize (B j (Hj j (or_introl eq_refl))). lia. }
  specialize (K (seq 0 n)). rewrite seq_length in K. apply K. intros j Hj. apply in_seq in Hj. lia.
Qed.

(** C287: the mode is the left end of an interval of the histogram that holds as many values as any other, hence at least
    the average number. *)
Theorem C287_mode : forall x nbins lo hi m, (1 <= nbins)%nat -> lo < hi ->
  In lo x -> In hi x -> (forall v, In v x -> lo <= v <= hi) -> histogram_mode x nbins = Some m ->
  exists i k, (i < nbins)%nat /\ m = lo + INR i * ((hi - lo) / INR nbins) /\ tally (bin lo hi nbins i) x k
    /\ (length x <= nbins * k)%nat
    /\ forall j k', (j < nbins)%nat -> tally (bin lo hi nbins j) x k' -> (k' <= k)%nat.
Proof.
  intros x nb lo hi m Hn LH Ilo Ihi B H. destruct x as [|x0 x']; [destruct Ilo|]. set (x := x0 :: x') in *.
  assert (x <> []) as NE by discriminate. destruct (rmin_spec x NE) as [Mi Ml]. destruct (rmax_spec x NE) as [Xi Xl].
  assert (rmin_list x = lo) as El by (apply Rle_antisym; [apply Ml; exact Ilo|apply B; exact Mi]).
  assert (rmax_list x = hi) as Eh by (apply Rle_antisym; [apply B; exact Xi|apply Xl; exact Ihi]).
  assert (range x = (lo, hi)) as Er by (unfold range; rewrite El, Eh, (proj2 (zero_false (hi - lo))) by lra; reflexivity).
  assert (forall i, edge x nb i = lo + INR i * ((hi - lo) / INR nb)) as Ee by (intros i; unfold edge; rewrite Er; reflexivity).
  assert (0 < INR nb) as PN by (apply lt_0_INR; lia).
  assert (edge x nb nb = hi) as Ehi by (rewrite Ee; field; lra). assert (edge x nb 0 = lo) as Elo by (rewrite Ee; cbn [INR]; ring).
  assert (forall i v, inside x nb i v = true <-> bin lo hi nb i v) as Ib.
  { intros i v. unfold inside, bin. rewrite !Ee. unfold rltb, rgtb. cbv zeta.
    set (e0 := lo + INR i * _). set (e1 := lo + INR (S i) * _).
    assert (S i = nb -> e1 = hi) as Last by (intros <-; unfold e1; field; apply not_0_INR; discriminate).
    destruct (Rlt_dec v e0) as [a|a]; cbn [negb andb]; [split; [discriminate|intros [? _]; lra]|].
    destruct (Rlt_dec v e1) as [b|b]; cbn [orb]; [split; [intros _; split; [lra|left; lra]|reflexivity]|].
    destruct (Nat.eqb (S i) nb) eqn:En; cbn [andb].
    - apply Nat.eqb_eq in En. rewrite (Last En) in *. destruct (Rlt_dec hi v) as [c|c]; cbn [negb].
      + split; [discriminate|intros [_ [?|[_ ?]]]; lra].
      + split; [intros _; split; [lra|right; split; [exact En|lra]]|reflexivity].
    - apply Nat.eqb_neq in En. split; [discriminate|intros [_ [?|[? _]]]; [lra|congruence]]. }
  unfold histogram_mode, x in H. fold x in H. destruct (argbest rgtb (counts x nb)) as [i|] eqn:A; [|discriminate].
  apply argmax_spec in A. destruct A as (A1 & A2 & _). assert (length (counts x nb) = nb) as Lc by (unfold counts; rewrite map_length, seq_length; reflexivity).
  assert (forall j, (j < nb)%nat -> nth j (counts x nb) 0 = INR (length (filter (inside x nb j) x))) as Nc.
  { intros j Hj. unfold counts. set (g := fun i => INR (length (filter (inside x nb i) x))). rewrite (nth_indep _ 0 (g 0%nat)) by (rewrite map_length, seq_length; exact Hj).
    rewrite map_nth, seq_nth by exact Hj. reflexivity. }
  rewrite Lc in *. assert (forall j, (j < nb)%nat -> (length (filter (inside x nb j) x) <= length (filter (inside x nb i) x))%nat) as Max.
  { intros j Hj. apply INR_le. rewrite <- !Nc by assumption. apply A2. exact Hj. }
  exists i, (length (filter (inside x nb i) x)).
  split; [exact A1|]. split; [injection H as <-; apply Ee|]. split; [apply filter_tally; intros v _; apply Ib|]. split.
  - apply (pigeon (inside x nb)); [|exact Max]. intros v Hv. specialize (B v Hv).
    destruct (Rlt_dec v hi) as [c|c].
    + assert (forall k, (k <= nb)%nat -> v < edge x nb k -> exists j, (j < k)%nat /\ edge x nb j <= v < edge x nb (S j)) as F.
      { induction k as [|k IHk]; intros Hk Hv'; [rewrite Elo in Hv'; lra|].
        destruct (Rlt_dec v (edge x nb k)) as [q|q]; [destruct (IHk ltac:(lia) q) as (j & Hj & Ej); exists j; split; [lia|exact Ej]|].
        exists k. split; [lia|lra]. }
      destruct (F nb (le_n _)) as (j & Hj & Ej); [rewrite Ehi; exact c|]. exists j. split; [exact Hj|]. apply Ib. unfold bin. cbv zeta.
      rewrite !Ee in Ej. split; [lra|left; lra].
    + exists (nb - 1)%nat. split; [lia|]. apply Ib. unfold bin. cbv zeta. split; [|right; split; [lia|lra]].
      assert (INR (nb - 1) <= INR nb) as Q by (apply le_INR; lia).
      assert (INR (nb - 1) * ((hi - lo) / INR nb) <= INR nb * ((hi - lo) / INR nb)) as Q2.
      { apply Rmult_le_compat_r; [|exact Q]. apply Rmult_le_pos; [lra|apply Rlt_le, Rinv_0_lt_compat; exact PN]. }
      replace (INR nb * ((hi - lo) / INR nb)) with (hi - lo) in Q2 by (field; lra). lra.
  - intros j k' Hj T. rewrite (tally_filter _ (inside x nb j) x k' (fun v _ => Ib j v) T). apply Max. exact Hj.
Qed.

(** ** Detected period *)
(** C287 refuted: the differences have one time stamp, so every order of them is sorted by time: the period may be the one
    detected in any permutation of the differences. *)
Theorem C287_period_refuted : forall detect values seen p, Permutation (diff values) seen ->
  (detect seen = [] /\ p = 7%Z \/ exists first rest, detect seen = first :: rest /\ (forall q, In q (first :: rest) -> IZR p <= q)
     /\ (exists q, In q (first :: rest) /\ q < IZR p + 1)) ->
  seasonal_period detect values p.
Proof.
  intros detect values seen p HP H. exists (map (fun v => ((Z.of_nat (length values) - 1)%Z, v)) seen). split.
  - split; [apply Permutation_map; exact HP|]. clear. induction seen as [|v l IH]; [constructor|]. cbn [map]. constructor; [exact IH|].
    apply Forall_forall. intros y Hy. apply in_map_iff in Hy. destruct Hy as (u & <- & _). cbn. lia.
  - rewrite map_map. cbn [snd]. rewrite map_id. destruct H as [[-> ->]|(first & rest & -> & L & q & Hq & U)]; [reflexivity|].
    cbn [least_int]. set (m := fold_right Rmin first rest).
    assert ((forall w, In w (first :: rest) -> m <= w) /\ In m (first :: rest)) as [M1 M2].
    { unfold m. clear. induction rest as [|b rest [I1 I2]]; [split; [intros w [<-|[]]; cbn; lra|left; reflexivity]|]. cbn [fold_right]. split.
      - intros w [<-|[<-|Hw]]; [|apply Rmin_l|].
        + eapply Rle_trans; [apply Rmin_r|]. apply I1. left. reflexivity.
        + eapply Rle_trans; [apply Rmin_r|]. apply I1. right. exact Hw.
      - set (w := fold_right Rmin first rest) in *. clearbody w. unfold Rmin. destruct (Rle_dec b w); [right; left; reflexivity|].
        destruct I2 as [I2|I2]; [left; exact I2|right; right; exact I2]. }
    destruct (archimed m) as [U1 U2]. specialize (L m M2). specialize (M1 q Hq).
    assert (p < up m)%Z by (apply lt_IZR; lra). assert (up m < p + 2)%Z by (apply lt_IZR; rewrite plus_IZR; lra). lia.
Qed.

(** Series and components that meet the hypotheses. *)
Example C287_case :
  strength [1; 2; 3] [0; 1; 0] <> None /\ 0 <= covariance [1; 2; 3] [0; 1; 0] /\ ~ constant_series [0; 1; 0]
  /\ (exists v, In v [1; 0; 3] /\ v <> 0)
  /\ ~ constant_series [1; 2; 4]
  /\ straight [1; 3; 5] 1 2
  /\ peak [1; 4; 4] 3 = Some 1%nat /\ trough [4; 1; 1] 3 = Some 1%nat
  /\ (exists m, histogram_mode [0; 0; 1; 2] 2 = Some m)
  /\ hurst [0; 1; 0; 3; 1; 7; 2; 2] 6 <> None.
Proof.
  assert (forall l, mean l = sum l / INR (length l)) as MS by (intros l; unfold mean; rs; reflexivity).
  split.
  { unfold strength. rewrite (proj2 (zero_false _)); [discriminate|]. unfold var, mean, vadd. cbn [combine map fst snd rsum length INR]. lra. }
  split. { unfold covariance, mean. cbn [combine map fst snd rsum length INR]. lra. }
  split. { intros C. specialize (C 0%nat 1%nat ltac:(cbn; lia) ltac:(cbn; lia)). cbn in C. lra. }
  split. { exists 1. split; [left; reflexivity|lra]. }
  split. { intros C. specialize (C 0%nat 1%nat ltac:(cbn; lia) ltac:(cbn; lia)). cbn in C. lra. }
  split. { intros i Hi. destruct i as [|[|[|i]]]; cbn in *; try lra; lia. }
  split. { unfold peak. cbn [firstn argbest argbest_from]. unfold rgtb. destruct (Rlt_dec 1 4); [|lra]. destruct (Rlt_dec 4 4); [lra|reflexivity]. }
  split. { unfold trough. cbn [firstn argbest argbest_from]. unfold rltb. destruct (Rlt_dec 1 4); [|lra]. destruct (Rlt_dec 1 1); [lra|reflexivity]. }
  split. { unfold histogram_mode. cbn [counts seq map argbest option_map]. eexists. reflexivity. }
  unfold hurst. cbn [length Nat.sub Nat.min seq]. cbn [Nat.ltb Nat.leb orb].
  assert (existsb zero (map (lagged_std [0; 1; 0; 3; 1; 7; 2; 2]) [2; 3; 4; 5]%nat) = false) as ->; [|discriminate].
  assert (forall lag, (2 <= lag <= 5)%nat -> zero (lagged_std [0; 1; 0; 3; 1; 7; 2; 2] lag) = false) as Z.
  { intros lag Hl. apply zero_false. unfold lagged_std, std. intros E. apply sqrt_eq_0 in E; [|apply var_nonneg].
    apply var_zero in E.
    - specialize (E 0%nat 1%nat). destruct lag as [|[|[|[|[|[|lag]]]]]]; try lia; cbn in E; specialize (E ltac:(lia) ltac:(lia)); lra.
    - destruct lag as [|[|[|[|[|[|lag]]]]]]; try lia; discriminate. }
  cbn [map existsb]. rewrite !Z by lia. reflexivity.
Qed.

Print Assumptions C287_hurst_units.
Print Assumptions C287_hurst_power.
Print Assumptions C287_mode.
Print Assumptions C287_period_refuted.
