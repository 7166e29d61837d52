(** C285: types of anomalies. *)
From Coq Require Import Reals Lra.
From Coq Require Import List ZArith Bool Lia Sorted.
From Verif Require Import PostTypeModel.
Import ListNotations.
Open Scope R_scope.

(** ** Specification *)
(** the values of the rows earlier than a time, and of the others *)
Definition earlier (t : Z) (d : list (Z * R)) : list R := map snd (filter (fun r => (fst r <? t)%Z) d).
Definition later (t : Z) (d : list (Z * R)) : list R := map snd (filter (fun r => negb (fst r <? t)%Z) d).
Definition sum (l : list R) : R := fold_right Rplus 0 l.
(** squared distance of the values from a line over their positions; the line of least squares *)
Definition loss (y : list R) (s c : R) : R :=
  sum (map (fun i => (nth i y 0 - (c + s * INR i)) ^ 2) (seq 0 (length y))).
Definition line_fit (y : list R) (s c : R) : Prop := forall s' c', loss y s c <= loss y s' c'.
(** standard deviation of the values *)
Definition is_std (l : list R) (s : R) : Prop :=
  0 <= s /\ exists m, m * INR (length l) = sum l /\ s ^ 2 * INR (length l) = sum (map (fun x => (x - m) ^ 2) l).
(** strictly increasing times *)
Definition in_order (d : list (Z * R)) : Prop := StronglySorted Z.lt (map fst d).

(** ** Sums *)
Lemma rsum_sum l : rsum l = sum l.
Proof. induction l as [|x l IH]; [reflexivity|]. cbn [rsum]. rewrite IH. reflexivity. Qed.
Lemma isum_spec f l : forall k, isum f k l = sum (map (fun i => f (k + i)%nat (nth i l 0)) (seq 0 (length l))).
Proof.
  induction l as [|x l IH]; intros k; [reflexivity|]. cbn [isum length seq map nth].
  change (sum (?a :: ?b)) with (a + sum b). rewrite Nat.add_0_r, IH, <- seq_shift, map_map. f_equal. f_equal.
  apply map_ext. intros i. cbn [nth]. replace (k + S i)%nat with (S k + i)%nat by lia. reflexivity.
Qed.
Definition Sx (l : list R) := isum (fun i _ => INR i) 0 l.
Definition Sxx (l : list R) := isum (fun i _ => INR i ^ 2) 0 l.
Definition Sxy (l : list R) := isum (fun i x => INR i * x) 0 l.
Definition Syy (l : list R) := isum (fun _ x => x ^ 2) 0 l.
Lemma sx_closed l : forall k, isum (fun i _ => INR i) k l = INR (length l) * INR k + INR (length l) * (INR (length l) - 1) / 2.
Proof.
  induction l as [|x l IH]; intros k; [cbn; lra|]. cbn [isum length]. rewrite IH, !S_INR. field.
Qed.
Lemma sxx_closed l : forall k, isum (fun i _ => INR i ^ 2) k l
  = INR (length l) * INR k ^ 2 + INR k * INR (length l) * (INR (length l) - 1)
    + INR (length l) * (INR (length l) - 1) * (2 * INR (length l) - 1) / 6.
Proof.
  induction l as [|x l IH]; intros k; [cbn; lra|]. cbn [isum length]. rewrite IH, !S_INR. field.
Qed.
Lemma det_pos l : (2 <= length l)%nat -> 0 < count l * Sxx l - Sx l ^ 2.
Proof.
  intros H. unfold Sx, Sxx, count. rewrite sx_closed, sxx_closed. cbn [INR]. set (n := INR (length l)).
  assert (2 <= n) as N by (change 2 with (INR 2); apply le_INR; exact H).
  replace (n * (n * 0 ^ 2 + 0 * n * (n - 1) + n * (n - 1) * (2 * n - 1) / 6) - (n * 0 + n * (n - 1) / 2) ^ 2)
    with (n * n * (n - 1) * (n + 1) / 12) by field.
  apply Rdiv_lt_0_compat; [|lra]. repeat apply Rmult_lt_0_compat; lra.
Qed.
Lemma square_pos x : x <> 0 -> 0 < x ^ 2.
Proof. intros H. replace (x ^ 2) with (Rsqr x) by (unfold Rsqr; ring). apply Rsqr_pos_lt. exact H. Qed.
Lemma loss_isum y s c : loss y s c = isum (fun i x => (x - (c + s * INR i)) ^ 2) 0 y.
Proof. rewrite isum_spec. reflexivity. Qed.
Lemma isum_expand s c l : forall k, isum (fun i x => (x - (c + s * INR i)) ^ 2) k l
  = isum (fun _ x => x ^ 2) k l - 2 * c * rsum l - 2 * s * isum (fun i x => INR i * x) k l
    + count l * c ^ 2 + 2 * c * s * isum (fun i _ => INR i) k l + s ^ 2 * isum (fun i _ => INR i ^ 2) k l.
Proof.
  induction l as [|x l IH]; intros k; [unfold count; cbn; ring|]. cbn [isum rsum]. rewrite IH. unfold count. cbn [length].
  rewrite S_INR. ring.
Qed.
Lemma count_pos l : (1 <= length l)%nat -> 0 < count l.
Proof. intros H. unfold count. apply lt_0_INR. lia. Qed.
Lemma normal_equations y : (2 <= length y)%nat ->
  count y * intercept y + slope y * Sx y = rsum y /\ intercept y * Sx y + slope y * Sxx y = Sxy y.
Proof.
  intros H. pose proof (det_pos y H) as D. pose proof (count_pos y ltac:(lia)) as N.
  unfold intercept, slope. fold (Sx y) (Sxx y) (Sxy y). split; field; split; lra.
Qed.
Lemma loss_diff y s c : (2 <= length y)%nat ->
  count y * (loss y s c - loss y (slope y) (intercept y))
  = (count y * (c - intercept y) + (s - slope y) * Sx y) ^ 2 + (s - slope y) ^ 2 * (count y * Sxx y - Sx y ^ 2).
Proof.
  intros H. destruct (normal_equations y H) as [E1 E2]. rewrite !loss_isum, !isum_expand.
  fold (Sx y) (Sxx y) (Sxy y) (Syy y). rewrite <- E1, <- E2. ring.
Qed.
(** the least-squares line exists, is the one computed, and is the only one *)
Lemma fit_exists y : (2 <= length y)%nat -> line_fit y (slope y) (intercept y).
Proof.
  intros H s c. pose proof (loss_diff y s c H) as D. pose proof (det_pos y H) as P. pose proof (count_pos y ltac:(lia)) as N.
  assert (0 <= count y * (loss y s c - loss y (slope y) (intercept y))) as Q.
  { rewrite D. apply Rplus_le_le_0_compat; [apply pow2_ge_0|]. apply Rmult_le_pos; [apply pow2_ge_0|lra]. }
  apply Rmult_le_reg_l with (count y); [exact N|]. lra.
Qed.
Lemma fit_unique y s c : (2 <= length y)%nat -> line_fit y s c -> s = slope y /\ c = intercept y.
Proof.
  intros H F. pose proof (loss_diff y s c H) as D. pose proof (det_pos y H) as P. pose proof (count_pos y ltac:(lia)) as N.
  specialize (F (slope y) (intercept y)).
  assert (count y * (loss y s c - loss y (slope y) (intercept y)) <= 0) as L.
  { rewrite <- (Rmult_0_r (count y)). apply Rmult_le_compat_l; lra. }
  set (u := count y * (c - intercept y) + (s - slope y) * Sx y) in *. set (v := s - slope y) in *.
  pose proof (pow2_ge_0 u) as U. pose proof (pow2_ge_0 v) as V.
  assert (0 <= v ^ 2 * (count y * Sxx y - Sx y ^ 2)) as W by (apply Rmult_le_pos; lra).
  assert (v = 0) as V0.
  { destruct (Req_dec v 0) as [E|E]; [exact E|]. exfalso. assert (0 < v ^ 2) by (apply square_pos; exact E).
    assert (0 < v ^ 2 * (count y * Sxx y - Sx y ^ 2)) by (apply Rmult_lt_0_compat; lra). lra. }
  assert (u = 0) as U0.
  { destruct (Req_dec u 0) as [E|E]; [exact E|]. exfalso. assert (0 < u ^ 2) by (apply square_pos; exact E). lra. }
  split; [unfold v in V0; lra|]. unfold u in U0. rewrite V0, Rmult_0_l, Rplus_0_r in U0.
  apply Rmult_integral in U0. destruct U0 as [U0|U0]; lra.
Qed.

(** ** Rows *)
Lemma removelast_map {A B} (f : A -> B) l : removelast (map f l) = map f (removelast l).
Proof. induction l as [|x [|y l] IH]; [reflexivity|reflexivity|]. cbn [map removelast] in *. rewrite IH. reflexivity. Qed.
Lemma removelast_snoc {A} (l : list A) x : removelast (l ++ [x]) = l.
Proof. apply removelast_last. Qed.
Lemma from_later t d : from t d = later t d.
Proof. unfold from, later. f_equal. apply filter_ext. intros r. rewrite Z.leb_antisym. reflexivity. Qed.
Lemma filter_split e d : in_order d -> In e (map fst d) ->
  exists v, filter (fun r => (fst r <=? e)%Z) d = filter (fun r => (fst r <? e)%Z) d ++ [(e, v)].
Proof.
  unfold in_order. induction d as [|[t v] d IH]; intros HS Hin; [destruct Hin|]. cbn [map fst] in HS, Hin.
  apply StronglySorted_inv in HS. destruct HS as [HS HF]. cbn [filter fst].
  destruct (Z.eq_dec t e) as [->|Hte].
  - rewrite Z.leb_refl, Z.ltb_irrefl. exists v.
    assert (forall r, In r d -> (e < fst r)%Z) as G by (intros r Hr; rewrite Forall_forall in HF; apply HF, in_map; exact Hr).
    assert (filter (fun r => (fst r <=? e)%Z) d = [] /\ filter (fun r => (fst r <? e)%Z) d = []) as [-> ->]; [|reflexivity].
    clear - G. induction d as [|r d IH]; [split; reflexivity|]. cbn [filter].
    pose proof (G r (or_introl eq_refl)). destruct (Z.leb_spec (fst r) e), (Z.ltb_spec (fst r) e); try lia.
    apply IH. intros x Hx. apply G. right. exact Hx.
  - destruct Hin as [Hin|Hin]; [contradiction|]. destruct (IH HS Hin) as [w E].
    assert (t < e)%Z as L by (rewrite Forall_forall in HF; apply HF; exact Hin).
    destruct (Z.leb_spec t e), (Z.ltb_spec t e); try lia. exists w. rewrite E. reflexivity.
Qed.
Lemma upto_earlier t d : in_order d -> In t (map fst d) -> upto t d = earlier t d.
Proof.
  intros HS Hin. destruct (filter_split t d HS Hin) as [v E]. unfold upto, earlier.
  rewrite E, map_app. cbn [map snd]. apply removelast_snoc.
Qed.
Lemma in_order_filter (p : Z * R -> bool) d : in_order d -> in_order (filter p d).
Proof.
  unfold in_order. induction d as [|r d IH]; intros HS; [exact HS|]. cbn [map] in HS. apply StronglySorted_inv in HS.
  destruct HS as [HS HF]. cbn [filter]. destruct (p r); [|exact (IH HS)]. cbn [map]. constructor; [exact (IH HS)|].
  rewrite Forall_forall in *. intros x Hx. apply HF. apply in_map_iff in Hx. destruct Hx as [q [<- Hq]].
  apply in_map. apply filter_In in Hq. tauto.
Qed.
Lemma filter_filter {A} (p q : A -> bool) l : filter p (filter q l) = filter (fun x => q x && p x) l.
Proof.
  induction l as [|x l IH]; [reflexivity|]. cbn [filter]. destruct (q x); cbn [andb filter]; rewrite IH; reflexivity.
Qed.

Lemma rlt_true x y : rlt x y = true <-> x < y.
Proof. unfold rlt. destruct (Rlt_dec x y); split; auto; discriminate. Qed.
Lemma rle_true x y : rle x y = true <-> x <= y.
Proof. unfold rle. destruct (Rle_dec x y); split; auto; discriminate. Qed.
Lemma short_false a b : short a b = false <-> (2 <= length a)%nat /\ (2 <= length b)%nat.
Proof. unfold short. rewrite orb_false_iff, !Nat.leb_gt. lia. Qed.

(** ** Theorems *)
(** C285: an anomaly is individual exactly when it has fewer than five rows, the end not counted. *)
Theorem C285_individual : forall d s e, in_order d -> In s (map fst d) -> In e (map fst d) -> (s < e)%Z ->
  (individual d (s, e) = true
   <-> (length (filter (fun r => (s <=? fst r)%Z && (fst r <? e)%Z) d) < 5)%nat).
Proof.
  intros d s e HS Hs He Hse. unfold individual. cbn [fst snd].
  assert (In e (map fst (filter (fun r => (s <=? fst r)%Z) d))) as Hin.
  { apply in_map_iff in He. destruct He as [r [<- Hr]]. apply in_map. apply filter_In. split; [exact Hr|]. apply Z.leb_le. lia. }
  destruct (filter_split e _ (in_order_filter _ d HS) Hin) as [v E].
  rewrite !filter_filter in E. rewrite E, map_app. cbn [map snd]. rewrite removelast_snoc, map_length.
  apply Nat.ltb_lt.
Qed.

(** C285: the trend changes exactly when the least-squares lines of the values before the start and from the end on
    have slopes of opposite sign. *)
Theorem C285_trend : forall d s e s0 c0 s1 c1, in_order d -> In s (map fst d) ->
  line_fit (earlier s d) s0 c0 -> line_fit (later e d) s1 c1 ->
  (trend_change d (s, e) = true
   <-> (2 <= length (earlier s d))%nat /\ (2 <= length (later e d))%nat /\ (s0 < 0 < s1 \/ s1 < 0 < s0)).
Proof.
  intros d s e s0 c0 s1 c1 HS Hs F0 F1. unfold trend_change. cbn [fst snd].
  rewrite (upto_earlier s d HS Hs), from_later.
  destruct (Nat.leb_spec (length (earlier s d)) 1) as [L0|L0]; [split; [discriminate|lia]|].
  destruct (Nat.leb_spec (length (later e d)) 1) as [L1|L1]; [split; [discriminate|lia]|].
  destruct (fit_unique _ _ _ L0 F0) as [-> _]. destruct (fit_unique _ _ _ L1 F1) as [-> _].
  rewrite rlt_true. set (x := slope (earlier s d)). set (y := slope (later e d)).
  split.
  - intros P. split; [lia|]. split; [lia|].
    destruct (Rlt_dec x 0) as [X|X].
    + left. split; [exact X|]. destruct (Rlt_dec 0 y) as [Y|Y]; [exact Y|]. exfalso.
      assert (0 <= (- x) * (- y)) by (apply Rmult_le_pos; lra). lra.
    + right. assert (x <> 0) as NX by (intros E; rewrite E, Rmult_0_l in P; lra).
      split; [|lra]. destruct (Rlt_dec y 0) as [Y|Y]; [exact Y|]. exfalso.
      assert (0 <= x * y) by (apply Rmult_le_pos; lra). lra.
  - intros (_ & _ & [[X Y]|[Y X]]).
    + assert (0 < (- x) * y) by (apply Rmult_lt_0_compat; lra). lra.
    + assert (0 < x * (- y)) by (apply Rmult_lt_0_compat; lra). lra.
Qed.

(** Such lines exist, and for two values or more there is only one. *)
Theorem C285_fit : forall y, (2 <= length y)%nat ->
  exists s c, line_fit y s c /\ forall s' c', line_fit y s' c' -> s' = s /\ c' = c.
Proof.
  intros y H. exists (slope y), (intercept y). split; [exact (fit_exists y H)|].
  intros s' c' F. exact (fit_unique y s' c' H F).
Qed.

Lemma std_spec l : (1 <= length l)%nat -> is_std l (std l).
Proof.
  intros H. pose proof (count_pos l H) as N. unfold is_std, std. split; [apply sqrt_pos|].
  exists (mean l). split; [unfold mean; rewrite rsum_sum; unfold count in *; field; lra|].
  assert (0 <= rsum (map (fun x => (x - mean l) ^ 2) l)) as P.
  { generalize (mean l). intros m. clear. induction l as [|x l IH]; [cbn; lra|]. cbn [map rsum].
    apply Rplus_le_le_0_compat; [apply pow2_ge_0|exact IH]. }
  rewrite <- rsum_sum. rewrite pow2_sqrt.
  - unfold mean at 1. unfold count in *. rewrite map_length. field. lra.
  - unfold mean at 1. unfold count in *. rewrite map_length. apply Rmult_le_pos; [exact P|].
    left. apply Rinv_0_lt_compat. exact N.
Qed.
Lemma std_unique l s s' : is_std l s -> is_std l s' -> (1 <= length l)%nat -> s = s'.
Proof.
  intros (P & m & M & E) (P' & m' & M' & E') H. pose proof (count_pos l H) as N. unfold count in N.
  assert (m = m') as <-.
  { apply Rmult_eq_reg_r with (INR (length l)); [congruence|lra]. }
  assert (s ^ 2 = s' ^ 2) as Q.
  { apply Rmult_eq_reg_r with (INR (length l)); [congruence|lra]. }
  apply Rsqr_inj; auto. unfold Rsqr. lra.
Qed.

(** C285: the volatility changes exactly when, at the start or at the end, the standard deviations of the values before
    and from then on differ by the factor. *)
Theorem C285_volatility : forall coef d s e, in_order d -> In s (map fst d) -> In e (map fst d) ->
  (volatility_change coef d (s, e) = true
   <-> exists t sa sb, (t = s \/ t = e) /\ (2 <= length (earlier t d))%nat /\ (2 <= length (later t d))%nat
       /\ is_std (earlier t d) sa /\ is_std (later t d) sb /\ (coef * sb <= sa \/ sa <= sb / coef)).
Proof.
  intros coef d s e HS Hs He.
  assert (forall t, In t (map fst d) -> (volatile coef d t = true <-> exists sa sb,
    (2 <= length (earlier t d))%nat /\ (2 <= length (later t d))%nat
    /\ is_std (earlier t d) sa /\ is_std (later t d) sb /\ (coef * sb <= sa \/ sa <= sb / coef))) as One.
  { intros t Ht. unfold volatile. rewrite (upto_earlier t d HS Ht), from_later.
    destruct (short (earlier t d) (later t d)) eqn:Sh.
    - split; [discriminate|]. intros (sa & sb & A & B & _). rewrite (proj2 (short_false _ _) (conj A B)) in Sh. discriminate.
    - apply short_false in Sh. destruct Sh as [A B]. rewrite orb_true_iff, !rle_true. split.
      + intros Hc. exists (std (earlier t d)), (std (later t d)).
        split; [exact A|]. split; [exact B|]. split; [apply std_spec; lia|]. split; [apply std_spec; lia|exact Hc].
      + intros (sa & sb & _ & _ & Ia & Ib & Hc).
        assert (1 <= length (earlier t d))%nat as A1 by lia. assert (1 <= length (later t d))%nat as B1 by lia.
        rewrite <- (std_unique _ _ _ Ia (std_spec _ A1) A1), <- (std_unique _ _ _ Ib (std_spec _ B1) B1). exact Hc. }
  unfold volatility_change. cbn [fst snd]. split.
  - destruct (volatile coef d e) eqn:V.
    + intros _. apply (One e He) in V. destruct V as (sa & sb & V). exists e, sa, sb. tauto.
    + intros V'. apply (One s Hs) in V'. destruct V' as (sa & sb & V'). exists s, sa, sb. tauto.
  - intros (t & sa & sb & [-> | ->] & V).
    + assert (volatile coef d s = true) as -> by (apply (One s Hs); exists sa, sb; exact V). destruct (volatile coef d e); reflexivity.
    + assert (volatile coef d e = true) as -> by (apply (One e He); exists sa, sb; exact V). reflexivity.
Qed.

(** C285: there is a level shift exactly when, at the start or at the end, the t test tells the values before from those
    from then on and the intercept of the line before is not within the factor of the intercept of all values. *)
Theorem C285_level : forall differ coef d s e, in_order d -> In s (map fst d) -> In e (map fst d) ->
  (level_shift differ coef d (s, e) = true
   <-> exists t s1 c1 s2 c2, (t = s \/ t = e) /\ (2 <= length (earlier t d))%nat /\ (2 <= length (later t d))%nat
       /\ differ (earlier t d) (later t d) = true
       /\ line_fit (earlier t d) s1 c1 /\ line_fit (earlier t d ++ later t d) s2 c2
       /\ ~ (c2 / coef < c1 < coef * c2)).
Proof.
  intros differ coef d s e HS Hs He.
  assert (forall t, In t (map fst d) -> (shifted differ coef d t = true <-> exists s1 c1 s2 c2,
    (2 <= length (earlier t d))%nat /\ (2 <= length (later t d))%nat
    /\ differ (earlier t d) (later t d) = true
    /\ line_fit (earlier t d) s1 c1 /\ line_fit (earlier t d ++ later t d) s2 c2
    /\ ~ (c2 / coef < c1 < coef * c2))) as One.
  { intros t Ht. unfold shifted. rewrite (upto_earlier t d HS Ht), from_later.
    destruct (short (earlier t d) (later t d)) eqn:Sh.
    - split; [discriminate|]. intros (s1 & c1 & s2 & c2 & A & B & _). rewrite (proj2 (short_false _ _) (conj A B)) in Sh. discriminate.
    - apply short_false in Sh. destruct Sh as [A B].
      assert (2 <= length (earlier t d ++ later t d))%nat as AB by (rewrite app_length; lia).
      destruct (differ (earlier t d) (later t d)).
      + rewrite negb_true_iff, <- not_true_iff_false, andb_true_iff, !rlt_true. split.
        * intros Hc. exists (slope (earlier t d)), (intercept (earlier t d)), (slope (earlier t d ++ later t d)), (intercept (earlier t d ++ later t d)).
          split; [exact A|]. split; [exact B|]. split; [reflexivity|]. split; [apply fit_exists; exact A|].
          split; [apply fit_exists; exact AB|]. tauto.
        * intros (s1 & c1 & s2 & c2 & _ & _ & _ & F1 & F2 & Hc).
          destruct (fit_unique _ _ _ A F1) as [_ <-]. destruct (fit_unique _ _ _ AB F2) as [_ <-]. tauto.
      + split; [discriminate|]. intros (s1 & c1 & s2 & c2 & _ & _ & X & _). discriminate. }
  unfold level_shift. cbn [fst snd]. split.
  - destruct (shifted differ coef d e) eqn:V.
    + intros _. apply (One e He) in V. destruct V as (s1 & c1 & s2 & c2 & V). exists e, s1, c1, s2, c2. tauto.
    + intros V'. apply (One s Hs) in V'. destruct V' as (s1 & c1 & s2 & c2 & V'). exists s, s1, c1, s2, c2. tauto.
  - intros (t & s1 & c1 & s2 & c2 & [-> | ->] & V).
    + assert (shifted differ coef d s = true) as -> by (apply (One s Hs); exists s1, c1, s2, c2; exact V). destruct (shifted differ coef d e); reflexivity.
    + assert (shifted differ coef d e = true) as -> by (apply (One e He); exists s1, c1, s2, c2; exact V). reflexivity.
Qed.

(** ** Units *)
Definition affine (a b : R) (d : list (Z * R)) : list (Z * R) := map (fun r => (fst r, a * snd r + b)) d.
Definition lin (a b : R) (l : list R) : list R := map (fun x => a * x + b) l.
Lemma filter_affine (p : Z -> bool) a b d : filter (fun r => p (fst r)) (affine a b d) = affine a b (filter (fun r => p (fst r)) d).
Proof. induction d as [|r d IH]; [reflexivity|]. cbn [affine map filter fst]. fold (affine a b d). rewrite IH. destruct (p (fst r)); reflexivity. Qed.
Lemma snd_affine a b d : map snd (affine a b d) = lin a b (map snd d).
Proof. unfold affine, lin. rewrite !map_map. reflexivity. Qed.
Lemma upto_affine a b t d : upto t (affine a b d) = lin a b (upto t d).
Proof. unfold upto. rewrite (filter_affine (fun z => (z <=? t)%Z)), snd_affine. unfold lin. apply removelast_map. Qed.
Lemma from_affine a b t d : from t (affine a b d) = lin a b (from t d).
Proof. unfold from. rewrite (filter_affine (fun z => (t <=? z)%Z)), snd_affine. reflexivity. Qed.
Lemma lin_length a b l : length (lin a b l) = length l.
Proof. apply map_length. Qed.
Lemma rsum_lin a b l : rsum (lin a b l) = a * rsum l + b * count l.
Proof. unfold count. induction l as [|x l IH]; [cbn; ring|]. cbn [lin map rsum length]. fold (lin a b l). rewrite IH, S_INR. ring. Qed.
Lemma sxy_lin a b l : forall k, isum (fun i x => INR i * x) k (lin a b l) = a * isum (fun i x => INR i * x) k l + b * isum (fun i _ => INR i) k l.
Proof. induction l as [|x l IH]; intros k; [cbn; ring|]. cbn [lin map isum]. fold (lin a b l). rewrite IH. ring. Qed.
Lemma isum_index f a b l : forall k, isum (fun i _ => f i) k (lin a b l) = isum (fun i _ => f i) k l.
Proof. induction l as [|x l IH]; intros k; [reflexivity|]. cbn [lin map isum]. fold (lin a b l). rewrite IH. reflexivity. Qed.
Lemma slope_lin a b y : (2 <= length y)%nat -> slope (lin a b y) = a * slope y.
Proof.
  intros H. pose proof (det_pos y H) as D. unfold slope, count. rewrite lin_length, rsum_lin, sxy_lin.
  rewrite (isum_index INR), (isum_index (fun i => INR i ^ 2)). fold (count y) (Sx y) (Sxx y) (Sxy y). field. lra.
Qed.
Lemma intercept_lin a b y : (2 <= length y)%nat -> intercept (lin a b y) = a * intercept y + b.
Proof.
  intros H. pose proof (count_pos y ltac:(lia)) as N. unfold intercept. rewrite slope_lin by exact H.
  unfold count. rewrite lin_length, rsum_lin, (isum_index INR). fold (count y) (Sx y). field. lra.
Qed.
Lemma mean_lin a b l : (1 <= length l)%nat -> mean (lin a b l) = a * mean l + b.
Proof. intros H. pose proof (count_pos l H) as N. unfold mean, count. rewrite lin_length, rsum_lin. fold (count l). field. lra. Qed.
Lemma std_lin a b l : (1 <= length l)%nat -> std (lin a b l) = Rabs a * std l.
Proof.
  intros H. pose proof (count_pos l H) as N. unfold std. rewrite mean_lin by exact H.
  replace (mean (map (fun x => (x - (a * mean l + b)) ^ 2) (lin a b l))) with (a ^ 2 * mean (map (fun x => (x - mean l) ^ 2) l)).
  - rewrite <- Rsqr_pow2. rewrite sqrt_mult_alt by apply Rle_0_sqr. rewrite sqrt_Rsqr_abs. reflexivity.
  - unfold mean at 1 3. unfold count. rewrite !map_length, lin_length.
    assert (rsum (map (fun x => (x - (a * mean l + b)) ^ 2) (lin a b l)) = a ^ 2 * rsum (map (fun x => (x - mean l) ^ 2) l)) as ->.
    { generalize (mean l). intros m. clear. induction l as [|x l IH]; [cbn; ring|].
      cbn [lin map rsum]. fold (lin a b l). rewrite IH. ring. }
    unfold Rdiv. ring.
Qed.
Lemma lin_app a b l m : lin a b (l ++ m) = lin a b l ++ lin a b m.
Proof. apply map_app. Qed.

(** C285: three of the four types do not depend on the unit and the origin of the values. *)
Theorem C285_units_partial : forall a b coef d iv, a <> 0 ->
  individual (affine a b d) iv = individual d iv
  /\ trend_change (affine a b d) iv = trend_change d iv
  /\ volatility_change coef (affine a b d) iv = volatility_change coef d iv.
Proof.
  intros a b coef d iv Ha. split; [|split].
  - unfold individual. rewrite (filter_affine (fun z => (fst iv <=? z)%Z && (z <=? snd iv)%Z)), snd_affine.
    unfold lin. rewrite removelast_map, map_length. reflexivity.
  - unfold trend_change. rewrite upto_affine, from_affine, !lin_length.
    destruct (Nat.leb_spec (length (upto (fst iv) d)) 1) as [L0|L0]; [reflexivity|].
    destruct (Nat.leb_spec (length (from (snd iv) d)) 1) as [L1|L1]; [reflexivity|].
    rewrite !slope_lin by lia. apply eq_true_iff_eq. rewrite !rlt_true.
    set (x := slope _). set (y := slope _). pose proof (square_pos a Ha) as A.
    replace (a * x * (a * y)) with (a ^ 2 * (x * y)) by ring. split; intros P.
    + apply Rmult_lt_reg_l with (a ^ 2); lra.
    + rewrite <- (Rmult_0_r (a ^ 2)). apply Rmult_lt_compat_l; lra.
  - assert (forall t, volatile coef (affine a b d) t = volatile coef d t) as V.
    { intros t. unfold volatile. rewrite upto_affine, from_affine. unfold short. rewrite !lin_length.
      destruct (Nat.leb_spec (length (upto t d)) 1) as [L0|L0]; [reflexivity|].
      destruct (Nat.leb_spec (length (from t d)) 1) as [L1|L1]; [reflexivity|]. cbn [orb].
      rewrite !std_lin by lia. pose proof (Rabs_pos_lt a Ha) as A.
      f_equal; apply eq_true_iff_eq; rewrite !rle_true.
      - replace (coef * (Rabs a * std (from t d))) with (Rabs a * (coef * std (from t d))) by ring. split; intros P.
        + apply Rmult_le_reg_l with (Rabs a); assumption.
        + apply Rmult_le_compat_l; lra.
      - replace (Rabs a * std (from t d) / coef) with (Rabs a * (std (from t d) / coef)) by (unfold Rdiv; ring). split; intros P.
        + apply Rmult_le_reg_l with (Rabs a); assumption.
        + apply Rmult_le_compat_l; lra. }
    unfold volatility_change. rewrite !V. reflexivity.
Qed.

(** C285 refuted: whether there is a level shift depends on the origin: whatever the values are, after adding a large
    enough constant no anomaly is a level shift. *)
Theorem C285_offset_refuted : forall differ coef d iv, 1 < coef ->
  exists c0, forall c, c0 < c -> level_shift differ coef (affine 1 c d) iv = false.
Proof.
  intros differ coef d iv Hc.
  assert (forall t, exists c0, forall c, c0 < c -> shifted differ coef (affine 1 c d) t = false) as One.
  { intros t. set (a := upto t d). set (b := from t d). set (z1 := intercept a). set (z2 := intercept (a ++ b)).
    exists (Rmax ((z1 - coef * z2) / (coef - 1)) ((z2 - coef * z1) / (coef - 1))). intros c C.
    assert ((z1 - coef * z2) / (coef - 1) < c) as C1 by (eapply Rle_lt_trans; [apply Rmax_l|exact C]).
    assert ((z2 - coef * z1) / (coef - 1) < c) as C2 by (eapply Rle_lt_trans; [apply Rmax_r|exact C]).
    assert (forall x, x / (coef - 1) < c -> x < c * (coef - 1)) as M.
    { intros x Hx. replace x with (x / (coef - 1) * (coef - 1)) by (field; lra). apply Rmult_lt_compat_r; lra. }
    apply M in C1, C2. unfold shifted. rewrite upto_affine, from_affine. fold a b.
    unfold short. rewrite !lin_length. destruct (Nat.leb_spec (length a) 1) as [L0|L0]; [reflexivity|].
    destruct (Nat.leb_spec (length b) 1) as [L1|L1]; [reflexivity|]. cbn [orb].
    destruct (differ (lin 1 c a) (lin 1 c b)); [|reflexivity].
    rewrite <- lin_app, !intercept_lin by (rewrite ?app_length; lia). fold z1 z2.
    apply negb_false_iff. apply andb_true_intro. split; apply rlt_true.
    - lra.
    - apply Rmult_lt_reg_r with coef; [lra|]. unfold Rdiv. rewrite Rmult_assoc, Rinv_l by lra. lra. }
  destruct (One (fst iv)) as [c1 H1]. destruct (One (snd iv)) as [c2 H2]. exists (Rmax c1 c2). intros c C.
  unfold level_shift. rewrite H2 by (eapply Rle_lt_trans; [apply Rmax_r|exact C]).
  apply H1. eapply Rle_lt_trans; [apply Rmax_l|exact C].
Qed.

(** C285 refuted: the factor has no effect when the intercept of all values is negative: then every difference the
    t test tells is a level shift. *)
Theorem C285_negative_refuted : forall differ coef d s e t s2 c2, 1 < coef ->
  in_order d -> In s (map fst d) -> In e (map fst d) -> (t = s \/ t = e) ->
  (2 <= length (earlier t d))%nat -> (2 <= length (later t d))%nat ->
  line_fit (earlier t d ++ later t d) s2 c2 -> c2 < 0 -> differ (earlier t d) (later t d) = true ->
  level_shift differ coef d (s, e) = true.
Proof.
  intros differ coef d s e t s2 c2 Hc HS Hs He Ht A B F C D. apply C285_level; auto.
  exists t, (slope (earlier t d)), (intercept (earlier t d)), s2, c2.
  repeat (split; [first [assumption|apply fit_exists; assumption]|]).
  intros [X Y]. assert (c2 / coef < coef * c2) as Z by lra.
  assert (c2 / coef * coef < coef * c2 * coef) as W by (apply Rmult_lt_compat_r; lra).
  unfold Rdiv in W. rewrite Rmult_assoc, Rinv_l in W by lra.
  assert (0 < (- c2) * (coef * coef - 1)) by (apply Rmult_lt_0_compat; [lra|]; assert (1 * 1 < coef * coef) by (apply Rmult_gt_0_lt_compat; lra); lra).
  lra.
Qed.

(** C285 refuted: two flat parts count as a change of volatility. *)
Lemma std_flat v l : (forall x, In x l -> x = v) -> (1 <= length l)%nat -> std l = 0.
Proof.
  intros H L. apply (std_unique l); [apply std_spec; exact L| |exact L]. split; [lra|]. exists v.
  assert (sum l = v * INR (length l) /\ sum (map (fun x => (x - v) ^ 2) l) = 0) as [E1 E2].
  { clear L. induction l as [|x l IH]; [cbn; lra|]. destruct IH as [A B]; [intros y Hy; apply H; right; exact Hy|].
    cbn [length map]. change (sum (?p :: ?q)) with (p + sum q). rewrite A, B, S_INR, (H x (or_introl eq_refl)). split; ring. }
  rewrite E1, E2. split; ring.
Qed.
Theorem C285_flat_refuted : forall coef d s e v w, in_order d -> In s (map fst d) -> In e (map fst d) ->
  (2 <= length (earlier e d))%nat -> (2 <= length (later e d))%nat ->
  (forall x, In x (earlier e d) -> x = v) -> (forall x, In x (later e d) -> x = w) ->
  volatility_change coef d (s, e) = true.
Proof.
  intros coef d s e v w HS Hs He A B FA FB. apply C285_volatility; auto. exists e, 0, 0.
  split; [right; reflexivity|]. split; [exact A|]. split; [exact B|].
  split; [rewrite <- (std_flat v _ FA) by lia; apply std_spec; lia|].
  split; [rewrite <- (std_flat w _ FB) by lia; apply std_spec; lia|]. left. lra.
Qed.

(** C285 refuted: if the end of an anomaly is not the time of a row of the data (scores on another grid), the last row
    before it belongs to no part. *)
Theorem C285_grid_refuted : forall t d, ~ In t (map fst d) -> earlier t d <> [] ->
  S (length (upto t d) + length (from t d)) = length d.
Proof.
  intros t d N E.
  assert (upto t d = removelast (earlier t d)) as ->.
  { unfold upto, earlier. f_equal. f_equal. apply filter_ext_in. intros r Hr.
    assert (fst r <> t) by (intros <-; apply N, in_map; exact Hr).
    destruct (Z.leb_spec (fst r) t), (Z.ltb_spec (fst r) t); lia || reflexivity. }
  rewrite from_later.
  assert (length (earlier t d) + length (later t d) = length d)%nat as L.
  { unfold earlier, later. rewrite !map_length. clear. induction d as [|r d IH]; [reflexivity|].
    cbn [filter]. destruct (fst r <? t)%Z; cbn [negb length]; lia. }
  assert (length (removelast (earlier t d)) = pred (length (earlier t d))) as ->.
  { destruct (exists_last E) as (l & x & ->). rewrite removelast_snoc, app_length. cbn. lia. }
  destruct (earlier t d); [congruence|]. cbn [length pred] in *. lia.
Qed.

(** One result per anomaly, in order. *)
Theorem C285_all : forall differ lcoef vcoef d ivs,
  length (anomaly_types differ lcoef vcoef d ivs) = length ivs
  /\ forall i iv, nth_error ivs i = Some iv -> exists ty, nth_error (anomaly_types differ lcoef vcoef d ivs) i = Some ty
     /\ is_level ty = level_shift differ lcoef d iv /\ is_individual ty = individual d iv
     /\ is_trend ty = trend_change d iv /\ is_volatility ty = volatility_change vcoef d iv.
Proof.
  intros differ lcoef vcoef d ivs. unfold anomaly_types. split; [apply map_length|].
  intros i iv H. rewrite nth_error_map, H. eexists. repeat split.
Qed.

(** Up and down with a peak: an anomaly from 20 to 30 in a series that rises before and falls after. *)
Definition peak : list (Z * R) := [(0%Z, 0); (10%Z, 1); (20%Z, 9); (30%Z, 3); (40%Z, 1)].
Example C285_case : in_order peak /\ earlier 20 peak = [0; 1] /\ later 30 peak = [3; 1]
  /\ line_fit (earlier 20 peak) 1 0 /\ line_fit (later 30 peak) (-2) 3
  /\ trend_change peak (20%Z, 30%Z) = true /\ individual peak (20%Z, 30%Z) = true.
Proof.
  assert (in_order peak) as O by (unfold in_order, peak; cbn; repeat constructor).
  assert (line_fit (earlier 20 peak) 1 0) as F1.
  { intros s c. unfold loss. cbn -[pow]. replace ((0 - (0 + 1 * 0)) ^ 2 + ((1 - (0 + 1 * 1)) ^ 2 + 0)) with 0 by ring.
    pose proof (pow2_ge_0 (0 - (c + s * 0))). pose proof (pow2_ge_0 (1 - (c + s * 1))). lra. }
  assert (line_fit (later 30 peak) (-2) 3) as F2.
  { intros s c. unfold loss. cbn -[pow]. replace ((3 - (3 + -2 * 0)) ^ 2 + ((1 - (3 + -2 * 1)) ^ 2 + 0)) with 0 by ring.
    pose proof (pow2_ge_0 (3 - (c + s * 0))). pose proof (pow2_ge_0 (1 - (c + s * 1))). lra. }
  split; [exact O|]. split; [reflexivity|]. split; [reflexivity|]. split; [exact F1|]. split; [exact F2|].
  split; [|reflexivity].
  apply (C285_trend peak 20 30 1 0 (-2) 3 O); [cbn; tauto|exact F1|exact F2|]. cbn. split; [lia|]. split; [lia|]. right. lra.
Qed.

Print Assumptions C285_individual.
Print Assumptions C285_trend.
Print Assumptions C285_fit.
Print Assumptions C285_volatility.
Print Assumptions C285_level.
Print Assumptions C285_units_partial.
Print Assumptions C285_offset_refuted.
Print Assumptions C285_negative_refuted.
Print Assumptions C285_flat_refuted.
Print Assumptions C285_grid_refuted.
Print Assumptions C285_all.
