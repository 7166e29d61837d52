(** Theorems about the temporal hierarchical model: C50-C52, C90-C92. *)
From Verif Require Import Common MetricsModel MedianSpec MedianProofs ThmModel ThmSpec ThmProofs GaussProofs.
From Coq Require Import Lqa Lia Sorted.
Open Scope nat_scope.

(** ** C51 summation matrix *)
Theorem C51_lcm : forall ks, (forall k, In k ks -> 1 <= k) ->
  1 <= get_m ks
  /\ (forall k, In k ks -> Nat.divide k (get_m ks))
  /\ forall x, (forall k, In k ks -> Nat.divide k x) -> Nat.divide (get_m ks) x.
Proof.
  intros ks H. destruct (get_m_fold ks 1 (le_n 1) H) as (A & _ & C & D). split; [exact A|]. split; [exact C|].
  intros x Hx. apply D; [exists x; lia|exact Hx].
Qed.
Lemma dot_sumn m (a x : list Q) : length a = m -> length x = m -> (dot a x == sumn m (fun i => nth i a 0 * nth i x 0))%Q.
Proof.
  revert a x. induction m as [|m IH]; intros [|u a] [|v x] Ha Hx; try discriminate; [reflexivity|].
  unfold dot in *. cbn [combine map qsum fst snd]. rewrite (IH a x) by (cbn in *; lia). rewrite sumn_S_first. reflexivity.
Qed.
Theorem C51_summation_matrix : forall levels x, (forall k, In k levels -> 1 <= k) ->
  length x = get_m levels ->
  Forall2 Qeq (map (fun row => dot row x) (get_S levels (get_m levels))) (level_vector levels (get_m levels) x).
Proof.
  intros levels x H1 Hx. set (m := get_m levels) in *. rewrite get_S_pairs, level_vector_pairs, map_map.
  assert (D : forall p, In p (pairs levels m) -> (dot (S_row m (fst p) (snd p)) x == block_sum (fst p) (snd p) x)%Q).
  { intros p Hp. apply pairs_in in Hp as [P1 P2]. rewrite (dot_sumn m).
    - rewrite block_sum_sumn. rewrite <- (indicator_sum m (fst p) (snd p * fst p) (fun a => nth a x 0%Q)).
      + apply sumn_ext. intros a Ha. rewrite S_row_nth by exact Ha. reflexivity.
      + apply block_fits; [apply H1, P1|apply get_m_divides; assumption|exact P2].
    - unfold S_row. rewrite map_length, seq_length. reflexivity.
    - exact Hx. }
  revert D. generalize (pairs levels m). intros l D. induction l as [|p l IH]; [constructor|]. cbn [map]. constructor.
  - apply D. left. reflexivity.
  - apply IH. intros q Hq. apply D. right. exact Hq.
Qed.
Theorem C51_rows : forall levels, let m := get_m levels in
  length (get_S levels m) = fold_right plus 0 (map (fun k => m / k) levels)
  /\ Forall (fun row => length row = m /\ Forall (fun v => v = 0%Q \/ v = 1%Q) row) (get_S levels m).
Proof.
  intros levels m. split.
  - clearbody m. unfold get_S. induction levels as [|k l IH]; [reflexivity|]. cbn [flat_map map fold_right].
    rewrite app_length, map_length, seq_length, IH. reflexivity.
  - rewrite get_S_pairs. apply Forall_forall. intros r Hr. apply in_map_iff in Hr as (p & <- & _). unfold S_row. split.
    + rewrite map_length, seq_length. reflexivity.
    + apply Forall_forall. intros v Hv. apply in_map_iff in Hv as (j & <- & _). destruct (_ && _); [right|left]; reflexivity.
Qed.
Example C51_case : get_m [4; 6; 1] = 12
  /\ get_S [4; 2; 1] 4 = [[1;1;1;1]; [1;1;0;0]; [0;0;1;1]; [1;0;0;0]; [0;1;0;0]; [0;0;1;0]; [0;0;0;1]]%Q
  /\ level_vector [4; 2; 1] 4 [1; 2; 3; 4]%Q = [1+(2+(3+(4+0))); 1+(2+0); 3+(4+0); 1+0; 2+0; 3+0; 4+0]%Q.
Proof. repeat split; reflexivity. Qed.

(** ** C50 every returned forecast is the block sum of the level 1 forecast *)
Lemma reshape_sum_nth k n l j : j < n -> nth j (reshape_sum k n l) 0%Q = block_sum k j l.
Proof.
  revert n l. induction j as [|j IH]; intros [|n] l H; try lia; [reflexivity|]. cbn [reshape_sum nth].
  rewrite IH by lia. unfold block_sum. rewrite skipn_skipn_add. reflexivity.
Qed.
Lemma reshape_sum_length k n l : length (reshape_sum k n l) = n.
Proof. revert l. induction n as [|n IH]; intros l; [reflexivity|]. cbn. rewrite IH. reflexivity. Qed.
Lemma block_sum_firstn k j s l : j * k + k <= s -> (block_sum k j (firstn s l) == block_sum k j l)%Q.
Proof.
  intros H. rewrite !block_sum_sumn. apply sumn_ext. intros t Ht.
  assert (E : j * k + t < s) by lia. revert l. generalize dependent (j * k + t). clear. induction s as [|s IH]; intros i Hi l; [lia|].
  destruct l as [|x l]; [reflexivity|]. destruct i as [|i]; [reflexivity|]. cbn. apply IH. lia.
Qed.
Lemma aggregate_data_length k y : 1 <= k -> length (aggregate_data y k) = length y / k.
Proof.
  intros Hk. unfold aggregate_data. destruct (Nat.eqb_spec k 1) as [->|E]; [rewrite Nat.div_1_r; reflexivity|]. apply reshape_sum_length.
Qed.
Lemma div_lt_mul j n k : 1 <= k -> j < n / k -> j * k + k <= n.
Proof. intros Hk Hj. assert (k * (n / k) <= n) by (apply Nat.mul_div_le; lia). nia. Qed.
Lemma aggregate_data_nth k y j : 1 <= k -> j < length y / k -> (nth j (aggregate_data y k) 0 == block_sum k j y)%Q.
Proof.
  intros Hk Hj. unfold aggregate_data. destruct (Nat.eqb_spec k 1) as [->|E].
  - rewrite block_sum_sumn. cbn [sumn]. replace (j * 1 + 0) with j by lia. ring.
  - rewrite reshape_sum_nth by exact Hj. apply block_sum_firstn. nia.
Qed.
Lemma nth_firstn_lt {A} i s (l : list A) d : i < s -> nth i (firstn s l) d = nth i l d.
Proof.
  revert s l. induction i as [|i IH]; intros [|s] [|x l] H; try lia; try reflexivity. cbn. apply IH. lia.
Qed.
Lemma lookup_map (f : nat -> list Q) ls k : In k ls -> lookup k (map (fun k => (k, f k)) ls) = f k.
Proof.
  induction ls as [|a ls IH]; intros H; [destruct H|]. cbn. destruct (Nat.eqb_spec a k) as [->|E]; [reflexivity|].
  destruct H as [H|H]; [contradiction|]. apply IH, H.
Qed.
Lemma ceil_div_ge s m : 1 <= m -> s <= ceil_div s m * m.
Proof.
  intros Hm. unfold ceil_div. pose proof (Nat.div_mod (s + m - 1) m). pose proof (Nat.mod_upper_bound (s + m - 1) m). nia.
Qed.
Lemma ceil_div_exact h m : 1 <= m -> ceil_div (h * m) m = h.
Proof.
  intros Hm. unfold ceil_div. replace (h * m + m - 1) with ((m - 1) + h * m) by lia. rewrite Nat.div_add by lia.
  rewrite Nat.div_small by lia. reflexivity.
Qed.

(** the base models return as many forecasts as they are asked for *)
Definition well_behaved (bases : nat -> base) (levels : list nat) : Prop :=
  forall k f n, In k levels -> bases k = Fitted f -> length (f n) = n.

Lemma predict_origin_lookup steps m bu levels bases o k : predict_origin steps m bu levels bases = Some o -> In k levels ->
  origin1 steps m bu k (bases k) = Some (lookup k o).
Proof.
  revert o. induction levels as [|a t IH]; intros o H Hk; [destruct Hk|]. cbn [predict_origin] in H.
  destruct (origin1 steps m bu a (bases a)) as [u|] eqn:E; [|discriminate].
  destruct (predict_origin steps m bu t bases) as [r|]; [|discriminate]. injection H as <-. cbn [lookup].
  destruct (Nat.eqb_spec a k) as [->|Ne]; [exact E|]. destruct Hk as [Hk|Hk]; [contradiction|]. apply IH; [reflexivity|exact Hk].
Qed.
Lemma origin1_length steps m bu k b o : (forall f n, b = Fitted f -> length (f n) = n) -> (bu = false \/ k = 1) ->
  origin1 steps m bu k b = Some o -> length o = freq m k * ceil_div steps m.
Proof.
  intros Hb Hk H. unfold origin1 in H. destruct b as [f|l].
  - injection H as <-. apply Hb. reflexivity.
  - destruct (Nat.ltb_spec (length l) (freq m k * ceil_div steps m)) as [L|L].
    + destruct (Nat.leb_spec (steps / m * freq m k) (length l)) as [L2|L2].
      * injection H as <-. rewrite app_length, repeat_length. lia.
      * destruct Hk as [->| ->]; [cbn in H; discriminate|]. rewrite Nat.eqb_refl, andb_false_r in H. discriminate.
    + injection H as <-. rewrite firstn_length. lia.
Qed.
Lemma flat_map_const_length {A} (f : nat -> list A) m n s : (forall c, length (f c) = m) -> length (flat_map f (seq s n)) = n * m.
Proof. intros H. revert s. induction n as [|n IH]; intros s; [reflexivity|]. cbn [seq flat_map]. rewrite app_length, H, IH. reflexivity. Qed.
Lemma yhat_length solve steps levels meth bases o y : hierarchy levels -> well_behaved bases levels ->
  predict_origin steps (get_m levels) (is_bu meth) levels bases = Some o ->
  yhat solve steps levels (get_m levels) meth (fun k => lookup k o) = Some y -> steps <= length y.
Proof.
  intros Hh Hw Ho Hy. destruct Hh as (_ & H1 & Hp). pose proof (get_m_pos levels Hp) as Hm.
  pose proof (ceil_div_ge steps _ Hm) as Hc. destruct meth as [| |w].
  - cbn in Hy. injection Hy as <-.
    rewrite (origin1_length steps (get_m levels) true 1 (bases 1) (lookup 1 o)).
    + unfold freq. rewrite Nat.div_1_r. lia.
    + intros f n E. apply (Hw 1 f n H1 E).
    + right. reflexivity.
    + apply (predict_origin_lookup _ _ _ levels bases o); assumption.
  - cbn in Hy. injection Hy as <-. rewrite map_length, seq_length. exact Hc.
  - cbn [yhat] in Hy. destruct (T_mat _ _ _ _ _) as [T|]; [|discriminate]. destruct (recon_matrix _ _ _ _ _) as [P|]; [|discriminate].
    cbn [option_map] in Hy. injection Hy as <-. rewrite firstn_length.
    rewrite (flat_map_const_length _ (get_m levels)) by (intros; rewrite map_length, seq_length; reflexivity). lia.
Qed.

Theorem C50_coherent : forall solve steps levels meth bases fl d,
  hierarchy levels -> well_behaved bases levels ->
  predict solve steps levels meth bases fl = Some d -> In 1 fl ->
  length (lookup 1 d) = steps
  /\ forall k, In k fl -> 1 <= k ->
     length (lookup k d) = steps / k
     /\ forall j, j < steps / k -> (nth j (lookup k d) 0 == block_sum k j (lookup 1 d))%Q.
Proof.
  intros solve steps levels meth bases fl d Hh Hw H H1. unfold predict in H.
  destruct (predict_origin _ _ _ _ _) as [o|] eqn:Ho; [|discriminate].
  destruct (yhat _ _ _ _ _ _) as [y|] eqn:Hy; [|discriminate]. cbn [option_map] in H. injection H as <-.
  pose proof (yhat_length _ _ _ _ _ _ _ Hh Hw Ho Hy) as Hl.
  rewrite (lookup_map _ fl 1 H1). rewrite Nat.div_1_r. cbn [aggregate_data Nat.eqb].
  split; [rewrite firstn_length; lia|]. intros k Hk Hk1. rewrite (lookup_map _ fl k Hk).
  assert (Hd : steps / k <= length y / k) by (apply Nat.div_le_mono; lia). split.
  - rewrite firstn_length, aggregate_data_length by exact Hk1. lia.
  - intros j Hj. rewrite nth_firstn_lt by exact Hj. rewrite aggregate_data_nth by lia.
    symmetry. apply block_sum_firstn, div_lt_mul; assumption.
Qed.

(** each level [k] forecast carries the time of the last level 1 forecast it sums *)
Theorem C50_times : forall last_time step k n j, 1 <= k -> j < n / k ->
  nth j (fcst_times last_time step k (n / k)) 0%Z = nth (j * k + k - 1) (fcst_times last_time step 1 n) 0%Z.
Proof.
  intros lt st k n j Hk Hj. pose proof (div_lt_mul j n k Hk Hj) as B.
  assert (G : forall q num i, i < num -> nth i (fcst_times lt st q num) 0%Z = (lt + st * Z.of_nat q * (Z.of_nat i + 1))%Z).
  { intros q num i Hi. unfold fcst_times. set (f := fun j0 => (lt + st * Z.of_nat q * (Z.of_nat j0 + 1))%Z).
    rewrite (nth_indep _ 0%Z (f 0)) by (rewrite map_length, seq_length; exact Hi). rewrite (map_nth f), seq_nth by exact Hi. reflexivity. }
  rewrite G by exact Hj. rewrite G by lia. rewrite Nat2Z.inj_sub by lia. rewrite Nat2Z.inj_add, Nat2Z.inj_mul. nia.
Qed.

(** ** C52 coherent base forecasts are left alone *)
Lemma block_flat_map (f : nat -> list Q) m h t : (forall c, length (f c) = m) -> 1 <= m -> t < h * m ->
  nth t (flat_map f (seq 0 h)) 0%Q = nth (t mod m) (f (t / m)) 0%Q.
Proof.
  intros Hf Hm. enough (G : forall s, t < h * m -> nth t (flat_map f (seq s h)) 0%Q = nth (t mod m) (f (s + t / m)) 0%Q) by (intros; apply (G 0); assumption).
  revert t. induction h as [|h IH]; intros t s Ht; [lia|]. cbn [seq flat_map].
  destruct (Nat.lt_ge_cases t m) as [L|L].
  - rewrite app_nth1 by (rewrite Hf; exact L). rewrite Nat.mod_small, Nat.div_small, Nat.add_0_r by exact L. reflexivity.
  - rewrite app_nth2 by (rewrite Hf; exact L). rewrite Hf, IH by nia.
    replace t with ((t - m) + 1 * m) at 3 4 by lia. rewrite Nat.mod_add, Nat.div_add by lia. do 2 f_equal. lia.
Qed.
Lemma ycol_coherent levels m h orig b c r : (forall k, In k levels -> 1 <= k) -> (forall k, In k levels -> Nat.divide k m) ->
  coherent levels m h orig b -> c < h -> r < length (pairs levels m) ->
  (nth r (ycol levels m orig c) 0 == sumn m (fun a => Smat levels m r a * nth (c * m + a) b 0))%Q.
Proof.
  intros H1 H2 [Hb Hc] Hch Hr.
  rewrite (Smat_apply levels m r (fun a => nth (c * m + a) b 0%Q) H1 H2 Hr). rewrite ycol_pairs, nth_map_pairs by exact Hr.
  set (p := nth r (pairs levels m) (0, 0)). assert (Hp : In p (pairs levels m)) by (apply nth_In, Hr).
  apply pairs_in in Hp as [P1 P2]. pose proof (freq_mul m (fst p) (H1 _ P1) (H2 _ P1)) as F.
  rewrite Hc; [|exact P1|unfold freq in *; nia].
  rewrite block_sum_sumn. apply sumn_ext. intros t Ht. replace ((c * freq m (fst p) + snd p) * fst p + t) with (c * m + (snd p * fst p + t)); [reflexivity|].
  clear - F. set (q := freq m (fst p)) in *. clearbody q. nia.
Qed.
Lemma level1_apply levels m t (x : nat -> Q) : hierarchy levels -> (forall k, In k levels -> Nat.divide k m) -> t < m ->
  (sumn m (fun a => Smat levels m (length (pairs levels m) - m + t)%nat a * x a) == x t)%Q.
Proof.
  intros Hh H2 Ht. destruct (pairs_level1 levels m t Hh Ht) as (A & B & C). destruct Hh as (_ & _ & H1).
  rewrite (Smat_apply levels m _ x H1 H2 B). rewrite C. cbn [fst snd sumn]. rewrite Nat.mul_1_r, Nat.add_0_r. ring.
Qed.

Theorem C52_fixed_point : forall solve steps levels meth orig b y h,
  hierarchy levels -> solves solve -> meth <> Median ->
  steps = h * get_m levels ->
  coherent levels (get_m levels) h orig b ->
  yhat solve steps levels (get_m levels) meth orig = Some y ->
  forall t, t < steps -> (nth t y 0 == nth t b 0)%Q.
Proof.
  intros solve steps levels meth orig b y h Hh Hs Hm Es Hc Hy t Ht. set (m := get_m levels) in *.
  pose proof Hh as (_ & H1 & Hp). pose proof (get_m_pos levels Hp) as Mp. fold m in Mp.
  assert (Hd : forall k, In k levels -> Nat.divide k m) by (intros; apply get_m_divides; assumption).
  assert (Ech : ceil_div steps m = h) by (rewrite Es; apply ceil_div_exact, Mp).
  destruct meth as [| |w]; [|contradiction|].
  - cbn in Hy. injection Hy as <-. destruct Hc as [Hb Hc]. rewrite Hc; [|exact H1|rewrite Nat.div_1_r; lia].
    rewrite block_sum_sumn. cbn [sumn]. rewrite Nat.mul_1_r, Nat.add_0_r. ring.
  - cbn [yhat] in Hy. rewrite Ech in Hy. rewrite get_S_pairs, map_length, <- get_S_pairs in Hy. fold (Smat levels m) in Hy.
    set (n := length (pairs levels m)) in *.
    destruct (T_mat solve n m (Smat levels m) w) as [T|] eqn:ET; [|discriminate].
    unfold recon_matrix in Hy.
    destruct (solve m n (fun i j => sumn n (fun r => (T i r * Smat levels m r j)%Q)) T) as [X|] eqn:EX; [|discriminate].
    cbn [option_map] in Hy. injection Hy as <-. destruct (Hs _ _ _ _ _ EX) as [A1 A2].
    rewrite nth_firstn_lt by exact Ht.
    rewrite (block_flat_map _ m h) by (try lia; intros; rewrite map_length, seq_length; reflexivity).
    assert (Hq : t mod m < m) by (apply Nat.mod_upper_bound; lia).
    assert (Hc2 : t / m < h) by (apply Nat.div_lt_upper_bound; lia).
    set (c := t / m) in *. set (q := t mod m) in *.
    set (f := fun i => recon_apply n (fun i0 r => sumn m (fun a => (Smat levels m i0 a * X a r)%Q)) (ycol levels m orig c) (n - m + i)).
    rewrite (nth_indep _ 0%Q (f 0)) by (rewrite map_length, seq_length; exact Hq). rewrite (map_nth f), seq_nth by exact Hq. cbn [plus].
    unfold f, recon_apply. rewrite (apply_assoc n m (Smat levels m) X (fun r => nth r (ycol levels m orig c) 0%Q)).
    unfold n at 1. rewrite (level1_apply levels m q) by assumption.
    rewrite (coef_fixed n m (Smat levels m) T X (fun r => nth r (ycol levels m orig c) 0%Q) (fun a => nth (c * m + a) b 0%Q)).
    + unfold c, q. rewrite (Nat.mul_comm (t / m) m), <- Nat.div_mod by lia. reflexivity.
    + exact A1.
    + exact A2.
    + intros r Hr. apply (ycol_coherent levels m h); assumption.
    + exact Hq.
Qed.

(** a base model whose [n] forecasts are [l] *)
Definition forecasts (b : base) (n : nat) (l : list Q) : Prop :=
  length l = n /\ match b with Fitted f => f n = l | Given g => firstn n g = l end.
Lemma forecasts_origin b steps m bu k l : forecasts b (freq m k * ceil_div steps m) l -> origin1 steps m bu k b = Some l.
Proof.
  unfold origin1, forecasts. destruct b as [f|g]; [intros [_ ->]; reflexivity|]. intros [L <-]. rewrite firstn_length in L.
  destruct (Nat.ltb_spec (length g) (freq m k * ceil_div steps m)); [lia|reflexivity].
Qed.
Lemma yhat_ext solve steps levels m meth o1 o2 : In 1 levels -> (forall k, In k levels -> o1 k = o2 k) ->
  yhat solve steps levels m meth o1 = yhat solve steps levels m meth o2.
Proof.
  intros H1 H. destruct meth as [| |w]; cbn [yhat].
  - rewrite (H 1 H1). reflexivity.
  - f_equal. apply map_ext. intros j. f_equal. apply map_ext_in. intros k Hk. rewrite (H k Hk). reflexivity.
  - destruct (T_mat _ _ _ _ _) as [T|]; [|reflexivity].
    destruct (recon_matrix _ _ _ _ _) as [P|]; [|reflexivity]. cbn [option_map]. do 2 f_equal.
    apply flat_map_ext. intros c. apply map_ext. intros i. f_equal. unfold ycol.
    assert (G : forall l, (forall k, In k l -> In k levels) ->
      flat_map (fun k => map (fun i0 => nth (c * freq m k + i0) (o1 k) 0%Q) (seq 0 (freq m k))) l =
      flat_map (fun k => map (fun i0 => nth (c * freq m k + i0) (o2 k) 0%Q) (seq 0 (freq m k))) l).
    { induction l as [|a l IH]; intros Hl; [reflexivity|]. cbn [flat_map]. rewrite IH by (intros; apply Hl; right; assumption).
      rewrite (H a) by (apply Hl; left; reflexivity). reflexivity. }
    apply G. auto.
Qed.
Theorem C52_predict : forall solve h levels meth bases orig b fl d,
  hierarchy levels -> solves solve -> meth <> Median ->
  let m := get_m levels in
  (forall k, In k levels -> forecasts (bases k) (m / k * h) (orig k)) ->
  coherent levels m h orig b ->
  predict solve (h * m) levels meth bases fl = Some d ->
  forall k j, In k levels -> In k fl -> j < h * m / k -> (nth j (lookup k d) 0 == nth j (orig k) 0)%Q.
Proof.
  intros solve h levels meth bases orig b fl d Hh Hs Hm m Hf Hc H k j Hk Hkf Hj. unfold predict in H. fold m in H.
  pose proof Hh as (_ & H1 & Hp). pose proof (get_m_pos levels Hp) as Mp. fold m in Mp.
  destruct (predict_origin _ _ _ _ _) as [o|] eqn:Ho; [|discriminate].
  assert (Eo : forall q, In q levels -> lookup q o = orig q).
  { intros q Hq. pose proof (predict_origin_lookup _ _ _ _ _ _ _ Ho Hq) as E.
    rewrite (forecasts_origin _ _ _ _ _ (orig q)) in E; [injection E as E; congruence|].
    rewrite ceil_div_exact by exact Mp. apply Hf, Hq. }
  rewrite (yhat_ext solve _ levels m meth _ orig H1 Eo) in H.
  destruct (yhat _ _ _ _ _ _) as [y|] eqn:Hy; [|discriminate]. cbn [option_map] in H. injection H as <-.
  rewrite (lookup_map _ fl k Hkf). rewrite nth_firstn_lt by exact Hj.
  assert (Hl : h * m <= length y).
  { destruct meth as [| |w]; [|contradiction|].
    - cbn in Hy. injection Hy as <-. destruct (Hf 1 H1) as [L _]. rewrite L, Nat.div_1_r. lia.
    - cbn [yhat] in Hy. destruct (T_mat _ _ _ _ _) as [T|]; [|discriminate]. destruct (recon_matrix _ _ _ _ _) as [P|]; [|discriminate].
      cbn [option_map] in Hy. injection Hy as <-. rewrite firstn_length.
      rewrite (flat_map_const_length _ m) by (intros; rewrite map_length, seq_length; reflexivity). rewrite ceil_div_exact by exact Mp. lia. }
  pose proof (C52_fixed_point solve _ levels meth orig b y h Hh Hs Hm eq_refl Hc Hy) as F. fold m in F.
  assert (Hk1 : 1 <= k) by (apply Hp, Hk).
  pose proof (div_lt_mul j (h * m) k Hk1 Hj) as B.
  assert (Hj2 : j < length y / k) by (apply Nat.lt_le_trans with (h * m / k); [exact Hj|apply Nat.div_le_mono; lia]).
  rewrite (aggregate_data_nth k y j Hk1 Hj2).
  destruct Hc as [Hb Hc]. rewrite Hc; [|exact Hk|].
  - rewrite !block_sum_sumn. apply sumn_ext. intros t Ht. apply F. lia.
  - pose proof (freq_mul m k Hk1 (get_m_divides levels k Hp Hk)) as Fm. unfold freq in Fm.
    assert (E : h * m / k = h * (m / k)) by (rewrite <- Fm at 1; rewrite Nat.mul_assoc, Nat.div_mul by lia; reflexivity). lia.
Qed.

(** ** C91 weighted least squares *)
Lemma W_struc_pairs levels m : W_struc levels m = map (fun p => inject_Z (Z.of_nat (fst p))) (pairs levels m).
Proof.
  unfold W_struc, pairs. induction levels as [|k t IH]; [reflexivity|]. cbn [flat_map]. rewrite map_app, IH, map_map. f_equal.
  cbn [fst]. generalize (freq m k), 0. induction n as [|n IHn]; intros s; [reflexivity|]. cbn. f_equal. apply IHn.
Qed.
Lemma W_svar_pairs eps levels m res : W_svar eps levels m res = map (fun p => (mean_sq (res (fst p)) + eps)%Q) (pairs levels m).
Proof.
  unfold W_svar, pairs. induction levels as [|k t IH]; [reflexivity|]. cbn [flat_map]. rewrite map_app, IH, map_map. f_equal.
  cbn [fst]. generalize (freq m k), 0. induction n as [|n IHn]; intros s; [reflexivity|]. cbn. f_equal. apply IHn.
Qed.
Lemma div_len_nonneg x (l : list Q) : (0 <= x)%Q -> (0 <= x / inject_Z (Z.of_nat (length l)))%Q.
Proof.
  intros H. destruct l as [|a l]; [rewrite (Qmult_0_r x : (x / inject_Z (Z.of_nat (length (@nil Q))) == 0)%Q); apply Qle_refl|].
  apply Qle_shift_div_l; [unfold Qlt; cbn; lia|rewrite Qmult_0_l; exact H].
Qed.
Lemma qsum_sq_nonneg (f : Q -> Q) l : (0 <= qsum (map (fun x => f x * f x) l))%Q.
Proof. induction l as [|a l IH]; cbn [map qsum]; [lra|]. pose proof (sq_nonneg' (f a)). lra. Qed.

(** the diagonal weights of the three variance scalings are positive, one per row *)
Theorem C91_weights_positive : forall eps levels res, (0 < eps)%Q -> (forall k, In k levels -> 1 <= k) ->
  let m := get_m levels in
  let ok := fun w => length w = length (get_S levels m) /\ Forall (fun v => (0 < v)%Q) w in
  ok (W_struc levels m) /\ ok (W_svar eps levels m res)
  /\ forall w, W_hvar eps levels m res = Some w -> ok w.
Proof.
  intros eps levels res He Hp m ok. unfold ok. rewrite get_S_pairs, map_length. split; [|split].
  - rewrite W_struc_pairs, map_length. split; [reflexivity|]. apply Forall_forall. intros v Hv. apply in_map_iff in Hv as (p & <- & P).
    apply pairs_in in P as [P _]. specialize (Hp _ P). unfold Qlt. cbn. lia.
  - rewrite W_svar_pairs, map_length. split; [reflexivity|]. apply Forall_forall. intros v Hv. apply in_map_iff in Hv as (p & <- & P).
    unfold mean_sq. pose proof (div_len_nonneg _ (res (fst p)) (qsum_sq_nonneg (fun x => x) (res (fst p)))) as G. cbn beta in G. lra.
  - intros w Hw. unfold W_hvar in Hw. destruct (residual_h levels m res) as [|h]; [discriminate|]. injection Hw as <-.
    rewrite (flat_map_pairs (fun k i => (var0 (residual_row m (S h) res k i) + eps)%Q)), map_length. split; [reflexivity|].
    apply Forall_forall. intros v Hv. apply in_map_iff in Hv as (p & <- & P). unfold var0.
    set (l := residual_row m (S h) res (fst p) (snd p)). set (mu := (qsum l / inject_Z (Z.of_nat (length l)))%Q).
    pose proof (div_len_nonneg _ l (qsum_sq_nonneg (fun x => x - mu)%Q l)) as G. cbn beta in G. lra.
Qed.

Lemma recon_diag_inv solve levels m h w orig y : 1 <= m -> solves solve ->
  yhat solve (h * m) levels m (Recon (Diag w)) orig = Some y ->
  let n := length (pairs levels m) in
  let Sm := Smat levels m in
  exists X, (forall i r, i < m -> r < n ->
       (sumn m (fun a => sumn n (fun q => Sm q i / nth q w 0 * Sm q a) * X a r) == Sm r i / nth r w 0)%Q)
    /\ y = flat_map (fun c => map (fun i => recon_apply n (fun i r => sumn m (fun a => (Sm i a * X a r)%Q)) (ycol levels m orig c) (n - m + i)) (seq 0 m)) (seq 0 h).
Proof.
  intros Mp Hs Hy n Sm. cbn [yhat] in Hy. rewrite ceil_div_exact in Hy by exact Mp.
  rewrite get_S_pairs, map_length, <- get_S_pairs in Hy. fold (Smat levels m) in Hy. fold n in Hy. fold Sm in Hy.
  cbn [T_mat] in Hy. unfold recon_matrix in Hy.
  match type of Hy with option_map _ (option_map _ (solve ?a ?b ?M ?N)) = _ => destruct (solve a b M N) as [X|] eqn:EX; [|discriminate] end.
  cbn [option_map] in Hy. injection Hy as <-. exists X. destruct (Hs _ _ _ _ _ EX) as [A1 _]. split; [exact A1|].
  rewrite firstn_all2; [reflexivity|].
  rewrite (flat_map_const_length _ m) by (intros; rewrite map_length, seq_length; reflexivity). lia.
Qed.
Lemma nth_period m c l a : a < m -> nth a (period m c l) 0%Q = nth (c * m + a) l 0%Q.
Proof. intros H. unfold period. rewrite nth_firstn_lt by exact H. apply nth_skipn_add. Qed.
Lemma distance_sumn n w y v : length y = n -> length v = n -> length w = n ->
  (distance w y v == sumn n (fun r => (nth r y 0 - nth r v 0) * (nth r y 0 - nth r v 0) / nth r w 0))%Q.
Proof.
  revert w y v. induction n as [|n IH]; intros [|a w] [|b y] [|c v] H1 H2 H3; try discriminate; [reflexivity|].
  unfold distance in *. cbn [combine map qsum fst snd]. rewrite (IH w y v) by (cbn in *; lia). rewrite sumn_S_first. reflexivity.
Qed.
Lemma level_vector_nth levels m b r : (forall k, In k levels -> 1 <= k) -> (forall k, In k levels -> Nat.divide k m) ->
  r < length (pairs levels m) ->
  (nth r (level_vector levels m b) 0 == sumn m (fun a => Smat levels m r a * nth a b 0))%Q.
Proof.
  intros H1 H2 Hr. rewrite (Smat_apply levels m r (fun a => nth a b 0%Q) H1 H2 Hr).
  rewrite level_vector_pairs, nth_map_pairs by exact Hr. apply block_sum_sumn.
Qed.
Theorem C91_least_squares : forall solve h levels w orig y,
  hierarchy levels -> solves solve ->
  let m := get_m levels in
  length w = length (get_S levels m) -> Forall (fun v => (0 < v)%Q) w ->
  yhat solve (h * m) levels m (Recon (Diag w)) orig = Some y ->
  forall c b, c < h -> length b = m ->
  (distance w (base_vector levels m orig c) (level_vector levels m (period m c y))
   <= distance w (base_vector levels m orig c) (level_vector levels m b))%Q.
Proof.
  intros solve h levels w orig y Hh Hs m Hw Hpos Hy c b Hc Hb. pose proof Hh as (_ & H1 & Hp).
  pose proof (get_m_pos levels Hp) as Mp. fold m in Mp.
  assert (Hd : forall k, In k levels -> Nat.divide k m) by (intros; apply get_m_divides; assumption).
  destruct (recon_diag_inv solve levels m h w orig y Mp Hs Hy) as (X & HX & Ey).
  rewrite get_S_pairs, map_length in Hw. set (n := length (pairs levels m)) in *.
  change (base_vector levels m orig c) with (ycol levels m orig c).
  assert (Ly : length (ycol levels m orig c) = n) by (rewrite ycol_pairs, map_length; reflexivity).
  assert (Lv : forall x, length (level_vector levels m x) = n) by (intros; rewrite level_vector_pairs, map_length; reflexivity).
  rewrite !(distance_sumn n) by auto.
  set (Y := fun r => nth r (ycol levels m orig c) 0%Q).
  assert (Hw' : forall r, r < n -> (0 < nth r w 0)%Q).
  { intros r Hr. rewrite Forall_forall in Hpos. apply Hpos, nth_In. lia. }
  pose proof (least_squares n m (Smat levels m) (fun r => nth r w 0%Q) Y (coef n X Y) (fun a => nth a b 0%Q) Hw') as LS.
  cbn zeta in LS. specialize (LS (normal_eq n m (Smat levels m) (fun i r => Smat levels m r i / nth r w 0)%Q X HX Y)).
  assert (Ep : forall a, a < m -> (nth a (period m c y) 0 == coef n X Y a)%Q).
  { intros a Ha. rewrite nth_period by exact Ha. rewrite Ey.
    rewrite (block_flat_map _ m h) by (try nia; intros; rewrite map_length, seq_length; reflexivity).
    replace ((c * m + a) / m) with c by (rewrite Nat.add_comm, Nat.div_add, Nat.div_small by lia; reflexivity).
    replace ((c * m + a) mod m) with a by (rewrite Nat.add_comm, Nat.mod_add, Nat.mod_small by lia; reflexivity).
    set (f := fun i => recon_apply n (fun i0 r => sumn m (fun a => (Smat levels m i0 a * X a r)%Q)) (ycol levels m orig c) (n - m + i)).
    rewrite (nth_indep _ 0%Q (f 0)) by (rewrite map_length, seq_length; exact Ha). rewrite (map_nth f), seq_nth by exact Ha. cbn [plus].
    unfold f, recon_apply. etransitivity; [apply (apply_assoc n m (Smat levels m) X Y)|]. unfold n at 1. apply (level1_apply levels m a); assumption. }
  rewrite (sumn_ext n (fun r => (nth r (ycol levels m orig c) 0 - nth r (level_vector levels m (period m c y)) 0) *
     (nth r (ycol levels m orig c) 0 - nth r (level_vector levels m (period m c y)) 0) / nth r w 0)%Q
     (fun r => (Y r - sumn m (fun a => Smat levels m r a * coef n X Y a)) * (Y r - sumn m (fun a => Smat levels m r a * coef n X Y a)) / nth r w 0)%Q).
  2: { intros r Hr. rewrite level_vector_nth by assumption. fold (Y r).
       rewrite (sumn_ext m (fun a => Smat levels m r a * nth a (period m c y) 0)%Q (fun a => Smat levels m r a * coef n X Y a)%Q); [reflexivity|].
       intros a Ha. rewrite Ep by exact Ha. reflexivity. }
  rewrite (sumn_ext n (fun r => (nth r (ycol levels m orig c) 0 - nth r (level_vector levels m b) 0) *
     (nth r (ycol levels m orig c) 0 - nth r (level_vector levels m b) 0) / nth r w 0)%Q
     (fun r => (Y r - sumn m (fun a => Smat levels m r a * nth a b 0)) * (Y r - sumn m (fun a => Smat levels m r a * nth a b 0)) / nth r w 0)%Q).
  2: { intros r Hr. rewrite level_vector_nth by assumption. fold (Y r). reflexivity. }
  exact LS.
Qed.

(** with positive weights and an exact solver the reconciliation never fails *)
Theorem C91_solvable : forall solve steps levels w orig,
  hierarchy levels -> complete solve ->
  let m := get_m levels in
  length w = length (get_S levels m) -> Forall (fun v => (0 < v)%Q) w ->
  exists y, yhat solve steps levels m (Recon (Diag w)) orig = Some y.
Proof.
  intros solve steps levels w orig Hh Hc m Hw Hpos. pose proof Hh as (_ & H1 & Hp).
  pose proof (get_m_pos levels Hp) as Mp. fold m in Mp.
  assert (Hd : forall k, In k levels -> Nat.divide k m) by (intros; apply get_m_divides; assumption).
  cbn [yhat T_mat]. unfold recon_matrix. rewrite get_S_pairs, map_length in Hw. rewrite get_S_pairs, map_length, <- get_S_pairs.
  fold (Smat levels m). set (n := length (pairs levels m)) in *.
  match goal with |- context [solve m n ?M ?N] => destruct (Hc m n M N) as [X ->] end; [|eexists; reflexivity].
  intros x Hx t Ht. rewrite <- (level1_apply levels m t x Hh Hd Ht).
  apply (normal_injective n m (Smat levels m) (fun r => nth r w 0%Q)).
  - intros r Hr. rewrite Forall_forall in Hpos. apply Hpos, nth_In. lia.
  - exact Hx.
  - destruct (pairs_level1 levels m t Hh Ht) as (_ & B & _). exact B.
Qed.

(** ** A concrete hierarchy *)
Definition by_level (l4 l2 l1 : list Q) (k : nat) : list Q := match k with 4 => l4 | 2 => l2 | _ => l1 end.
Definition lv : list nat := [4; 2; 1].
Lemma lv_hierarchy : hierarchy lv.
Proof.
  split; [|split].
  - repeat constructor.
  - right. right. left. reflexivity.
  - intros k [<-|[<-|[<-|[]]]]; lia.
Qed.
Definition l2 : list nat := [2; 1].
Lemma l2_hierarchy : hierarchy l2.
Proof. split; [repeat constructor|]. split; [right; left; reflexivity|]. intros k [<-|[<-|[]]]; lia. Qed.
Definition coh (k : nat) : list Q := by_level [] [4; 6]%Q [1; 3; 2; 4]%Q k.
Definition incoh (k : nat) : list Q := by_level [] [6; 8]%Q [1; 3; 2; 4]%Q k.
Example C50_case : hierarchy l2
  /\ option_map (map (fun kv => (fst kv, map Qred (snd kv))))
                (predict gauss_solve 3 l2 (Recon (Diag (W_struc l2 2))) (fun k => Given (incoh k)) [1; 2; 3])
     = Some [(1, [3#2; 7#2; 5#2]%Q); (2, [5]%Q); (3, [15#2]%Q)].
Proof. split; [exact l2_hierarchy|]. vm_compute. reflexivity. Qed.
Example C52_case : hierarchy l2 /\ solves gauss_solve /\ coherent l2 2 2 coh [1; 3; 2; 4]%Q
  /\ (forall k, In k l2 -> forecasts (Given (coh k)) (2 / k * 2) (coh k))
  /\ option_map (map (fun kv => (fst kv, map Qred (snd kv))))
                (predict gauss_solve 4 l2 (Recon (Diag (W_struc l2 2))) (fun k => Given (coh k)) l2)
     = Some (map (fun k => (k, coh k)) l2).
Proof.
  split; [exact l2_hierarchy|]. split; [exact gauss_solves|]. split; [|split].
  - split; [reflexivity|]. intros k j [<-|[<-|[]]] Hj; cbn in Hj.
    + destruct j as [|[|]]; [reflexivity|reflexivity|lia].
    + destruct j as [|[|[|[|]]]]; try reflexivity; lia.
  - intros k [<-|[<-|[]]]; split; reflexivity.
  - vm_compute. reflexivity.
Qed.
(** incoherent base forecasts (6 against 1 + 3): the reconciled ones are strictly closer than bottom-up *)
Example C91_case : option_map (map Qred) (yhat gauss_solve 2 l2 2 (Recon (Diag (W_struc l2 2))) incoh) = Some [3#2; 7#2]%Q
  /\ (distance (W_struc l2 2) (base_vector l2 2 incoh 0) (level_vector l2 2 [3#2; 7#2])
      < distance (W_struc l2 2) (base_vector l2 2 incoh 0) (level_vector l2 2 [1; 3]))%Q
  /\ complete gauss_solve.
Proof.
  split; [vm_compute; reflexivity|]. split; [vm_compute; reflexivity|].
  intros n p A B H. apply gauss_complete. exact H.
Qed.
Example C91_weights_case : W_struc lv 4 = [4; 2; 2; 1; 1; 1; 1]%Q
  /\ option_map (map Qred) (W_hvar (1#10) [2; 1] 2 (fun k => by_level [] [1; 5]%Q [9; 1; 2; 3; 8]%Q k))
     = Some [41#10; 11#10; 91#10]%Q.
Proof. split; vm_compute; reflexivity. Qed.

(** ** C93 every method and coherent forecasts *)
Theorem C93_median_refuted : ~ (forall solve steps levels meth orig b y h,
  hierarchy levels -> solves solve -> steps = h * get_m levels ->
  coherent levels (get_m levels) h orig b ->
  yhat solve steps levels (get_m levels) meth orig = Some y ->
  forall t, t < steps -> (nth t y 0 == nth t b 0)%Q).
Proof.
  intros H.
  assert (Hh : hierarchy [2; 1]).
  { split; [repeat constructor|]. split; [right; left; reflexivity|]. intros k [<-|[<-|[]]]; lia. }
  set (o := fun k => by_level [] [4]%Q [1; 3]%Q k).
  assert (Hc : coherent [2; 1] 2 1 o [1; 3]%Q).
  { split; [reflexivity|]. intros k j [<-|[<-|[]]] Hj; cbn in Hj.
    - destruct j; [reflexivity|lia].
    - destruct j as [|[|]]; [reflexivity|reflexivity|lia]. }
  specialize (H gauss_solve 2 [2; 1] Median o [1; 3]%Q _ 1 Hh gauss_solves eq_refl Hc eq_refl 0 ltac:(lia)).
  vm_compute in H. discriminate H.
Qed.
(** the median forecast is the median over the levels of the forecasts spread evenly over their blocks *)
Theorem C93_median_partial : forall solve steps levels m orig y,
  yhat solve steps levels m Median orig = Some y -> levels <> [] ->
  forall j, j < length y ->
  let spreads := map (fun k => (nth (j / k) (orig k) 0 / inject_Z (Z.of_nat k))%Q) levels in
  median_of spreads (nth j y 0%Q)
  /\ forall lo hi, (forall x, In x spreads -> lo <= x <= hi)%Q -> (lo <= nth j y 0 <= hi)%Q.
Proof.
  intros solve steps levels m orig y H Hl j Hj spreads. cbn in H. injection H as <-. rewrite map_length, seq_length in Hj.
  set (f := fun j => qmedian (map (fun k => spread k (orig k) j) levels)).
  rewrite (nth_indep _ 0%Q (f 0)) by (rewrite map_length, seq_length; exact Hj). rewrite (map_nth f), seq_nth by exact Hj. cbn [plus].
  assert (M : median_of spreads (f j)) by apply qmedian_spec. split; [exact M|].
  intros lo hi B. apply (median_between spreads); [|exact M|exact B]. destruct levels; [contradiction|discriminate].
Qed.
Example C93_case : option_map (map Qred) (yhat gauss_solve 4 lv 4 Median (by_level [10]%Q [3; 7]%Q [1; 2; 3; 4]%Q)) = Some [3#2; 2; 3; 7#2]%Q.
Proof. vm_compute. reflexivity. Qed.

(** ** C90 supplied forecasts shorter than the horizon *)
(** the forecasts that are needed according to the code: [steps // m] whole periods *)
Theorem C90_padding_ignored_refuted : ~ (forall solve steps levels meth l1 l2 fl d1 d2,
  hierarchy levels -> solves solve ->
  (forall k, In k levels -> firstn (steps / get_m levels * (get_m levels / k)) (l1 k)
                          = firstn (steps / get_m levels * (get_m levels / k)) (l2 k)) ->
  predict solve steps levels meth (fun k => Given (l1 k)) fl = Some d1 ->
  predict solve steps levels meth (fun k => Given (l2 k)) fl = Some d2 ->
  forall k j, In k fl -> (nth j (lookup k d1) 0 == nth j (lookup k d2) 0)%Q).
Proof.
  intros H.
  assert (P : forall k, In k l2 -> firstn (3 / get_m l2 * (get_m l2 / k)) (by_level [] [6]%Q [1; 3]%Q k)
     = firstn (3 / get_m l2 * (get_m l2 / k)) (by_level [] [6; 100]%Q [1; 3]%Q k)).
  { intros k [<-|[<-|[]]]; reflexivity. }
  specialize (H gauss_solve 3 l2 (Recon (Diag (W_struc l2 2))) (by_level [] [6]%Q [1; 3]%Q) (by_level [] [6; 100]%Q [1; 3]%Q) [1]
                _ _ l2_hierarchy gauss_solves P eq_refl eq_refl 1 2 (or_introl eq_refl)). vm_compute in H. discriminate H.
Qed.
(** bottom-up repeats the last supplied level 1 forecast without a warning *)
Theorem C90_repeats_last_refuted : exists d,
  predict gauss_solve 3 [2; 1] BU (fun k => Given (by_level [] [3]%Q [1; 2]%Q k)) [1] = Some d
  /\ lookup 1 d = [1; 2; 2]%Q.
Proof. eexists. split; vm_compute; reflexivity. Qed.

Lemma origin1_given_prefix steps m bu k l o : 1 <= m -> origin1 steps m bu k (Given l) = Some o ->
  forall i, i < steps / m * freq m k -> i < length l -> nth i o 0%Q = nth i l 0%Q.
Proof.
  intros Mp H i Hi Hl. unfold origin1 in H. destruct (Nat.ltb (length l) _) eqn:E.
  - destruct (Nat.leb _ _).
    + injection H as <-. apply app_nth1, Hl.
    + destruct (bu && _); [|discriminate]. injection H as <-. reflexivity.
  - injection H as <-. apply nth_firstn_lt. assert (steps / m <= ceil_div steps m); [|nia].
    unfold ceil_div. apply Nat.div_le_mono; lia.
Qed.
Lemma yhat_prefix solve steps levels m meth o1 o2 y1 y2 : 1 <= m -> (forall k, In k levels -> 1 <= k /\ Nat.divide k m) -> In 1 levels ->
  (forall k i, In k levels -> (is_bu meth = false \/ k = 1) -> i < steps / m * freq m k -> nth i (o1 k) 0%Q = nth i (o2 k) 0%Q) ->
  yhat solve steps levels m meth o1 = Some y1 -> yhat solve steps levels m meth o2 = Some y2 ->
  forall t, t < steps / m * m -> nth t y1 0%Q = nth t y2 0%Q.
Proof.
  intros Mp Hd H1 Ho E1 E2 t Ht.
  assert (Hc : steps / m <= ceil_div steps m) by (unfold ceil_div; apply Nat.div_le_mono; lia).
  assert (Hs : steps / m * m <= steps) by (rewrite Nat.mul_comm; apply Nat.mul_div_le; lia).
  destruct meth as [| |w].
  - cbn in E1, E2. injection E1 as <-. injection E2 as <-. apply Ho; [exact H1|right; reflexivity|]. unfold freq. rewrite Nat.div_1_r. exact Ht.
  - cbn in E1, E2. injection E1 as <-. injection E2 as <-.
    assert (Ht2 : t < ceil_div steps m * m) by nia.
    assert (G : forall o, nth t (map (fun j => qmedian (map (fun k => spread k (o k) j) levels)) (seq 0 (ceil_div steps m * m))) 0%Q
                        = qmedian (map (fun k => spread k (o k) t) levels)).
    { intros o. set (f := fun j => qmedian (map (fun k => spread k (o k) j) levels)).
      rewrite (nth_indep _ 0%Q (f 0)) by (rewrite map_length, seq_length; exact Ht2). rewrite (map_nth f), seq_nth by exact Ht2. reflexivity. }
    rewrite !G. f_equal. apply map_ext_in. intros k Hk. unfold spread. destruct (Hd k Hk) as [K1 K2]. rewrite (Ho k (t / k) Hk); [reflexivity|left; reflexivity|].
    pose proof (freq_mul m k K1 K2) as F. apply Nat.div_lt_upper_bound; [lia|]. nia.
  - cbn [yhat] in E1, E2. destruct (T_mat _ _ _ _ _) as [T|]; [|discriminate]. destruct (recon_matrix _ _ _ _ _) as [P|]; [|discriminate].
    cbn [option_map] in E1, E2. injection E1 as <-. injection E2 as <-.
    rewrite !nth_firstn_lt by lia.
    rewrite !(block_flat_map _ m (ceil_div steps m)) by (try nia; intros; rewrite map_length, seq_length; reflexivity).
    f_equal. apply map_ext. intros i. f_equal. rewrite !ycol_pairs. apply map_ext_in. intros p Hp. apply pairs_in in Hp as [P1 P2].
    apply Ho; [exact P1|left; reflexivity|]. assert (t / m < steps / m) by (apply Nat.div_lt_upper_bound; [lia|nia]). nia.
Qed.
(** what does hold: the whole periods of the forecast only depend on the required forecasts *)
Theorem C90_whole_periods_partial : forall solve steps levels meth l1 l2 fl d1 d2,
  hierarchy levels ->
  let m := get_m levels in
  (forall k, In k levels -> steps / m * (m / k) <= length (l1 k) /\ steps / m * (m / k) <= length (l2 k)
       /\ firstn (steps / m * (m / k)) (l1 k) = firstn (steps / m * (m / k)) (l2 k)) ->
  predict solve steps levels meth (fun k => Given (l1 k)) fl = Some d1 ->
  predict solve steps levels meth (fun k => Given (l2 k)) fl = Some d2 ->
  forall k j, In k fl -> 1 <= k -> j * k + k <= steps / m * m -> (nth j (lookup k d1) 0 == nth j (lookup k d2) 0)%Q.
Proof.
  intros solve steps levels meth l1 l2 fl d1 d2 Hh m Hl E1 E2 k j Hk Hk1 Hj. pose proof Hh as (_ & H1 & Hp).
  pose proof (get_m_pos levels Hp) as Mp. fold m in Mp.
  assert (Hw : forall l, well_behaved (fun k => Given (l k)) levels) by (intros l q f n _ F; discriminate F).
  unfold predict in E1, E2. fold m in E1, E2.
  destruct (predict_origin steps m (is_bu meth) levels (fun k => Given (l1 k))) as [o1|] eqn:O1; [|discriminate].
  destruct (predict_origin steps m (is_bu meth) levels (fun k => Given (l2 k))) as [o2|] eqn:O2; [|discriminate].
  destruct (yhat solve steps levels m meth (fun k => lookup k o1)) as [y1|] eqn:Y1; [|discriminate].
  destruct (yhat solve steps levels m meth (fun k => lookup k o2)) as [y2|] eqn:Y2; [|discriminate].
  cbn [option_map] in E1, E2. injection E1 as <-. injection E2 as <-.
  pose proof (yhat_length _ _ _ _ _ _ _ Hh (Hw l1) O1 Y1) as L1. pose proof (yhat_length _ _ _ _ _ _ _ Hh (Hw l2) O2 Y2) as L2.
  assert (Hs : steps / m * m <= steps) by (rewrite Nat.mul_comm; apply Nat.mul_div_le; lia).
  assert (Hjk : j < steps / k) by (apply Nat.div_le_lower_bound; [lia|nia]).
  rewrite !(lookup_map _ fl k Hk), !nth_firstn_lt by exact Hjk.
  assert (D1 : steps / k <= length y1 / k) by (apply Nat.div_le_mono; lia).
  assert (D2 : steps / k <= length y2 / k) by (apply Nat.div_le_mono; lia).
  rewrite (aggregate_data_nth k y1 j Hk1) by lia. rewrite (aggregate_data_nth k y2 j Hk1) by lia.
  rewrite !block_sum_sumn. apply sumn_ext. intros t Ht.
  rewrite (yhat_prefix solve steps levels m meth (fun k => lookup k o1) (fun k => lookup k o2) y1 y2 Mp); [reflexivity| |exact H1| |exact Y1|exact Y2|lia].
  - intros q Hq. split; [apply Hp, Hq|apply get_m_divides; assumption].
  - intros q i Hq _ Hi. destruct (Hl q Hq) as (A & B & C). unfold freq in Hi.
    pose proof (predict_origin_lookup _ _ _ _ _ _ _ O1 Hq) as P1. pose proof (predict_origin_lookup _ _ _ _ _ _ _ O2 Hq) as P2. cbn beta in P1, P2.
    rewrite (origin1_given_prefix _ _ _ _ _ _ Mp P1 i Hi) by lia. rewrite (origin1_given_prefix _ _ _ _ _ _ Mp P2 i Hi) by lia.
    rewrite <- (nth_firstn_lt i _ (l1 q) 0%Q Hi), <- (nth_firstn_lt i _ (l2 q) 0%Q Hi), C. reflexivity.
Qed.
(** and too few supplied forecasts are refused *)
Theorem C90_too_few : forall solve steps levels meth bases fl k l,
  In k levels -> bases k = Given l -> (meth <> BU \/ k = 1) ->
  length l < steps / get_m levels * (get_m levels / k) ->
  predict solve steps levels meth bases fl = None.
Proof.
  intros solve steps levels meth bases fl k l Hk Hb Hm Hl. unfold predict. set (m := get_m levels) in *.
  assert (E : origin1 steps m (is_bu meth) k (bases k) = None).
  { rewrite Hb. unfold origin1. assert (Hc : steps / m <= ceil_div steps m).
    { unfold ceil_div. destruct m as [|m']; [cbn; lia|]. apply Nat.div_le_mono; lia. }
    unfold freq. destruct (Nat.ltb_spec (length l) (m / k * ceil_div steps m)) as [_|L]; [|nia].
    destruct (Nat.leb_spec (steps / m * (m / k)) (length l)) as [L|_]; [lia|].
    destruct Hm as [Hm| ->]; [destruct meth; [contradiction|reflexivity|reflexivity]|rewrite andb_false_r; reflexivity]. }
  assert (G : forall ls, In k ls -> predict_origin steps m (is_bu meth) ls bases = None).
  { induction ls as [|a ls IH]; intros H; [destruct H|]. cbn [predict_origin]. destruct H as [<-|H].
    - rewrite E. reflexivity.
    - rewrite (IH H). destruct (origin1 steps m (is_bu meth) a (bases a)); reflexivity. }
  rewrite (G levels Hk). reflexivity.
Qed.
Example C90_case : predict gauss_solve 6 [2; 1] BU (fun k => Given (by_level [] [3]%Q [1; 2; 3; 4; 5]%Q k)) [1] = None
  /\ option_map (lookup 2) (predict gauss_solve 5 [2; 1] BU (fun k => Given (by_level [] [3]%Q [1; 2; 3; 4; 5]%Q k)) [1; 2]) = Some [1+(2+0); 3+(4+0)]%Q.
Proof. split; vm_compute; reflexivity. Qed.

(** ** C92 training series of level [k] *)
Lemma agg_values_go k l : k <> 1 -> k <= length l -> agg_values k l = Some (reshape_sum k (length l / k) (skipn (length l - length l / k * k) l)).
Proof.
  intros Hk Hl. unfold agg_values. destruct (Nat.eqb_spec k 1); [contradiction|].
  destruct (Nat.ltb_spec (length l) k); [lia|]. reflexivity.
Qed.
(** the complete blocks of [k] values counted from the end of the series, their sums and end times *)
Theorem C92_blocks : forall k l t, 1 <= k -> length t = length l ->
  (length l < k -> k <> 1 -> agg_values k l = None /\ agg_times k t = None)
  /\ (k <= length l -> exists v s, agg_values k l = Some v /\ agg_times k t = Some s
      /\ length v = length l / k /\ length s = length l / k
      /\ forall j, j < length l / k ->
         (nth j v 0 == sumn k (fun i => nth (length l - (length l / k - j) * k + i) l 0))%Q
         /\ nth j s 0%Z = nth (length l - (length l / k - j) * k + (k - 1)) t 0%Z).
Proof.
  intros k l t Hk Ht. split.
  - intros L Hk1. unfold agg_values, agg_times. rewrite Ht. destruct (Nat.eqb_spec k 1); [contradiction|].
    destruct (Nat.ltb_spec (length l) k); [|lia]. split; reflexivity.
  - intros L. set (n := length l) in *. assert (Hb : n / k * k <= n) by (rewrite Nat.mul_comm; apply Nat.mul_div_le; lia).
    destruct (Nat.eq_dec k 1) as [->|Ne].
    + exists l, t. split; [reflexivity|]. split; [reflexivity|]. rewrite Nat.div_1_r. split; [reflexivity|]. split; [exact Ht|].
      intros j Hj. cbn [sumn]. replace (n - (n - j) * 1 + 0) with j by lia. replace (n - (n - j) * 1 + (1 - 1)) with j by lia. split; [ring|reflexivity].
    + exists (reshape_sum k (n / k) (skipn (n - n / k * k) l)).
      exists (map (fun j => nth (n - n / k * k + k - 1 + j * k) t 0%Z) (seq 0 (n / k))).
      split; [apply agg_values_go; assumption|]. split.
      { unfold agg_times. rewrite Ht. fold n. destruct (Nat.eqb_spec k 1); [contradiction|]. destruct (Nat.ltb_spec n k); [lia|reflexivity]. }
      split; [apply reshape_sum_length|]. split; [rewrite map_length, seq_length; reflexivity|]. intros j Hj.
      assert (E : n - (n / k - j) * k = n - n / k * k + j * k) by nia. split.
      * rewrite reshape_sum_nth by exact Hj. rewrite block_sum_sumn. apply sumn_ext. intros i Hi. rewrite nth_skipn_add. rewrite E.
        rewrite Nat.add_assoc. reflexivity.
      * set (f := fun j => nth (n - n / k * k + k - 1 + j * k) t 0%Z).
        rewrite (nth_indep _ 0%Z (f 0)) by (rewrite map_length, seq_length; exact Hj). rewrite (map_nth f), seq_nth by exact Hj. unfold f. cbn [plus].
        f_equal. rewrite E. lia.
Qed.
(** aggregating by [a] and then by [b] is aggregating by [a * b] *)
Lemma sumn_blocks a b f : (sumn b (fun j => sumn a (fun i => f (j * a + i)%nat)) == sumn (a * b) f)%Q.
Proof.
  induction b as [|b IH]; [rewrite Nat.mul_0_r; reflexivity|]. replace (a * S b) with (a * b + a) by lia. rewrite sumn_split. cbn [sumn].
  rewrite IH, (sumn_ext a (fun i => f (a * b + i)%nat) (fun i => f (b * a + i)%nat)); [reflexivity|].
  intros i _. rewrite (Nat.mul_comm a b). reflexivity.
Qed.
Theorem C92_compose : forall a b l u, 1 <= a -> 1 <= b -> a * b <= length l -> agg_values a l = Some u ->
  exists v w, agg_values b u = Some v /\ agg_values (a * b) l = Some w
    /\ length v = length w /\ forall j, j < length w -> (nth j v 0 == nth j w 0)%Q.
Proof.
  intros a b l u Ha Hb Hl Hu.
  destruct (proj2 (C92_blocks a l (repeat 0%Z (length l)) Ha (repeat_length _ _)) ltac:(nia)) as (u' & su & Eu & _ & Lu & _ & Nu).
  rewrite Hu in Eu. injection Eu as <-.
  assert (Hbu : b <= length u) by (rewrite Lu; apply Nat.div_le_lower_bound; lia).
  destruct (proj2 (C92_blocks b u (repeat 0%Z (length u)) Hb (repeat_length _ _)) Hbu) as (v & sv & Ev & _ & Lv & _ & Nv).
  destruct (proj2 (C92_blocks (a * b) l (repeat 0%Z (length l)) ltac:(nia) (repeat_length _ _)) Hl) as (w & sw & Ew & _ & Lw & _ & Nw).
  exists v, w. split; [exact Ev|]. split; [exact Ew|].
  assert (E : length u / b = length l / (a * b)) by (rewrite Lu; apply Nat.div_div; lia).
  split; [congruence|]. intros j Hj. rewrite Lw in Hj. destruct (Nw j Hj) as [W _]. destruct (Nv j ltac:(lia)) as [V _]. rewrite V, W.
  rewrite <- (sumn_blocks a b). apply sumn_ext. intros i Hi.
  assert (B1 : length l / (a * b) * b <= length u).
  { rewrite <- E, Nat.mul_comm. apply Nat.mul_div_le. lia. }
  assert (B2 : length u * a <= length l) by (rewrite Lu, Nat.mul_comm; apply Nat.mul_div_le; lia).
  set (q := length l / (a * b)) in *. rewrite E. clearbody q.
  assert (Hp : length u - (q - j) * b + i < length l / a) by (rewrite <- Lu; nia).
  destruct (Nu _ Hp) as [U _]. rewrite U. apply sumn_ext. intros r Hr. rewrite <- Lu.
  replace (length l - (length u - (length u - (q - j) * b + i)) * a + r) with (length l - (q - j) * (a * b) + (i * a + r)); [reflexivity|].
  assert (A1 : (q - j) * b <= length u) by nia.
  assert (A2 : (q - j) * b = i + ((q - j) * b - i)) by nia.
  set (d := (q - j) * b) in *. replace ((q - j) * (a * b)) with (d * a) by (unfold d; ring). clearbody d.
  replace (length u - (length u - d + i)) with (d - i) by lia.
  assert (d * a <= length l) by nia. rewrite Nat.mul_sub_distr_r. assert (i * a <= d * a) by nia. lia.
Qed.
Example C92_case : agg_values 2 [1; 2; 3; 4; 5]%Q = Some [2+(3+0); 4+(5+0)]%Q
  /\ agg_times 2 [10; 20; 30; 40; 50]%Z = Some [30; 50]%Z
  /\ agg_values 4 [1; 2; 3; 4; 5]%Q = Some [2+(3+(4+(5+0)))]%Q.
Proof. repeat split; reflexivity. Qed.

Print Assumptions C51_lcm.
Print Assumptions C51_summation_matrix.
Print Assumptions C51_rows.
Print Assumptions C50_coherent.
Print Assumptions C50_times.
Print Assumptions C52_fixed_point.
Print Assumptions C52_predict.
Print Assumptions C91_weights_positive.
Print Assumptions C91_least_squares.
Print Assumptions C91_solvable.
Print Assumptions C93_median_refuted.
Print Assumptions C93_median_partial.
Print Assumptions C90_padding_ignored_refuted.
Print Assumptions C90_repeats_last_refuted.
Print Assumptions C90_whole_periods_partial.
Print Assumptions C90_too_few.
Print Assumptions C92_blocks.
Print Assumptions C92_compose.
