(** C56: the blocks of the ensemble interval; C130: its bands; C131: its chains in a pool. *)
From Coq Require Import Reals Lra Lia List Arith ZArith Bool Psatz.
From Verif Require Import PySlice PercChangeModel PercChangeSpec PercChangeProofs EmpIntervalProofs HeuristicProps EpiModel EpiSpec.
Import ListNotations.
Open Scope R_scope.

(** ** C56 *)
(** Accepted settings: at least 5+1 blocks of at least 10 values fit in the series; a missing setting is the largest
    that fits. *)
Theorem C56_settings : forall n_ts block_size n_block b n,
  settings n_ts block_size n_block = Some (b, n) <->
  (10 <= b /\ 5 <= n /\ (n + 1) * b <= n_ts)%nat /\
  ((block_size = Some b /\ n_block = Some n) \/
   (block_size = None /\ n_block = Some n /\ n_ts < (n + 1) * (b + 1))%nat \/
   (block_size = Some b /\ n_block = None /\ n_ts < (n + 2) * b)%nat).
Proof.
  intros L bs0 nb0 b n. unfold settings. destruct bs0 as [b0|], nb0 as [n0|].
  - destruct (Nat.ltb_spec b0 10); [split; [discriminate|]; intros (A & [[E F]|[[E _]|[_ [F _]]]]); try discriminate; injection E as ->; lia|].
    destruct (Nat.ltb_spec n0 5); [split; [discriminate|]; intros (A & [[E F]|[[E _]|[_ [F _]]]]); try discriminate; injection F as ->; lia|].
    destruct (Nat.ltb_spec L ((n0 + 1) * b0)); [split; [discriminate|]; intros (A & [[E F]|[[E _]|[_ [F _]]]]); try discriminate; injection E as ->; injection F as ->; lia|].
    split; [intros E; injection E as -> ->; split; [lia|left; split; reflexivity]|]. intros (A & [[E F]|[[E _]|[_ [F _]]]]); try discriminate. injection E as ->. injection F as ->. reflexivity.
  - destruct (Nat.ltb_spec b0 10); [split; [discriminate|]; intros (A & [[E F]|[[E _]|[E [F _]]]]); try discriminate; injection E as ->; lia|]. cbv zeta.
    pose proof (Nat.div_mod L b0 ltac:(lia)) as DM. pose proof (Nat.mod_upper_bound L b0 ltac:(lia)) as MB. destruct (Nat.ltb_spec (L / b0 - 1) 5) as [S5|S5].
    + split; [discriminate|]. intros (A & [[E F]|[[E _]|[E [F G]]]]); try discriminate. injection E as ->. assert (n + 1 <= L / b)%nat by (apply Nat.div_le_lower_bound; lia). lia.
    + split; [intros E; injection E as -> <-; split; [split; [lia|]; split; [lia|]; nia|right; right; split; [reflexivity|]; split; [reflexivity|]; nia]|]. intros (A & [[E F]|[[E _]|[E [F G]]]]); try discriminate. injection E as ->. f_equal. f_equal.
      assert (n + 1 <= L / b)%nat by (apply Nat.div_le_lower_bound; lia). assert (L / b < n + 2)%nat by (apply Nat.div_lt_upper_bound; lia). lia.
  - destruct (Nat.ltb_spec n0 5); [split; [discriminate|]; intros (A & [[E F]|[[E [F _]]|[E [F _]]]]); try discriminate; injection F as ->; lia|]. cbv zeta.
    pose proof (Nat.div_mod L (n0 + 1) ltac:(lia)) as DM. pose proof (Nat.mod_upper_bound L (n0 + 1) ltac:(lia)) as MB. destruct (Nat.ltb_spec (L / (n0 + 1)) 10) as [S5|S5].
    + split; [discriminate|]. intros (A & [[E F]|[[E [F G]]|[E [F G]]]]); try discriminate. injection F as ->. assert (b <= L / (n + 1))%nat by (apply Nat.div_le_lower_bound; lia). lia.
    + split; [intros E; injection E as <- ->; split; [split; [lia|]; split; [lia|]; nia|right; left; split; [reflexivity|]; split; [reflexivity|]; nia]|]. intros (A & [[E F]|[[E [F G]]|[E [F G]]]]); try discriminate. injection F as ->. f_equal. f_equal.
      assert (b <= L / (n + 1))%nat by (apply Nat.div_le_lower_bound; lia). assert (L / (n + 1) < b + 1)%nat by (apply Nat.div_lt_upper_bound; lia). lia.
  - split; [discriminate|]. intros (A & [[E F]|[[E [F G]]|[E [F G]]]]); discriminate.
Qed.
Lemma tail_R (v : list R) k : (0 < k)%nat -> (k <= length v)%nat -> py_slice v (Some (- Z.of_nat k))%Z None = skipn (length v - k) v.
Proof.
  intros H L. unfold py_slice, norm_idx. destruct (Z.ltb_spec (- Z.of_nat k) 0); [|lia]. replace (Z.max 0 (- Z.of_nat k + Z.of_nat (length v)))%Z with (Z.of_nat (length v - k)) by lia.
  rewrite Nat2Z.id. apply firstn_all2. rewrite skipn_length. lia.
Qed.
Lemma slice_block (l : list R) b i : ((i + 1) * b <= length l)%nat -> slice l (i * b) ((i + 1) * b) = block b i l.
Proof. intros H. unfold slice. rewrite py_slice_in by lia. unfold block. rewrite Nat2Z.id. f_equal. lia. Qed.
Lemma init_inv ts block_size n_block size e : epi_init ts block_size n_block size = Some e ->
  settings (length ts) block_size n_block = Some (bs e, nb e) /\ (4 <= size)%nat /\ EpiModel.size e = size /\ ensemble e = None /\
  (10 <= bs e)%nat /\ (5 <= nb e)%nat /\ ((nb e + 1) * bs e <= length ts)%nat /\ kept e = skipn (length ts - (nb e + 1) * bs e) ts.
Proof.
  unfold epi_init. destruct (settings (length ts) block_size n_block) as [[b n]|] eqn:E; [|discriminate]. destruct (Nat.ltb_spec size 4); [discriminate|]. intros H0. apply (f_equal (fun o => match o with Some z => z | None => e end)) in H0. subst e. cbn [bs nb kept EpiModel.size ensemble].
  pose proof (proj1 (C56_settings _ _ _ _ _) E) as [A _]. split; [reflexivity|]. split; [assumption|]. split; [reflexivity|]. split; [reflexivity|]. split; [lia|]. split; [lia|]. split; [lia|].
  replace (- Z.of_nat b * (Z.of_nat n + 1))%Z with (- Z.of_nat ((n + 1) * b))%Z by lia. apply tail_R; nia.
Qed.
(** The object keeps the last n_block + 1 full blocks of the series. *)
Theorem C56_blocks : forall ts block_size n_block size e, epi_init ts block_size n_block size = Some e ->
  settings (length ts) block_size n_block = Some (bs e, nb e) /\ (4 <= size)%nat /\
  length (kept e) = ((nb e + 1) * bs e)%nat /\ (exists before, ts = before ++ kept e) /\
  kept e = concat (map (fun i => block (bs e) i (kept e)) (seq 0 (nb e + 1))) /\
  forall i, (i <= nb e)%nat -> length (block (bs e) i (kept e)) = bs e.
Proof.
  intros ts block_size n_block size e H. apply init_inv in H as (S & Z & _ & _ & B & N & L & K). split; [exact S|]. split; [exact Z|]. assert (LK : length (kept e) = ((nb e + 1) * bs e)%nat) by (rewrite K, skipn_length; lia). split; [exact LK|].
  split; [exists (firstn (length ts - (nb e + 1) * bs e) ts); rewrite K; symmetry; apply firstn_skipn|]. split.
  - assert (G : forall m (l : list R), length l = (m * bs e)%nat -> l = concat (map (fun i => block (bs e) i l) (seq 0 m))).
    { clear. intros m. induction m as [|m IH]; intros l L; [destruct l; [reflexivity|discriminate]|]. cbn [seq map concat]. unfold block at 1. cbn [Nat.mul skipn]. rewrite <- (firstn_skipn (bs e) l) at 1. f_equal.
      rewrite <- seq_shift, map_map. rewrite (IH (skipn (bs e) l)) at 1 by (rewrite skipn_length; lia). f_equal. apply map_ext. intros i. unfold block. f_equal. cbn [Nat.mul]. generalize (i * bs e)%nat. intros k. clear. generalize (bs e). intros b. revert l. induction b as [|b IHb]; intros l; [reflexivity|]. destruct l as [|x l]; [rewrite !skipn_nil; reflexivity|]. cbn. apply IHb. }
    apply G, LK.
  - intros i Hi. unfold block. rewrite firstn_length, skipn_length, LK. assert ((i + 1) * bs e <= (nb e + 1) * bs e)%nat by (apply Nat.mul_le_mono_r; lia). nia.
Qed.
Lemma nth_map_any {A B} (f : A -> B) l j d d' : (j < length l)%nat -> nth j (map f l) d' = f (nth j l d).
Proof. intros H. rewrite (nth_indep _ d' (f d)) by (rewrite map_length; exact H). apply map_nth. Qed.
Section Learner.
Variable learn : list R -> nat -> list R.
Hypothesis learn_length : forall l k, length (learn l k) = k.
Lemma nth_block (l : list R) b i j : (j < b)%nat -> nth j (block b i l) 0 = nth (i * b + j) l 0.
Proof.
  intros H. unfold block. rewrite <- (firstn_skipn (i * b) l) at 2. revert H. generalize (i * b)%nat as k. intros k H. rewrite <- (firstn_skipn b (skipn k l)) at 2. destruct (le_lt_dec k (length l)) as [HL|HL].
  - rewrite (app_nth2 (firstn k l)) by (rewrite firstn_length; lia). rewrite firstn_length. replace (k + j - Nat.min k (length l))%nat with j by lia. destruct (le_lt_dec (length (firstn b (skipn k l))) j) as [J|J]; [|rewrite app_nth1 by exact J; reflexivity].
    rewrite (nth_overflow (firstn b (skipn k l))) by exact J. rewrite firstn_length in J. rewrite nth_overflow; [reflexivity|]. rewrite app_length, firstn_length, !skipn_length in *. lia.
  - rewrite (skipn_all2 l) by lia. rewrite firstn_nil, skipn_nil, !app_nil_r. rewrite (nth_overflow (firstn k l)) by (rewrite firstn_length; lia). destruct j; reflexivity.
Qed.
(** Row i of the error matrix is block i+1 minus the forecast from block i alone. *)
Theorem C56_errors : forall ts block_size n_block size e, epi_init ts block_size n_block size = Some e ->
  length (error_matrix learn e) = nb e /\
  forall i, (i < nb e)%nat -> length (nth i (error_matrix learn e) []) = bs e /\
    forall j, (j < bs e)%nat ->
      nth j (nth i (error_matrix learn e) []) 0 = nth (length ts - (nb e + 1) * bs e + (i + 1) * bs e + j) ts 0 - nth j (learn (block (bs e) i (kept e)) (bs e)) 0.
Proof.
  intros ts block_size n_block size e H. destruct (C56_blocks _ _ _ _ _ H) as (_ & _ & LK & _ & _ & LB). apply init_inv in H as (_ & _ & _ & _ & B & N & L & K). split; [unfold error_matrix; rewrite map_length, seq_length; reflexivity|].
  intros i Hi. assert (E : nth i (error_matrix learn e) [] = minus2 (block (bs e) (i + 1) (kept e)) (learn (block (bs e) i (kept e)) (bs e))).
  { unfold error_matrix. rewrite (nth_indep _ [] (error_row learn e 0)) by (rewrite map_length, seq_length; exact Hi). rewrite map_nth, seq_nth by exact Hi. cbn [Nat.add]. unfold error_row. rewrite slice_block by (rewrite LK; apply Nat.mul_le_mono_r; lia). replace (i + 2)%nat with (i + 1 + 1)%nat by lia. rewrite slice_block by (rewrite LK; apply Nat.mul_le_mono_r; lia). reflexivity. }
  rewrite E. unfold minus2. split; [rewrite map_length, combine_length, learn_length, LB by lia; lia|]. intros j Hj.
  rewrite (nth_map_any _ _ _ (0, 0)) by (rewrite combine_length, learn_length, LB by lia; lia). rewrite combine_nth by (rewrite learn_length; apply LB; lia). cbn [fst snd]. f_equal. rewrite nth_block by exact Hj. rewrite K.
  rewrite nth_skip. f_equal. lia.
Qed.
Lemma plus2_len l m : length l = length m -> length (plus2 l m) = length l.
Proof. intros H. unfold plus2. rewrite map_length, combine_length. lia. Qed.
Lemma plus2_nth l m j : length l = length m -> (j < length l)%nat -> nth j (plus2 l m) 0 = nth j l 0 + nth j m 0.
Proof.
  intros H Hj. unfold plus2. rewrite (nth_map_any _ _ _ (0, 0)) by (rewrite combine_length; lia). rewrite combine_nth by exact H. reflexivity.
Qed.
Section Chain.
Variable (b : nat) (draws : nat -> list R).
Hypothesis draws_length : forall k, length (draws k) = b.
Hypothesis b_pos : (0 < b)%nat.
Definition train_of (rolling : bool) (t0 full : list R) (i : nat) : list R :=
  if rolling then t0 ++ firstn (i * b) full else match i with O => t0 | Datatypes.S i => block b i full end.
Lemma chain_ok rolling m : forall k t0, length (chain learn b rolling draws k m t0) = (m * b)%nat /\
  forall i j, (i < m)%nat -> (j < b)%nat -> nth (i * b + j) (chain learn b rolling draws k m t0) 0 = nth j (learn (train_of rolling t0 (chain learn b rolling draws k m t0) i) b) 0 + nth j (draws (k + i)) 0.
Proof.
  induction m as [|m IH]; intros k t0; [split; [reflexivity|lia]|]. cbn [chain]. set (f := plus2 (learn t0 b) (draws k)). assert (LF : length f = b) by (unfold f; rewrite plus2_len; rewrite learn_length, ?draws_length; reflexivity).
  specialize (IH (k + 1)%nat (if rolling then t0 ++ f else f)). set (rest := chain learn b rolling draws (k + 1) m _) in *. destruct IH as [IL IN]. split; [rewrite app_length, LF, IL; lia|]. intros [|i] j Hi Hj.
  - cbn [Nat.mul Nat.add]. rewrite app_nth1 by lia. rewrite Nat.add_0_r. unfold f. rewrite plus2_nth by (rewrite learn_length, ?draws_length; trivial). f_equal. f_equal. f_equal. unfold train_of. destruct rolling; [cbn; rewrite app_nil_r; reflexivity|reflexivity].
  - rewrite app_nth2 by (cbn; lia). replace (Datatypes.S i * b + j - length f)%nat with (i * b + j)%nat by (rewrite LF; cbn; lia). rewrite IN by lia. replace (k + 1 + i)%nat with (k + Datatypes.S i)%nat by lia. f_equal. f_equal. f_equal. unfold train_of. destruct rolling.
    + rewrite <- app_assoc. f_equal. cbn [Nat.mul]. rewrite firstn_app, LF. rewrite (firstn_all2 f) by lia. f_equal. f_equal. lia.
    + destruct i as [|i]; [unfold block; cbn [Nat.mul skipn]; rewrite firstn_app, LF, Nat.sub_diag; cbn [firstn]; rewrite app_nil_r, firstn_all2 by lia; reflexivity|].
      unfold block. f_equal. cbn [Nat.mul]. rewrite skipn_app, LF. rewrite (skipn_all2 f) by lia. cbn [app]. f_equal. lia.
Qed.
End Chain.
Lemma future_block_ok step b : (0 < b)%nat -> (step <= future_block step b * b < step + b)%nat.
Proof.
  intros H. unfold future_block. pose proof (Nat.div_mod step b ltac:(lia)) as DM. pose proof (Nat.mod_upper_bound step b ltac:(lia)) as MB. destruct (Nat.ltb_spec 0 (step mod b)); nia.
Qed.
(** Every chain has the requested number of steps; it is cut from a whole number of blocks, each the forecast from the block
    before it (with [rolling_based], from everything before it) plus a draw, the first from the last block kept. *)
Theorem C56_projection : forall ts block_size n_block size e step rolling draws k, epi_init ts block_size n_block size = Some e -> (forall i, length (draws i) = bs e) ->
  exists m full, (step <= m * bs e < step + bs e)%nat /\
    is_chain learn (bs e) rolling (kept e) (fun i => draws (k + i)%nat) m full /\
    projection_single learn e step rolling draws k = firstn step full /\ length (projection_single learn e step rolling draws k) = step.
Proof.
  intros ts block_size n_block size e step rolling draws k H DL. destruct (C56_blocks _ _ _ _ _ H) as (_ & _ & LK & _ & _ & LB). apply init_inv in H as (_ & _ & _ & _ & B & N & L & K).
  pose proof (future_block_ok step (bs e) ltac:(lia)) as FB. exists (future_block step (bs e)). unfold projection_single. rewrite tail_R by nia. set (t0 := if rolling then kept e else _). destruct (chain_ok (bs e) draws DL ltac:(lia) rolling (future_block step (bs e)) k t0) as [CL CN].
  set (full := chain learn (bs e) rolling draws k (future_block step (bs e)) t0) in *. exists full. split; [exact FB|]. split; [|split; [reflexivity|rewrite firstn_length; lia]]. split; [exact CL|]. intros i j Hi Hj. rewrite CN by assumption. f_equal. f_equal. f_equal. unfold train_of, training, t0. destruct rolling; [reflexivity|]. destruct i; reflexivity.
Qed.
(** and there is one chain per member of the ensemble, each with its own draws *)
Theorem C56_ensemble : forall ts block_size n_block size e step rolling draws, epi_init ts block_size n_block size = Some e -> (forall i, length (draws i) = bs e) ->
  exists m, length (projection learn e step rolling draws) = size /\
    forall c, (c < size)%nat -> exists full, is_chain learn (bs e) rolling (kept e) (fun i => draws (c * m + i)%nat) m full /\ nth c (projection learn e step rolling draws) [] = firstn step full /\ length (firstn step full) = step.
Proof.
  intros ts block_size n_block size e step rolling draws H DL. exists (future_block step (bs e)). pose proof (init_inv _ _ _ _ _ H) as (_ & _ & SZ & _ & B & _). unfold projection. rewrite map_length, seq_length, SZ. split; [reflexivity|]. intros c Hc.
  destruct (C56_projection _ _ _ _ _ step rolling draws (c * future_block step (bs e)) H DL) as (m & full & Hm & CH & E & LE). assert (M : m = future_block step (bs e)) by (pose proof (future_block_ok step (bs e) ltac:(lia)); nia). subst m. exists full. split; [exact CH|].
  rewrite <- E. split; [|exact LE]. rewrite (nth_indep _ [] (projection_single learn e step rolling draws (0 * future_block step (bs e)))) by (rewrite map_length, seq_length; exact Hc). rewrite (map_nth (fun idx => projection_single learn e step rolling draws (idx * future_block step (bs e)))), seq_nth by exact Hc. reflexivity.
Qed.
End Learner.

(** ** C130 *)
Lemma deviation_ok l : l <> [] -> deviation_of (sqrt (rsum (map (fun x => (x - rmean l) * (x - rmean l)) l) / len l)) l.
Proof.
  intros H. assert (P : 0 < len l) by (unfold len; apply lt_0_INR; destruct l; [contradiction|cbn; lia]). split; [apply sqrt_pos|]. exists (rsum (map (fun x => (x - rmean l) * (x - rmean l)) l)). split.
  - exists (rmean l). split; [split; [exact H|rewrite <- rsum_fold; unfold rmean, len in *; field; lra]|]. rewrite rsum_fold. f_equal. apply map_ext. intros; ring.
  - set (q := rsum _). assert (0 <= q) by (unfold q; apply (S_nonneg (fun x => (x - rmean l) * (x - rmean l))); intros x _; apply (Rle_0_sqr (x - rmean l))). fold (len l). rewrite sqrt_sqrt by (apply Rmult_le_pos; [assumption|left; apply Rinv_0_lt_compat; lra]). field. lra.
Qed.
Section Bands.
Variable tq : R -> nat -> R.
Variable learn : list R -> nat -> list R.
Lemma bands_nth level step ens i : ens <> [] -> (i < step)%nat -> exists m s, mean_of m (map (fun r => nth i r 0) ens) /\ deviation_of s (map (fun r => nth i r 0) ens) /\ nth i (bands tq level step ens) (0, 0, 0) = (m, m - s * tq level (length ens), m + s * tq level (length ens)).
Proof.
  intros NE Hi. set (col := map (fun r => nth i r 0) ens). assert (NC : col <> []) by (unfold col; destruct ens; [contradiction|discriminate]). exists (rmean col), (sqrt (rsum (map (fun x => (x - rmean col) * (x - rmean col)) col) / len col)).
  split; [|split; [apply deviation_ok, NC|]].
  - assert (P : 0 < len col) by (unfold len; apply lt_0_INR; destruct col; [contradiction|cbn; lia]). split; [exact NC|]. rewrite <- rsum_fold. unfold rmean, len in *. field. lra.
  - unfold bands. set (g := fun i => mean_confidence_interval (tq level (length ens)) (map (fun r => nth i r 0) ens)). rewrite (nth_indep _ (0, 0, 0) (g 0%nat)) by (rewrite map_length, seq_length; exact Hi). rewrite map_nth, seq_nth by exact Hi. reflexivity.
Qed.
(** The band of a projection is the mean of the ensemble plus and minus its deviation times the t quantile, one row per step. *)
Theorem C130_bands : forall ts block_size n_block size e step rolling level draws, epi_init ts block_size n_block size = Some e ->
  exists ens, ens = projection learn e step rolling draws /\ length ens = size /\
  length (fst (get_projection tq learn e step rolling level draws)) = step /\
  forall i, (i < step)%nat -> exists m s, mean_of m (map (fun r => nth i r 0) ens) /\ deviation_of s (map (fun r => nth i r 0) ens) /\
    nth i (fst (get_projection tq learn e step rolling level draws)) (0, 0, 0) = (m, m - s * tq level size, m + s * tq level size).
Proof.
  intros ts block_size n_block size e step rolling level draws H. pose proof (init_inv _ _ _ _ _ H) as (_ & S4 & SZ & _). exists (projection learn e step rolling draws). assert (LE : length (projection learn e step rolling draws) = size) by (unfold projection; rewrite map_length, seq_length; exact SZ).
  split; [reflexivity|]. split; [exact LE|]. split; [cbn [get_projection fst]; unfold bands; rewrite map_length, seq_length; reflexivity|]. intros i Hi. cbn [get_projection fst]. rewrite <- LE. apply bands_nth; [|exact Hi]. intros E. rewrite E in LE. cbn in LE. lia.
Qed.
(** Bands for another level use the same ensemble: same level, same result; a higher level gives a band around the same
    centre that contains the lower one; without a projection they raise. *)
Theorem C130_levels : forall ts block_size n_block size e step rolling level draws, epi_init ts block_size n_block size = Some e -> (forall l k, length (learn l k) = k) -> (forall i, length (draws i) = bs e) ->
  get_band tq e level = None /\
  get_band tq (snd (get_projection tq learn e step rolling level draws)) level = Some (fst (get_projection tq learn e step rolling level draws)) /\
  forall level', 0 <= tq level size <= tq level' size ->
    exists rows, get_band tq (snd (get_projection tq learn e step rolling level draws)) level' = Some rows /\ length rows = step /\
      forall i m lo up, (i < step)%nat -> nth i (fst (get_projection tq learn e step rolling level draws)) (0, 0, 0) = (m, lo, up) ->
        exists lo' up', nth i rows (0, 0, 0) = (m, lo', up') /\ lo' <= lo <= m /\ m <= up <= up'.
Proof.
  intros ts block_size n_block size e step rolling level draws H LL DL. pose proof (init_inv _ _ _ _ _ H) as (_ & S4 & SZ & EN & _). split; [unfold get_band; rewrite EN; reflexivity|].
  destruct (C56_ensemble learn LL _ _ _ _ _ step rolling draws H DL) as (m0 & LE & CH). assert (L0 : length (nth 0 (projection learn e step rolling draws) []) = step) by (destruct (CH 0%nat ltac:(lia)) as (full & _ & -> & LF); exact LF).
  assert (G : forall lv, get_band tq (snd (get_projection tq learn e step rolling level draws)) lv = Some (bands tq lv step (projection learn e step rolling draws))) by (intros lv; cbn [get_projection snd get_band ensemble]; rewrite L0; reflexivity).
  split; [rewrite G; reflexivity|]. intros level' Q. rewrite G. eexists. split; [reflexivity|]. split; [unfold bands; rewrite map_length, seq_length; reflexivity|]. intros i m lo up Hi E. cbn [get_projection fst] in E.
  assert (NE : projection learn e step rolling draws <> []) by (intros Z; rewrite Z in LE; cbn in LE; lia). unfold bands in *. set (ens := projection learn e step rolling draws) in *.
  set (g := fun lv i => mean_confidence_interval (tq lv (length ens)) (map (fun r => nth i r 0) ens)) in *.
  assert (EE : forall lv, nth i (map (fun i => mean_confidence_interval (tq lv (length ens)) (map (fun r => nth i r 0) ens)) (seq 0 step)) (0, 0, 0) = g lv i). { intros lv. change (fun i => mean_confidence_interval (tq lv (length ens)) (map (fun r => nth i r 0) ens)) with (g lv). rewrite (nth_indep _ (0, 0, 0) (g lv 0%nat)) by (rewrite map_length, seq_length; exact Hi). rewrite map_nth, seq_nth by exact Hi. reflexivity. }
  rewrite EE in *. unfold g, mean_confidence_interval in *. rewrite LE in *. set (se := sqrt _) in *. assert (0 <= se) by apply sqrt_pos. injection E as <- <- <-. eexists. eexists. split; [reflexivity|]. split; split; nra.
Qed.
End Bands.

(** ** C131 *)
(** With one process per chain all chains are equal, so that every band has width zero, whatever the data and the level. *)
Theorem C131_pool_refuted : forall tq learn worker ts block_size n_block size e step rolling level draws, epi_init ts block_size n_block size = Some e ->
  (forall c c', worker c = worker c' -> c = c') ->
  (forall c c', (c < size)%nat -> (c' < size)%nat -> nth c (projection_pool learn worker e step rolling draws) [] = nth c' (projection_pool learn worker e step rolling draws) []) /\
  forall i, (i < step)%nat -> exists m, nth i (bands tq level step (projection_pool learn worker e step rolling draws)) (0, 0, 0) = (m, m, m).
Proof.
  intros tq learn worker ts block_size n_block size e step rolling level draws H INJ. pose proof (init_inv _ _ _ _ _ H) as (_ & S4 & SZ & EN & _).
  assert (Z : forall c, done_before worker c = 0%nat). { intros c. unfold done_before. assert (F : forall l, (forall j, In j l -> (j < c)%nat) -> filter (fun j => worker j =? worker c)%nat l = []). { induction l as [|j l IH]; intros HL; [reflexivity|]. cbn. destruct (Nat.eqb_spec (worker j) (worker c)) as [E|E]; [apply INJ in E; specialize (HL j (or_introl eq_refl)); lia|]. apply IH. intros; apply HL; right; assumption. } rewrite F; [reflexivity|]. intros j Hj. apply in_seq in Hj. lia. }
  set (r0 := projection_single learn e step rolling draws 0). assert (E : projection_pool learn worker e step rolling draws = repeat r0 size). { unfold projection_pool. rewrite SZ. clear - Z. assert (G : forall k, map (fun idx => projection_single learn e step rolling draws (done_before worker idx * future_block step (bs e))) (seq k size) = repeat r0 size) by (induction size as [|s IH]; intros k; [reflexivity|]; cbn [seq map repeat]; rewrite Z, IH; reflexivity). apply G. }
  rewrite E. split.
  - assert (G : forall c, (c < size)%nat -> nth c (repeat r0 size) [] = r0) by (intros c Hc; rewrite (nth_indep _ [] r0) by (rewrite repeat_length; exact Hc); apply nth_repeat). intros c c' Hc Hc'. rewrite !G by assumption. reflexivity.
  - intros i Hi. assert (NE : repeat r0 size <> []) by (destruct size; [lia|discriminate]). destruct (bands_nth tq level step (repeat r0 size) i NE Hi) as (m & s & (_ & M) & (S0 & q & (m' & (_ & M') & Q) & S1) & ->). exists m.
    assert (C : map (fun r => nth i r 0) (repeat r0 size) = repeat (nth i r0 0) size) by (clear; induction size as [|n IH]; [reflexivity|]; cbn [repeat map]; rewrite IH; reflexivity). rewrite C in *. rewrite repeat_length in *. assert (P : 0 < INR size) by (apply lt_0_INR; lia).
    assert (FR : forall x n, fold_right Rplus 0 (repeat x n) = x * INR n) by (intros x n; induction n as [|n IH]; [cbn; ring|]; cbn [repeat fold_right]; rewrite IH, S_INR; ring). rewrite FR in *. assert (EM : m' = nth i r0 0) by (apply (Rmult_eq_reg_r (INR size)); [exact M'|lra]). subst m'.
    assert (MR : map (fun x => (x - nth i r0 0) ^ 2) (repeat (nth i r0 0) size) = repeat 0 size) by (clear; induction size as [|n IH]; [reflexivity|]; cbn [repeat map]; rewrite IH; f_equal; ring). rewrite MR, FR in Q. rewrite Q, Rmult_0_l in S1. assert (Z0 : s = 0) by (apply Rmult_integral in S1 as [S1|S1]; [apply Rmult_integral in S1 as [S1|S1]; exact S1|lra]). rewrite Z0. f_equal; [f_equal|]; ring.
Qed.
(** In one process, or when all chains run on the same process of the pool, the chains have separate draws. *)
Theorem C131_one_worker : forall learn worker e step rolling draws, (forall c c', worker c = worker c') ->
  projection_pool learn worker e step rolling draws = projection learn e step rolling draws.
Proof.
  intros learn worker e step rolling draws H. unfold projection_pool, projection. apply map_ext. intros c. f_equal. f_equal. unfold done_before. rewrite <- (seq_length c 0) at 2. f_equal. assert (G : forall l, filter (fun j => worker j =? worker c)%nat l = l) by (induction l as [|j l IH]; [reflexivity|]; cbn; rewrite (H j c), Nat.eqb_refl, IH; reflexivity). apply G.
Qed.

(** ** Concrete cases *)
Definition ts70 : list R := map (fun i => INR i) (seq 0 70).
Example C56_case : exists e, epi_init ts70 (Some 10%nat) None 4 = Some e /\ bs e = 10%nat /\ nb e = 6%nat /\ length (kept e) = 70%nat /\
  settings 70 None (Some 5%nat) = Some (11%nat, 5%nat) /\ settings 70 (Some 10%nat) (Some 7%nat) = None.
Proof.
  eexists. split; [reflexivity|]. split; [reflexivity|]. split; [reflexivity|]. split; [reflexivity|]. split; reflexivity.
Qed.
Example C131_case : (forall c c' : nat, (fun c => c) c = (fun c => c) c' -> c = c') /\ (forall c c' : nat, (fun _ => 0%nat) c = (fun _ : nat => 0%nat) c').
Proof. split; intros; [assumption|reflexivity]. Qed.

Print Assumptions C56_settings.
Print Assumptions C56_blocks.
Print Assumptions C56_errors.
Print Assumptions C56_projection.
Print Assumptions C56_ensemble.
Print Assumptions C130_bands.
Print Assumptions C130_levels.
Print Assumptions C131_pool_refuted.
Print Assumptions C131_one_worker.
