(** C216 (prediction intervals), C217 (the frame of the forecasts), C218 (evaluation) — proofs and theorems. *)
From Coq Require Import List Bool Arith ZArith QArith Lia Permutation String Lqa.
From Verif Require Import GmLossModel GmLossProofs GmFcstModel.
From Verif Require GmLoaderModel GmLoaderProps.
Import ListNotations.
Open Scope nat_scope.
Local Notation length := List.length.

Lemma seq_map_nth {A} (f : nat -> A) n k d : k < n -> nth k (map f (seq 0 n)) d = f k.
Proof. intros H. rewrite (map_nth_in f (seq 0 n) 0 d k) by (rewrite seq_length; exact H). rewrite seq_nth by exact H. reflexivity. Qed.
Lemma adjust1_len fw nq p c : length (adjust1 fw nq p c) = length c.
Proof. unfold adjust1. rewrite map_length, seq_length. reflexivity. Qed.
Lemma quot_cell fw j h : h < fw -> (j * fw + h) / fw = j.
Proof. intros H. symmetry. apply (Nat.div_unique _ _ _ h); lia. Qed.
Lemma adjust1_cell fw nq p c j h : h < fw -> j * fw + h < length c ->
  cell (adjust1 fw nq p c) (j * fw + h) = if (1 <=? j) && (j <? nq) then (cell c (j * fw + h) + (cell p ((j + 1) * fw - 1) - cell c (j * fw)))%Q else cell c (j * fw + h).
Proof. intros Hh Hl. unfold cell at 1, adjust1. rewrite seq_map_nth by exact Hl. rewrite quot_cell by exact Hh. reflexivity. Qed.
Lemma adjust_from_len fw nq p l : length (adjust_from fw nq p l) = length l.
Proof. revert p. induction l as [|c l IH]; intros p; cbn; auto. Qed.
Lemma adjust_pi_len fw nq l : length (adjust_pi fw nq l) = length l.
Proof. destruct l as [|r l]; cbn; [reflexivity |]. f_equal. apply adjust_from_len. Qed.
(** every row after the first is the adjustment of the original row to the adjusted row before *)
Lemma adjust_nth fw nq l i : S i < length l -> nth (S i) (adjust_pi fw nq l) [] = adjust1 fw nq (nth i (adjust_pi fw nq l) []) (nth (S i) l []).
Proof.
  destruct l as [|r l]; [cbn; lia |]. cbn [adjust_pi length]. intros H.
  assert (G : forall i l p, i < length l -> nth i (adjust_from fw nq p l) [] = adjust1 fw nq (nth i (p :: adjust_from fw nq p l) []) (nth i l [])).
  { clear. induction i as [|i IH]; intros l p H; destruct l as [|c l]; cbn in H; try lia; [reflexivity |]. cbn [adjust_from nth]. apply IH. lia. }
  cbn [nth]. apply G. lia.
Qed.
(** rows of the right length *)
Definition rows_of (fw nq : nat) (l : list (list Q)) : Prop := forall r, In r l -> length r = nq * fw.

(** C216: the median is not changed *)
Theorem C216_median fw nq l i h : 1 <= fw -> 1 <= nq -> rows_of fw nq l -> i < length l -> h < fw ->
  cell (nth i (adjust_pi fw nq l) []) h = cell (nth i l []) h.
Proof.
  intros Hf Hq RO Hi Hh. destruct i as [|i]; [destruct l; reflexivity |]. rewrite adjust_nth by exact Hi.
  assert (L := RO (nth (S i) l []) (nth_In _ _ Hi)).
  replace h with (0 * fw + h) at 1 by lia. rewrite adjust1_cell by (try exact Hh; nia). reflexivity.
Qed.
(** every other quantile goes on from one window to the next *)
Theorem C216_continuous fw nq l i j : 1 <= fw -> rows_of fw nq l -> S i < length l -> 1 <= j < nq ->
  (cell (nth (S i) (adjust_pi fw nq l) []) (j * fw) == cell (nth i (adjust_pi fw nq l) []) (j * fw + (fw - 1)))%Q.
Proof.
  intros Hf RO Hi Hj. rewrite adjust_nth by exact Hi. assert (L := RO (nth (S i) l []) (nth_In _ _ Hi)).
  replace (j * fw) with (j * fw + 0) at 1 by lia. rewrite adjust1_cell by (try lia; nia).
  replace ((1 <=? j) && (j <? nq)) with true by (symmetry; apply andb_true_intro; split; [apply Nat.leb_le | apply Nat.ltb_lt]; lia).
  rewrite Nat.add_0_r. replace ((j + 1) * fw - 1) with (j * fw + (fw - 1)) by nia. ring.
Qed.
(** within a window all its changes are kept *)
Theorem C216_shape fw nq l i j h h' : 1 <= fw -> rows_of fw nq l -> i < length l -> j < nq -> h < fw -> h' < fw ->
  (cell (nth i (adjust_pi fw nq l) []) (j * fw + h) - cell (nth i (adjust_pi fw nq l) []) (j * fw + h') == cell (nth i l []) (j * fw + h) - cell (nth i l []) (j * fw + h'))%Q.
Proof.
  intros Hf RO Hi Hj Hh Hh'. destruct i as [|i]; [destruct l; reflexivity |]. rewrite adjust_nth by exact Hi. assert (L := RO (nth (S i) l []) (nth_In _ _ Hi)).
  rewrite !adjust1_cell by (try assumption; nia). destruct ((1 <=? j) && (j <? nq)); ring.
Qed.
Example C216_case : rows_of 2 3 [[5;6;4;4;7;8]; [7;8;5;5;11;12]]%Q /\ adjust_pi 2 3 [[5;6;4;4;7;8]; [7;8;5;5;11;12]]%Q = [[5;6;4;4;7;8]; [7;8;5+(4-5);5+(4-5);11+(8-11);12+(8-11)]]%Q.
Proof. split; [intros r [<-|[<-|[]]]; reflexivity | reflexivity]. Qed.
(** the bounds of an interval may end up on one side of the median *)
Theorem C216_order_refuted : exists fw nq l, 1 <= fw /\ rows_of fw nq l /\
  (forall i h, i < length l -> h < fw -> (cell (nth i l []) (fw + h) < cell (nth i l []) h /\ cell (nth i l []) h < cell (nth i l []) (2 * fw + h))%Q) /\
  exists i h, i < length l /\ h < fw /\ (cell (nth i (adjust_pi fw nq l) []) (2 * fw + h) < cell (nth i (adjust_pi fw nq l) []) h)%Q.
Proof.
  exists 1, 3, [[5; 4; 6]; [9; 8; 10]]%Q. split; [lia |]. split; [intros r [<-|[<-|[]]]; reflexivity |]. split.
  - intros i h Hi Hh. assert (h = 0) by lia. subst h. destruct i as [|[|i]]; cbn in Hi; try lia; vm_compute; split; reflexivity.
  - exists 1, 0. split; [cbn; lia |]. split; [lia |]. vm_compute. reflexivity.
Qed.
(** in general: if the median of a window starts above the last upper bound, the upper bound starts below the median *)
Theorem C216_jump_refuted fw nq l i j : 1 <= fw -> rows_of fw nq l -> S i < length l -> 1 <= j < nq ->
  (cell (nth i (adjust_pi fw nq l) []) (j * fw + (fw - 1)) < cell (nth (S i) l []) 0)%Q ->
  (cell (nth (S i) (adjust_pi fw nq l) []) (j * fw) < cell (nth (S i) (adjust_pi fw nq l) []) 0)%Q.
Proof.
  intros Hf RO Hi Hj H. rewrite (C216_median fw nq l (S i) 0) by (try assumption; lia). rewrite (C216_continuous fw nq l i j) by assumption. exact H.
Qed.

(** C217: the frame has one row per step: at the t-th time after the last of the series, the forecasts of its quantiles for t *)
Lemma step_num_bounds steps fw : 1 <= fw -> steps <= step_num steps fw * fw /\ step_num steps fw * fw < steps + fw.
Proof.
  intros H. unfold step_num. pose proof (Nat.div_mod steps fw ltac:(lia)) as D. pose proof (Nat.mod_upper_bound steps fw ltac:(lia)) as M.
  destruct (steps mod fw =? 0) eqn:E; [apply Nat.eqb_eq in E; nia | apply Nat.eqb_neq in E; nia].
Qed.
Lemma concat_cell fw : 1 <= fw -> forall (l : list (list Q)), (forall r, In r l -> length r = fw) -> length (List.concat l) = length l * fw /\
  forall k h, k < length l -> h < fw -> cell (List.concat l) (k * fw + h) = cell (nth k l []) h.
Proof.
  intros Hf. induction l as [|r l IH]; intros H; [split; [reflexivity | cbn; lia] |]. destruct (IH ltac:(intros; apply H; right; assumption)) as [A B].
  assert (LR := H r (or_introl eq_refl)). cbn [List.concat]. rewrite app_length, A, LR. split; [cbn; lia |]. intros k h Hk Hh. unfold cell. destruct k as [|k].
  - cbn [nth Nat.mul plus]. apply app_nth1. lia.
  - rewrite app_nth2 by nia. rewrite LR. replace (S k * fw + h - fw) with (k * fw + h) by nia. cbn [nth]. apply B; [cbn in Hk; lia | exact Hh].
Qed.
Theorem C217_frame fw nq steps first freq store : 1 <= fw -> 1 <= nq -> rows_of fw nq store -> length store = step_num steps fw ->
  exists out, format_fcst fw nq steps first freq store = Some out /\ length out = steps /\
    forall t d, t < steps -> fst (nth t out d) = (first + Z.of_nat t * freq)%Z /\ length (snd (nth t out d)) = nq /\
      forall j, j < nq -> cell (snd (nth t out d)) j = cell (nth (t / fw) store []) (j * fw + t mod fw).
Proof.
  intros Hf Hq RO LS. unfold format_fcst.
  set (pq := map (fun j => List.concat (map (fun r => nth j (chunks nq fw r) []) store)) (seq 0 nq)).
  assert (PQ : forall j, j < nq -> nth j pq [] = List.concat (map (fun r => nth j (chunks nq fw r) []) store)) by (intros j Hj; unfold pq; rewrite (seq_map_nth (fun j => List.concat (map (fun r => nth j (chunks nq fw r) []) store))) by exact Hj; reflexivity).
  assert (CH : forall j, j < nq -> forall r, In r (map (fun r => nth j (chunks nq fw r) []) store) -> length r = fw).
  { intros j Hj r Hr. apply in_map_iff in Hr. destruct Hr as [r0 [<- Hr0]]. rewrite chunks_nth by exact Hj. rewrite firstn_length, skipn_length, (RO r0 Hr0). nia. }
  assert (TL : length (nth 0 pq []) = step_num steps fw * fw).
  { rewrite PQ by lia. destruct (concat_cell fw Hf _ (CH 0 ltac:(lia))) as [A _]. rewrite A, map_length, LS. reflexivity. }
  rewrite TL. pose proof (step_num_bounds steps fw Hf) as SB. set (T := step_num steps fw * fw) in *.
  set (rows := firstn steps (map (fun t => map (fun q => cell q t) pq) (seq 0 T))).
  assert (RL : length rows = steps) by (unfold rows; rewrite firstn_length, map_length, seq_length; lia). rewrite RL, Nat.eqb_refl.
  eexists. split; [reflexivity |]. split; [rewrite zip_len, map_length, seq_length, RL; lia |]. intros t d Ht.
  rewrite (nth_indep _ d (0%Z, [])) by (rewrite zip_len, map_length, seq_length, RL; lia).
  rewrite (zip_nth _ _ _ _ 0%Z []) by (rewrite ?map_length, ?seq_length, ?RL; exact Ht).
  cbn [fst snd]. split; [apply (seq_map_nth (fun t => (first + Z.of_nat t * freq)%Z)); exact Ht |]. unfold rows. rewrite firstn_nth by exact Ht. rewrite (seq_map_nth (fun t => map (fun q => cell q t) pq)) by lia.
  split; [unfold pq; rewrite map_length, map_length, seq_length; reflexivity |]. intros j Hj. unfold cell at 1.
  rewrite (map_nth_in (fun q => cell q t) pq [] 0%Q) by (unfold pq; rewrite map_length, seq_length; exact Hj). rewrite PQ by exact Hj.
  pose proof (Nat.div_mod t fw ltac:(lia)) as DM. pose proof (Nat.mod_upper_bound t fw ltac:(lia)) as MB.
  assert (KB : t / fw < length store) by (rewrite LS; apply Nat.div_lt_upper_bound; [lia |]; unfold T in SB; nia).
  destruct (concat_cell fw Hf _ (CH j Hj)) as [_ B]. rewrite DM at 1. rewrite (Nat.mul_comm fw). rewrite B by (try rewrite map_length; assumption).
  rewrite (map_nth_in (fun r => nth j (chunks nq fw r) []) store [] []) by exact KB. rewrite chunks_nth by exact Hj. unfold cell. rewrite firstn_nth by exact MB. rewrite skipn_nth. reflexivity.
Qed.
(** with fewer windows than needed an exception is raised *)
Theorem C217_windows fw nq steps first freq store : 1 <= fw -> 1 <= nq -> rows_of fw nq store ->
  (format_fcst fw nq steps first freq store = None <-> length store * fw < steps).
Proof.
  intros Hf Hq RO. unfold format_fcst. set (pq := map (fun j => List.concat (map (fun r => nth j (chunks nq fw r) []) store)) (seq 0 nq)).
  assert (TL : length (nth 0 pq []) = length store * fw).
  { unfold pq. rewrite (seq_map_nth (fun j => List.concat (map (fun r => nth j (chunks nq fw r) []) store))) by lia. destruct (concat_cell fw Hf (map (fun r => nth 0 (chunks nq fw r) []) store)) as [A _]; [| rewrite A, map_length; reflexivity].
    intros r Hr. apply in_map_iff in Hr. destruct Hr as [r0 [<- Hr0]]. rewrite chunks_nth by lia. rewrite firstn_length, skipn_length, (RO r0 Hr0). nia. }
  rewrite TL, firstn_length, map_length, seq_length. destruct (Nat.min steps (length store * fw) =? steps) eqn:E.
  - apply Nat.eqb_eq in E. split; [discriminate | lia].
  - apply Nat.eqb_neq in E. split; [lia | reflexivity].
Qed.
(** all series are forecast, each in one batch, whatever batch size is asked for: the calls are those of one epoch of 500 *)
Theorem C217_series data L calls :
  GmLoaderModel.make_loader data None 5 = Some L -> length calls = GmLoaderProps.epoch_length (length data) 500 ->
  (forall c, In c calls -> fst c = 500%Z /\ GmLoaderProps.good_call (length data) c) ->
  exists batches, fst (GmLoaderModel.run L GmLoaderModel.fresh calls) = map Some batches /\ Permutation (List.concat batches) (map fst data).
Proof.
  intros M LC H. destruct (GmLoaderProps.C195_epoch_partial data None 5 L M ltac:(congruence) 500%Z [] [] calls) as [outs [batches [E [LO [P _]]]]].
  - split; [lia |]. split; [intros c Hc; apply H; exact Hc |]. split; [intros l c Hl; destruct l; discriminate |]. split; [intros c Hc; apply (H c Hc) |].
    split; [exists 0; reflexivity | exact LC].
  - cbn [app] in *. destruct outs; [| discriminate]. exists batches. split; [exact E | exact P].
Qed.
Example C217_case : format_fcst 2 2 3 100 10 [[1; 2; 11; 12]; [3; 4; 13; 14]]%Q = Some [(100%Z, [1; 11]%Q); (110%Z, [2; 12]%Q); (120%Z, [3; 13]%Q)].
Proof. reflexivity. Qed.

(** C218: the evaluation compares the forecast for a step with the value of that step, and every value once *)
Theorem C218_windows fw nq fcst actual : 1 <= fw -> rows_of fw nq fcst -> 1 <= nq -> length fcst >= step_num (length actual) fw ->
  let out := eval_windows fw fcst actual in
  length out = step_num (length actual) fw /\
  (forall t, t < length actual -> exists med rest act, nth_error out (t / fw) = Some (med, rest, act) /\
     nth_error act (t mod fw) = Some (Some (nth t actual 0%Q)) /\ cell med (t mod fw) = cell (nth (t / fw) fcst []) (t mod fw)) /\
  (forall k h med rest act v, nth_error out k = Some (med, rest, act) -> nth_error act h = Some (Some v) -> h < fw /\ k * fw + h < length actual /\ v = nth (k * fw + h) actual 0%Q).
Proof.
  intros Hf RO Hq HL out. pose proof (step_num_bounds (length actual) fw Hf) as SB. set (m := step_num (length actual) fw) in *.
  set (acts := map Some actual ++ repeat (@None Q) (m * fw - length actual)).
  assert (LA : length acts = m * fw) by (unfold acts; rewrite app_length, map_length, repeat_length; lia).
  assert (NT : forall k, k < m -> nth_error out k = Some (firstn fw (nth k fcst []), skipn fw (nth k fcst []), firstn fw (skipn (k * fw) acts))).
  { intros k Hk. unfold out, eval_windows. fold m. fold acts. rewrite nth_error_map. rewrite (nth_error_nth' _ 0) by (rewrite seq_length; exact Hk). rewrite seq_nth by exact Hk. reflexivity. }
  assert (LO : length out = m) by (unfold out, eval_windows; rewrite map_length, seq_length; reflexivity).
  assert (AC : forall k h, k < m -> h < fw -> nth_error (firstn fw (skipn (k * fw) acts)) h = Some (nth (k * fw + h) acts None)).
  { intros k h Hk Hh. assert (Bd : h < length (firstn fw (skipn (k * fw) acts))) by (rewrite firstn_length, skipn_length, LA; nia).
    rewrite (nth_error_nth' _ None Bd). rewrite firstn_nth by exact Hh. rewrite skipn_nth. reflexivity. }
  split; [exact LO |]. split.
  - intros t Ht. pose proof (Nat.div_mod t fw ltac:(lia)) as DM. pose proof (Nat.mod_upper_bound t fw ltac:(lia)) as MB.
    assert (KB : t / fw < m) by (apply Nat.div_lt_upper_bound; lia). do 3 eexists. split; [apply NT; exact KB |]. split.
    + rewrite AC by assumption. replace (t / fw * fw + t mod fw) with t by lia. f_equal. unfold acts. rewrite app_nth1 by (rewrite map_length; exact Ht).
      apply map_nth_in. exact Ht.
    + unfold cell. apply firstn_nth. exact MB.
  - intros k h med rest act v H1 H2. assert (Hk : k < m) by (rewrite <- LO; apply nth_error_Some; congruence). rewrite NT in H1 by exact Hk. injection H1 as <- <- <-.
    assert (Hh : h < fw). { assert (h < length (firstn fw (skipn (k * fw) acts))) by (apply nth_error_Some; congruence). rewrite firstn_length in H. lia. }
    split; [exact Hh |]. rewrite AC in H2 by assumption. injection H2 as H2.
    destruct (Nat.lt_ge_cases (k * fw + h) (length actual)) as [Q|Q].
    + split; [exact Q |]. unfold acts in H2. rewrite app_nth1 in H2 by (rewrite map_length; exact Q). rewrite (map_nth_in Some actual 0%Q None) in H2 by exact Q. congruence.
    + exfalso. unfold acts in H2. rewrite app_nth2 in H2 by (rewrite map_length; exact Q). rewrite nth_repeat in H2. discriminate.
Qed.
(** the asked for metrics are all computed if there are two quantiles or more besides the median, or none *)
Theorem C218_metrics_partial quantile metrics name : 3 <= length quantile -> In name metrics ->
  (name = "smape" \/ name = "sbias" -> In name (eval_names quantile metrics))%string /\
  (name = "exceed"%string -> forall q, In q (tl quantile) -> In (append "exceed_" q) (eval_names quantile metrics)).
Proof.
  intros H Hin. assert (L : 1 < length (tl quantile)) by (destruct quantile as [|? [|? [|? ?]]]; cbn in *; lia). split.
  - intros [->| ->]; apply in_flat_map; eexists; (split; [exact Hin |]); cbn; auto.
  - intros -> q Hq. apply in_flat_map. exists "exceed"%string. split; [exact Hin |]. cbn [String.eqb Ascii.eqb Bool.eqb andb]. 
    replace (1 <? length (tl quantile)) with true by (symmetry; apply Nat.ltb_lt; exact L). apply (in_map (fun v => append "exceed_" v)). exact Hq.
Qed.
(** with one, exceedance is left out without a word *)
Theorem C218_exceed_refuted q0 q1 : eval_names [q0; q1] ["exceed"%string] = [].
Proof. reflexivity. Qed.
Example C218_case : eval_windows 2 [[5;6;7;8]; [9;10;11;12]]%Q [1; 2; 3]%Q = [([5;6], [7;8], [Some 1; Some 2]); ([9;10], [11;12], [Some 3; None])]%Q.
Proof. reflexivity. Qed.

Print Assumptions C216_median.
Print Assumptions C216_continuous.
Print Assumptions C216_shape.
Print Assumptions C216_order_refuted.
Print Assumptions C216_jump_refuted.
Print Assumptions C217_frame.
Print Assumptions C217_windows.
Print Assumptions C217_series.
Print Assumptions C218_windows.
Print Assumptions C218_metrics_partial.
Print Assumptions C218_exceed_refuted.
