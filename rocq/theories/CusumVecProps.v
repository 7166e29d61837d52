(** C272: the vectorised CUSUM detector is the CUSUM detector of every column. *)
From Verif Require Import Common PySlice CusumModel CusumDetModel CusumSpec CusumProofs CusumLlrProps CusumDetProps.
Require Import Reals Lra Qreals.
Open Scope Z_scope.

(** ** Specification *)

(** the same change point, but for the mark that the search has settled, which the
    vectorised detector sets at least as often. *)
Definition same_but_stable (v p : direction * meta) : Prop :=
  fst v = fst p /\
  m_index (snd v) = m_index (snd p) /\ m_time (snd v) = m_time (snd p) /\
  m_mu0 (snd v) = m_mu0 (snd p) /\ m_mu1 (snd v) = m_mu1 (snd p) /\
  m_llr_int (snd v) = m_llr_int (snd p) /\ m_p_int (snd v) = m_p_int (snd p) /\
  m_llr (snd v) = m_llr (snd p) /\ m_p (snd v) = m_p (snd p) /\ m_found (snd v) = m_found (snd p) /\
  (m_stable (snd p) = true -> m_stable (snd v) = true).
(** columns of the length of the time column, enough points, a window inside. *)
Definition valid_call (A : args) (times : list Z) (cols : list (list Q)) : Prop :=
  (forall ts, In ts cols -> length ts = length times) /\ 3 <= Z.of_nat (length times) /\
  valid_window (Z.of_nat (length times)) (a_window A).

(** ** One round *)
Lemma select_firstn k : forall n (l : list Q), length l = n -> forall off,
  select (map (fun i => Z.of_nat i <? Z.of_nat (k + off)) (seq off n)) l = firstn k l.
Proof.
  revert k. intros k n. revert k. induction n as [|n IH]; intros k l L off.
  - destruct l; [|discriminate]. simpl. now rewrite firstn_nil.
  - destruct l as [|x l]; [discriminate|]. cbn [seq map select]. destruct k as [|k].
    + destruct (Z.ltb_spec (Z.of_nat off) (Z.of_nat (0 + off))); [lia|].
      specialize (IH 0%nat l ltac:(simpl in L; lia) (S off)). simpl. simpl in IH.
      assert (G : forall (m : nat) (l : list Q) o, (off <= o)%nat -> select (map (fun i => Z.of_nat i <? Z.of_nat off) (seq o m)) l = []).
      { clear. induction m as [|m IH]; intros l o H; [destruct l; reflexivity|]. destruct l as [|x l]; [reflexivity|].
        cbn [seq map select]. destruct (Z.ltb_spec (Z.of_nat o) (Z.of_nat off)); [lia|]. apply IH. lia. }
      apply G. lia.
    + destruct (Z.ltb_spec (Z.of_nat off) (Z.of_nat (S k + off))); [|lia]. cbn [firstn]. f_equal.
      rewrite <- (IH k l ltac:(simpl in L; lia) (S off)). f_equal. apply map_ext. intros i. f_equal. lia.
Qed.
Lemma select_skipn k : forall n (l : list Q), length l = n -> forall off,
  select (map negb (map (fun i => Z.of_nat i <? Z.of_nat (k + off)) (seq off n))) l = skipn k l.
Proof.
  intros n. revert k. induction n as [|n IH]; intros k l L off.
  - destruct l; [|discriminate]. simpl. now rewrite skipn_nil.
  - destruct l as [|x l]; [discriminate|]. cbn [seq map select]. destruct k as [|k].
    + destruct (Z.ltb_spec (Z.of_nat off) (Z.of_nat (0 + off))); [lia|]. cbn [negb skipn]. f_equal.
      assert (G : forall (m : nat) (l : list Q) o, (off <= o)%nat -> length l = m ->
        select (map negb (map (fun i => Z.of_nat i <? Z.of_nat (0 + off)) (seq o m))) l = l).
      { clear. induction m as [|m IH]; intros l o H L; [destruct l; [reflexivity|discriminate]|]. destruct l as [|x l]; [discriminate|].
        cbn [seq map select]. destruct (Z.ltb_spec (Z.of_nat o) (Z.of_nat (0 + off))); [lia|]. cbn [negb]. f_equal. apply IH; [lia|simpl in L; lia]. }
      apply G; [lia|simpl in L; lia].
    + destruct (Z.ltb_spec (Z.of_nat off) (Z.of_nat (S k + off))); [|lia]. cbn [negb skipn].
      rewrite <- (IH k l ltac:(simpl in L; lia) (S off)). f_equal. f_equal. apply map_ext. intros i. f_equal. lia.
Qed.
Lemma norm_nonneg n i : 0 <= n -> 0 <= norm_idx n i <= n.
Proof. apply norm_idx_bounds. Qed.
Lemma mask_in ts c : select (mask (length ts) c) ts = py_slice ts None (Some (c + 1)).
Proof.
  unfold mask, py_slice. set (z := norm_idx (Z.of_nat (length ts)) (c + 1)).
  pose proof (norm_nonneg (Z.of_nat (length ts)) (c + 1) ltac:(lia)) as B. fold z in B.
  rewrite Z.sub_0_r. cbn [skipn Z.to_nat].
  rewrite <- (select_firstn (Z.to_nat z) (length ts) ts eq_refl 0).
  f_equal. apply map_ext. intros i. f_equal. lia.
Qed.
Lemma mask_out ts c : select (map negb (mask (length ts) c)) ts = py_slice ts (Some (c + 1)) None.
Proof.
  unfold mask, py_slice. set (z := norm_idx (Z.of_nat (length ts)) (c + 1)).
  pose proof (norm_nonneg (Z.of_nat (length ts)) (c + 1) ltac:(lia)) as B. fold z in B.
  rewrite firstn_all2 by (rewrite skipn_length; lia).
  rewrite <- (select_skipn (Z.to_nat z) (length ts) ts eq_refl 0).
  f_equal. f_equal. apply map_ext. intros i. f_equal. lia.
Qed.
Lemma mean_in_plain ts c : mean_in ts c = qmean (py_slice ts None (Some (c + 1))).
Proof. unfold mean_in. rewrite mask_in. reflexivity. Qed.
Lemma mean_out_plain ts c : mean_out ts c = qmean (py_slice ts (Some (c + 1)) None).
Proof. unfold mean_out. rewrite mask_out. reflexivity. Qed.
Lemma update_plain d ts c : vec_update d ts c = cp_update d ts c.
Proof. unfold vec_update, cp_update. rewrite mean_in_plain, mean_out_plain. apply Z.max_comm. Qed.

(** ** The search *)
Lemma zip_length {A B C} (f : A -> B -> C) l : forall m, length l = length m -> length (zip_with f l m) = length l.
Proof. induction l as [|x l IH]; intros [|y m] H; try discriminate; [reflexivity|]. simpl. f_equal. apply IH. simpl in H. lia. Qed.
Lemma zip_nth_error {A B C} (f : A -> B -> C) l : forall m i x y,
  nth_error l i = Some x -> nth_error m i = Some y -> nth_error (zip_with f l m) i = Some (f x y).
Proof.
  induction l as [|a l IH]; intros m i x y X Y; [destruct i; discriminate|].
  destruct m as [|b m]; [destruct i; discriminate|]. destruct i; simpl in *; [congruence|]. eauto.
Qed.
Lemma loop_fixed d ts k c : cp_update d ts c = c -> fst (cp_loop d ts k c) = c.
Proof. intros E. destruct k; [reflexivity|]. simpl. rewrite E, Z.eqb_refl. reflexivity. Qed.
Lemma vec_loop_spec d cols : forall k cps st, length cols = length cps -> length st = length cols ->
  length (fst (vec_loop d cols k cps st)) = length cols /\ length (snd (vec_loop d cols k cps st)) = length cols /\
  forall i ts c, nth_error cols i = Some ts -> nth_error cps i = Some c ->
    nth_error (fst (vec_loop d cols k cps st)) i = Some (fst (cp_loop d ts k c)) /\
    ((snd (cp_loop d ts k c) = true \/ (cp_update d ts c = c /\ (1 <= k)%nat)) ->
       nth_error (snd (vec_loop d cols k cps st)) i = Some true).
Proof.
  induction k as [|k IH]; intros cps st LC LS.
  - simpl. split; [lia|]. split; [lia|]. intros i ts c X Y. split; [exact Y|]. intros [E|(_ & E)]; [discriminate|lia].
  - cbn [vec_loop]. set (nxt := zip_with (vec_update d) cols cps). set (st' := zip_with Z.eqb cps nxt).
    assert (LN : length nxt = length cols) by (apply zip_length; exact LC).
    assert (LS' : length st' = length cols) by (unfold st'; rewrite zip_length; lia).
    assert (ST : forall i ts c, nth_error cols i = Some ts -> nth_error cps i = Some c ->
      nth_error nxt i = Some (cp_update d ts c) /\ nth_error st' i = Some (c =? cp_update d ts c)).
    { intros i ts c X Y. assert (N : nth_error nxt i = Some (cp_update d ts c)).
      { unfold nxt. rewrite (zip_nth_error _ _ _ _ _ _ X Y), update_plain. reflexivity. }
      split; [exact N|]. unfold st'. apply zip_nth_error; assumption. }
    destruct (forallb (fun b => b) st') eqn:ALL.
    + simpl. split; [lia|]. split; [exact LS'|]. intros i ts c X Y. destruct (ST i ts c X Y) as (N & S).
      rewrite forallb_forall in ALL. assert (S1 := ALL _ (nth_error_In _ _ S)). rewrite S1 in S.
      apply Z.eqb_eq in S1. rewrite <- S1, Z.eqb_refl. split; [exact Y|]. intros _. exact S.
    + destruct (IH nxt st' ltac:(lia) LS') as (L1 & L2 & IH').
      split; [exact L1|]. split; [exact L2|]. intros i ts c X Y. destruct (ST i ts c X Y) as (N & S).
      destruct (IH' i ts _ X N) as (I1 & I2). cbn [cp_loop].
      destruct (Z.eqb_spec (cp_update d ts c) c) as [E|E].
      * rewrite E in I1, I2, S. rewrite Z.eqb_refl in S. split.
        -- rewrite I1. rewrite loop_fixed by exact E. reflexivity.
        -- intros _. destruct k as [|k]; [simpl; exact S|]. apply I2. right. split; [exact E|lia].
      * split; [exact I1|]. intros [H|(H & _)]; [apply I2; left; exact H|contradiction].
Qed.

(** the change point of every column *)
Lemma vec_change_points_spec A d times cols start : valid_call A times cols ->
  length (vec_change_points d cols (a_window A) (a_max_iter A) start) = length cols /\
  forall i ts, nth_error cols i = Some ts ->
    exists v p, nth_error (vec_change_points d cols (a_window A) (a_max_iter A) start) i = Some v /\
      get_change_point d ts (a_window A) (a_max_iter A) start = Some p /\
      cp_index v = cp_index p /\ cp_mu0 v = cp_mu0 p /\ cp_mu1 v = cp_mu1 p /\
      (cp_stable p = true -> cp_stable v = true).
Proof.
  intros (LEN & L3 & W).
  set (win := fun ts : list Q => match a_window A with Some (a, b) => py_slice ts (Some a) (Some b) | None => ts end).
  assert (WNE : forall ts, In ts cols -> win ts <> []).
  { intros ts I. pose proof (LEN ts I) as LT. unfold win. destruct (a_window A) as [(a, b)|] eqn:X.
    - simpl in W. intros E. assert (Z.of_nat (length (py_slice ts (Some a) (Some b))) = b - a) by (apply py_slice_length; lia).
      rewrite E in H. simpl in H. lia.
    - intros ->. simpl in LT. lia. }
  set (r := vec_loop d (map win cols) (a_max_iter A) (map (vec_start d start) (map win cols)) (map (fun _ : list Q => false) (map win cols))).
  assert (VE : cols <> [] -> vec_change_points d cols (a_window A) (a_max_iter A) start
    = zip_with (fun ts cs =>
         let cp := match a_window A with Some (a, _) => fst cs + a | None => fst cs end in
         {| cp_index := cp; cp_mu0 := mean_in ts cp; cp_mu1 := mean_out ts cp; cp_stable := snd cs |})
        cols (combine (fst r) (snd r))).
  { intros NC. unfold vec_change_points. fold win. fold r.
    destruct cols as [|c0 cols']; [congruence|]. cbn [map].
    destruct (Nat.eqb_spec (length (win c0)) 0) as [E|_]; [|reflexivity].
    exfalso. apply (WNE c0); [now left|]. destruct (win c0); [reflexivity|discriminate]. }
  assert (NC : cols = [] \/ cols <> []) by (destruct cols; [left; reflexivity|right; discriminate]).
  destruct NC as [->|NC]; [split; [reflexivity|intros i ts E; destruct i; discriminate]|].
  rewrite (VE NC). clear VE.
  destruct (vec_loop_spec d (map win cols) (a_max_iter A) (map (vec_start d start) (map win cols)) (map (fun _ => false) (map win cols))) as (L1 & L2 & SP);
    [rewrite !map_length; reflexivity|rewrite !map_length; reflexivity|]. fold r in L1, L2, SP.
  rewrite map_length in L1, L2.
  split; [rewrite zip_length; [reflexivity|rewrite combine_length, L1, L2, Nat.min_id; reflexivity]|].
  intros i ts X.
  assert (XW : nth_error (map win cols) i = Some (win ts)) by (rewrite nth_error_map, X; reflexivity).
  destruct (SP i (win ts) (vec_start d start (win ts)) XW) as (S1 & S2).
  { rewrite nth_error_map, XW. reflexivity. }
  assert (CS : cp_start d (win ts) start = Some (vec_start d start (win ts))).
  { unfold cp_start, vec_start. destruct start; [reflexivity|].
    pose proof (WNE ts (nth_error_In _ _ X)) as NE. destruct (win ts); [congruence|reflexivity]. }
  assert (exists b, nth_error (snd r) i = Some b) as (b & SB).
  { destruct (nth_error (snd r) i) as [b|] eqn:E; [eauto|]. apply nth_error_None in E.
    assert (i < length cols)%nat by (apply nth_error_Some; rewrite X; discriminate). lia. }
  assert (CB : nth_error (combine (fst r) (snd r)) i = Some (fst (cp_loop d (win ts) (a_max_iter A) (vec_start d start (win ts))), b)).
  { clear - S1 SB. revert S1 SB. generalize (fst r) as l, (snd r) as m, (fst (cp_loop d (win ts) (a_max_iter A) (vec_start d start (win ts)))) as x.
    intros l m x. revert l m. induction i as [|i IH]; intros [|u l] [|w m] P Q; try discriminate; simpl in *; [congruence|auto]. }
  eexists. unfold get_change_point. change (match a_window A with Some (a, b) => py_slice ts (Some a) (Some b) | None => ts end) with (win ts).
  rewrite CS. eexists. split; [apply (zip_nth_error _ _ _ _ _ _ X CB)|]. split; [reflexivity|].
  cbn [cp_index cp_mu0 cp_mu1 cp_stable fst snd]. rewrite mean_in_plain, mean_out_plain.
  repeat split; try reflexivity. intros P. specialize (S2 (or_introl P)). congruence.
Qed.

(** ** The detector *)
Lemma decide_same A d times ts v p : cp_index v = cp_index p -> cp_mu0 v = cp_mu0 p -> cp_mu1 v = cp_mu1 p ->
  (cp_stable p = true -> cp_stable v = true) ->
  match decide A d times ts (cp_index v) (cp_mu0 v) (cp_mu1 v) (cp_stable v),
        decide A d times ts (cp_index p) (cp_mu0 p) (cp_mu1 p) (cp_stable p) with
  | Some m, Some n => same_but_stable (d, m) (d, n)
  | None, None => True
  | _, _ => False
  end.
Proof.
  intros E0 E1 E2 S. rewrite E0, E1, E2. unfold decide. destruct (nth_z times (cp_index p)); [|exact I].
  destruct (llr_window ts (a_window A) (cp_index p)). destruct (mag_change A d times ts); [|exact I].
  unfold same_but_stable. cbn. repeat split; auto.
Qed.
Lemma vec_metas_spec A d times : forall cols cps, length cps = length cols ->
  (forall i ts, nth_error cols i = Some ts -> exists v p, nth_error cps i = Some v /\
      get_change_point d ts (a_window A) (a_max_iter A) (a_start A) = Some p /\
      cp_index v = cp_index p /\ cp_mu0 v = cp_mu0 p /\ cp_mu1 v = cp_mu1 p /\
      (cp_stable p = true -> cp_stable v = true)) ->
  match vec_metas A d times cols cps with
  | Some ms => length ms = length cols /\
      forall i ts, nth_error cols i = Some ts -> exists m n, nth_error ms i = Some m /\
        change_meta A times ts d = Some n /\ same_but_stable (d, m) (d, n)
  | None => exists ts, In ts cols /\ change_meta A times ts d = None
  end.
Proof.
  induction cols as [|ts cols IH]; intros cps L H.
  - simpl. split; [reflexivity|]. intros i ts E. destruct i; discriminate.
  - destruct cps as [|c cps]; [discriminate|]. cbn [vec_metas].
    destruct (H 0%nat ts eq_refl) as (v & p & E & G & E0 & E1 & E2 & S). injection E as <-.
    pose proof (decide_same A d times ts c p E0 E1 E2 S) as D.
    assert (CM : change_meta A times ts d = decide A d times ts (cp_index p) (cp_mu0 p) (cp_mu1 p) (cp_stable p)).
    { unfold change_meta. rewrite G. reflexivity. }
    specialize (IH cps ltac:(simpl in L; lia) (fun i t X => H (Datatypes.S i) t X)).
    destruct (decide A d times ts (cp_index c) (cp_mu0 c) (cp_mu1 c) (cp_stable c)) as [m|].
    + destruct (decide A d times ts (cp_index p) (cp_mu0 p) (cp_mu1 p) (cp_stable p)) as [n|]; [|contradiction].
      destruct (vec_metas A d times cols cps) as [ms|].
      * destruct IH as (LM & IH). split; [simpl; lia|]. intros i t X. destruct i as [|i].
        -- injection X as <-. exists m, n. split; [reflexivity|]. split; [exact CM|exact D].
        -- apply IH. exact X.
      * destruct IH as (t & I & N). exists t. split; [now right|exact N].
    + destruct (decide A d times ts (cp_index p) (cp_mu0 p) (cp_mu1 p) (cp_stable p)) as [n|]; [contradiction|].
      exists ts. split; [now left|exact CM].
Qed.
Lemma vec_all_spec A times cols : valid_call A times cols -> forall ds,
  match vec_all A times cols ds with
  | Some r => forall i ts, nth_error cols i = Some ts ->
      exists full, all_metas (change_meta A times ts) ds = Some full /\ Forall2 same_but_stable (pick_col i r) full
  | None => exists ts, In ts cols /\ all_metas (change_meta A times ts) ds = None
  end.
Proof.
  intros V. induction ds as [|d ds IH].
  - simpl. intros i ts _. exists []. split; [reflexivity|constructor].
  - cbn [vec_all]. destruct (vec_change_points_spec A d times cols (a_start A) V) as (L & SP).
    pose proof (vec_metas_spec A d times cols _ L SP) as M.
    destruct (vec_metas A d times cols _) as [ms|].
    + destruct M as (LM & M). destruct (vec_all A times cols ds) as [r|].
      * intros i ts X. destruct (IH i ts X) as (full & E & F). destruct (M i ts X) as (m & n & Nm & Cn & Sm).
        exists ((d, n) :: full). cbn [all_metas]. rewrite Cn, E. split; [reflexivity|].
        unfold pick_col. cbn [flat_map snd fst]. rewrite Nm. cbn [app]. constructor; assumption.
      * destruct IH as (ts & I & N). exists ts. split; [exact I|]. cbn [all_metas]. rewrite N.
        destruct (change_meta A times ts d); reflexivity.
    + destruct M as (ts & I & N). exists ts. split; [exact I|]. cbn [all_metas]. rewrite N. reflexivity.
Qed.
Lemma forall2_filter {A B} (R : A -> B -> Prop) (f : A -> bool) (g : B -> bool) :
  (forall x y, R x y -> f x = g y) -> forall l m, Forall2 R l m -> Forall2 R (filter f l) (filter g m).
Proof.
  intros H l m F. induction F as [|x y l m XY F IH]; [constructor|]. simpl. rewrite (H x y XY).
  destruct (g y); [constructor; assumption|exact IH].
Qed.

(** The vectorised detector returns, for every column, what the detector returns for it. *)
Theorem C272_columns : forall A dirs times cols out, valid_call A times cols ->
  vec_detector A dirs times cols = Some out ->
  length out = length cols /\
  forall i ts, nth_error cols i = Some ts ->
    exists v p, nth_error out i = Some v /\ detector A dirs times ts = Some p /\ Forall2 same_but_stable v p.
Proof.
  intros A dirs times cols out V H. unfold vec_detector in H. unfold detector.
  destruct (directions dirs) as [ds|]; [|discriminate].
  pose proof (vec_all_spec A times cols V (keys [] ds)) as S.
  destruct (vec_all A times cols (keys [] ds)) as [r|]; [|discriminate]. injection H as <-.
  split; [rewrite map_length, seq_length; reflexivity|]. intros i ts X.
  destruct (S i ts X) as (full & E & F). rewrite E. eexists. eexists.
  split; [|split; [reflexivity|]].
  - rewrite nth_error_map. assert (i < length cols)%nat by (apply nth_error_Some; congruence).
    rewrite (nth_error_nth' _ O) by (rewrite seq_length; exact H). rewrite seq_nth by exact H. reflexivity.
  - unfold convert. apply forall2_filter; [|exact F]. intros x y SM. destruct SM as (_ & _ & _ & _ & _ & _ & _ & _ & _ & FD & _).
    rewrite FD. reflexivity.
Qed.

(** It raises exactly if the detector raises for some column, or for the directions. *)
Theorem C272_raises : forall A dirs times cols, valid_call A times cols -> understood dirs ->
  vec_detector A dirs times cols = None <-> exists ts, In ts cols /\ detector A dirs times ts = None.
Proof.
  intros A dirs times cols V U. destruct (understood_directions _ U) as (ds & E). split.
  - intros H. unfold vec_detector in H. unfold detector. rewrite E in *.
    pose proof (vec_all_spec A times cols V (keys [] ds)) as S.
    destruct (vec_all A times cols (keys [] ds)) as [r|]; [discriminate|]. destruct S as (ts & I & N).
    exists ts. split; [exact I|]. rewrite N. reflexivity.
  - intros (ts & I & N). destruct (vec_detector A dirs times cols) as [out|] eqn:H; [|reflexivity].
    destruct (C272_columns _ _ _ _ _ V H) as (_ & C). apply In_nth_error in I as (i & X).
    destruct (C i ts X) as (v & p & _ & P & _). congruence.
Qed.

(** A change point that is marked as stable by the vectorised detector is a fixed point of
    the search; the detector does not mark it if the last round allowed is the one that
    confirms it. *)
Theorem C272_stable_refuted : exists A times ts m p,
  valid_call A times [ts] /\
  vec_detector A (DStr NInc) times [ts] = Some [[(Increase, m)]] /\ m_stable m = true /\
  detector A (DStr NInc) times ts = Some [(Increase, p)] /\ m_stable p = false.
Proof.
  set (A := MkArgs (1 / 100) 1 1 0 None None None (13 # 10) (1 # 2) true).
  set (ts := [1%Q; 1%Q; 1%Q; 5%Q; 5%Q]).
  assert (V : valid_call A [0; 1; 2; 3; 4] [ts]).
  { split; [intros t [<-|[]]; reflexivity|]. split; [simpl; lia|exact I]. }
  assert (GP : get_change_point Increase ts None 1 None
    = Some {| cp_index := 2; cp_mu0 := Some (3 # 3)%Q; cp_mu1 := Some (10 # 2)%Q; cp_stable := false |}) by (vm_compute; reflexivity).
  assert (GV : vec_change_points Increase [ts] None 1 None
    = [{| cp_index := 2; cp_mu0 := Some (3 # 3)%Q; cp_mu1 := Some (10 # 2)%Q; cp_stable := true |}]) by (vm_compute; reflexivity).
  assert (D : forall st, exists m, decide A Increase [0; 1; 2; 3; 4] ts 2 (Some (3 # 3)%Q) (Some (10 # 2)%Q) st = Some m /\ m_stable m = st).
  { intros st. unfold decide. change (nth_z [0; 1; 2; 3; 4] 2) with (Some 2). cbn [A a_window llr_window].
    unfold mag_change. cbn [A a_magnitude]. eexists. split; [reflexivity|reflexivity]. }
  destruct (D true) as (m & DM & SM). destruct (D false) as (p & DP & SP).
  exists A, [0; 1; 2; 3; 4], ts, m, p. split; [exact V|]. split; [|split; [exact SM|]; split; [|exact SP]].
  - unfold vec_detector. change (directions (DStr NInc)) with (Some [Increase]). cbn [keys existsb vec_all].
    change (a_window A) with (@None (Z * Z)). change (a_max_iter A) with 1%nat. change (a_start A) with (@None Z).
    rewrite GV. cbn [vec_metas cp_index cp_mu0 cp_mu1 cp_stable]. rewrite DM.
    cbn [length seq map]. unfold pick_col. cbn [flat_map nth_error snd fst app]. unfold convert. cbn [filter snd].
    change (a_all A) with true. rewrite orb_true_r. reflexivity.
  - unfold detector. change (directions (DStr NInc)) with (Some [Increase]). cbn [keys existsb all_metas].
    unfold change_meta. change (a_window A) with (@None (Z * Z)). change (a_max_iter A) with 1%nat. change (a_start A) with (@None Z).
    rewrite GP. cbn [cp_index cp_mu0 cp_mu1 cp_stable]. rewrite DP. cbn [option_map]. unfold convert. cbn [filter snd].
    change (a_all A) with true. rewrite orb_true_r. reflexivity.
Qed.

(** The mark of the vectorised detector means that the search stays where it is: started
    there, the detector finds the same change point. *)
Definition started_at (A : args) (s : Z) : args :=
  MkArgs (a_threshold A) (a_max_iter A) (a_std_ratio A) (a_min_abs A) (Some s) (a_window A)
    (a_magnitude A) (a_ratio A) (a_days A) (a_all A).
Lemma vec_loop_fixed d cols : forall k cps st, length cols = length cps ->
  (forall i ts c, nth_error cols i = Some ts -> nth_error cps i = Some c -> nth_error st i = Some true -> cp_update d ts c = c) ->
  forall i ts c, nth_error cols i = Some ts -> nth_error (fst (vec_loop d cols k cps st)) i = Some c ->
    nth_error (snd (vec_loop d cols k cps st)) i = Some true -> cp_update d ts c = c.
Proof.
  induction k as [|k IH]; intros cps st L H; [exact H|]. cbn [vec_loop].
  set (nxt := zip_with (vec_update d) cols cps). set (st' := zip_with Z.eqb cps nxt).
  assert (ST : forall i ts, nth_error cols i = Some ts -> exists c, nth_error cps i = Some c /\
    nth_error nxt i = Some (cp_update d ts c) /\ nth_error st' i = Some (c =? cp_update d ts c)).
  { intros i ts X. destruct (nth_error cps i) as [c|] eqn:Y.
    - exists c. split; [reflexivity|]. assert (N : nth_error nxt i = Some (cp_update d ts c)).
      { unfold nxt. rewrite (zip_nth_error _ _ _ _ _ _ X Y), update_plain. reflexivity. }
      split; [exact N|]. unfold st'. apply zip_nth_error; assumption.
    - apply nth_error_None in Y. assert (i < length cols)%nat by (apply nth_error_Some; congruence). lia. }
  destruct (forallb (fun b => b) st').
  - simpl. intros i ts c X Y Z. destruct (ST i ts X) as (c' & Y' & _ & S). assert (c' = c) by congruence. subst c'.
    rewrite Z in S. injection S as S. symmetry in S. apply Z.eqb_eq in S. congruence.
  - apply IH.
    + unfold nxt. rewrite zip_length by exact L. reflexivity.
    + intros i ts c X Y Z. destruct (ST i ts X) as (c' & Y' & N & S).
      rewrite Z in S. injection S as S. symmetry in S. apply Z.eqb_eq in S. rewrite N in Y. injection Y as <-. congruence.
Qed.
Theorem C272_stable : forall A dirs times cols out i ts v d m q m',
  valid_call A times cols -> a_window A = None ->
  vec_detector A dirs times cols = Some out -> nth_error cols i = Some ts -> nth_error out i = Some v ->
  In (d, m) v -> m_stable m = true ->
  detector (started_at A (m_index m)) dirs times ts = Some q -> In (d, m') q ->
  m_index m' = m_index m.
Proof.
  intros A dirs times cols out i ts v d m q m' V W H X Y I S D I'.
  assert (FIX : cp_update d ts (m_index m) = m_index m).
  { unfold vec_detector in H. destruct (directions dirs) as [ds|]; [|discriminate].
    destruct (vec_all A times cols (keys [] ds)) as [r|] eqn:R; [|discriminate]. injection H as <-.
    rewrite nth_error_map in Y. destruct (nth_error (seq 0 (length cols)) i) as [j|] eqn:SJ; [|discriminate].
    assert (IL : (i < length cols)%nat) by (apply nth_error_Some; congruence).
    assert (j = i) by (apply nth_error_nth with (d := O) in SJ; rewrite seq_nth in SJ by exact IL; lia). subst j.
    injection Y as <-. unfold convert in I. apply filter_In in I as (I & _). unfold pick_col in I.
    apply in_flat_map in I as ((d', ms) & IR & I). cbn [fst snd] in I.
    destruct (nth_error ms i) as [m0|] eqn:MI; [|destruct I]. destruct I as [I|[]]. injection I as -> ->.
    assert (VM : vec_metas A d times cols (vec_change_points d cols (a_window A) (a_max_iter A) (a_start A)) = Some ms).
    { clear - R IR. revert r R IR. induction (keys [] ds) as [|e es IH]; intros r R IR; cbn [vec_all] in R.
      - injection R as <-. destruct IR.
      - destruct (vec_metas A e times cols _) as [ms'|] eqn:E; [|discriminate].
        destruct (vec_all A times cols es) as [r'|]; [|discriminate]. injection R as <-.
        destruct IR as [IR|IR]; [injection IR as -> ->; exact E|eapply IH; [reflexivity|exact IR]]. }
    rewrite W in VM. clear R IR.
    assert (CPS : exists c, nth_error (vec_change_points d cols None (a_max_iter A) (a_start A)) i = Some c /\
      m_index m = cp_index c /\ m_stable m = cp_stable c).
    { clear - VM MI X. revert i ms VM MI X. generalize (vec_change_points d cols None (a_max_iter A) (a_start A)) as cps.
      induction cols as [|t cols IH]; intros cps i ms VM MI X; [destruct i; discriminate|].
      destruct cps as [|c cps]; [discriminate|]. cbn [vec_metas] in VM.
      destruct (decide A d times t (cp_index c) (cp_mu0 c) (cp_mu1 c) (cp_stable c)) as [m1|] eqn:D; [|discriminate].
      destruct (vec_metas A d times cols cps) as [ms'|] eqn:E; [|discriminate]. injection VM as <-.
      destruct i as [|i]; [|exact (IH cps i ms' E MI X)].
      injection MI as ->. exists c. split; [reflexivity|]. unfold decide in D.
      destruct (nth_z times (cp_index c)); [|discriminate]. destruct (llr_window t (a_window A) (cp_index c)).
      destruct (mag_change A d times t); [|discriminate].
      apply (f_equal (fun o => match o with Some z => z | None => m end)) in D. cbv beta iota in D. subst m. split; reflexivity. }
    destruct CPS as (c & NC & EI & ES). rewrite EI. rewrite ES in S. clear VM MI.
    unfold vec_change_points in NC. rewrite map_id in NC.
    destruct cols as [|c0 cols'] eqn:EC; [destruct i; discriminate|]. rewrite <- EC in *.
    destruct (Nat.eqb (length c0) 0); [destruct i; discriminate|].
    set (r2 := vec_loop d cols (a_max_iter A) (map (vec_start d (a_start A)) cols) (map (fun _ : list Q => false) cols)) in *.
    destruct (vec_loop_spec d cols (a_max_iter A) (map (vec_start d (a_start A)) cols) (map (fun _ : list Q => false) cols)) as (L1 & L2 & _);
      [rewrite map_length; reflexivity|rewrite map_length; reflexivity|]. fold r2 in L1, L2.
    destruct (nth_error (fst r2) i) as [x|] eqn:F1; [|apply nth_error_None in F1; lia].
    destruct (nth_error (snd r2) i) as [b|] eqn:F2; [|apply nth_error_None in F2; lia].
    assert (CB : nth_error (combine (fst r2) (snd r2)) i = Some (x, b)).
    { clear - F1 F2. revert F1 F2. generalize (fst r2) as l, (snd r2) as m0. 
      induction i as [|i IH]; intros [|u l] [|w m0] P Q; try discriminate; simpl in *; [congruence|auto]. }
    rewrite (zip_nth_error _ _ _ _ _ _ X CB) in NC. injection NC as <-. cbn [cp_index cp_stable fst snd] in *. subst b.
    apply (vec_loop_fixed d cols (a_max_iter A) (map (vec_start d (a_start A)) cols) (map (fun _ => false) cols)) with (i := i).
    - rewrite map_length. reflexivity.
    - intros k t c _ _ F. rewrite nth_error_map in F. destruct (nth_error cols k); discriminate.
    - exact X.
    - exact F1.
    - exact F2. }
  unfold detector in D. destruct (directions dirs) as [ds|]; [|discriminate].
  destruct (all_metas (change_meta (started_at A (m_index m)) times ts) (keys [] ds)) as [r|] eqn:R; [|discriminate].
  injection D as <-. unfold convert in I'. apply filter_In in I' as (I' & _).
  apply (proj2 (all_metas_spec _ _ _ R)) in I'. unfold change_meta in I'. cbn [started_at a_window a_max_iter a_start] in I'.
  rewrite W in I'. unfold get_change_point in I'. cbn [cp_start] in I'. rewrite (loop_fixed d ts _ _ FIX) in I'.
  cbn [cp_index cp_mu0 cp_mu1 cp_stable] in I'. unfold decide in I'.
  destruct (nth_z times (m_index m)); [|discriminate]. destruct (llr_window ts _ _).
  destruct (mag_change _ d times ts); [|discriminate].
  apply (f_equal (fun o => match o with Some z => z | None => m' end)) in I'. cbv beta iota in I'. subst m'. reflexivity.
Qed.

(** The other method of the class, [detector_], does the same for a list of directions and
    for None, but not for the other ways to say both and not for a single name. *)
Definition without_start (A : args) : args :=
  MkArgs (a_threshold A) (a_max_iter A) (a_std_ratio A) (a_min_abs A) None (a_window A)
    (a_magnitude A) (a_ratio A) (a_days A) (a_all A).
Theorem C272_other_partial : forall A dirs times cols,
  valid_call A times cols -> cols <> [] ->
  (dirs = DNone \/ exists l, dirs = DList l /\ l <> [] /\ forall s, In s l -> s = NInc \/ s = NDec) ->
  vec_detector_ A dirs times cols = vec_detector (without_start A) dirs times cols.
Proof.
  intros A dirs times cols V NC HD.
  assert (EQ : forall ds, vec_all_ A times cols ds = vec_all (without_start A) times cols ds).
  { assert (VM : forall d cs cps, vec_metas (without_start A) d times cs cps = vec_metas A d times cs cps).
    { intros d. induction cs as [|t cs IH]; intros [|c cps]; try reflexivity. cbn [vec_metas]. rewrite IH. reflexivity. }
    induction ds as [|d ds IH]; [reflexivity|]. cbn [vec_all_ vec_all]. rewrite VM, IH.
    change (a_window (without_start A)) with (a_window A). change (a_max_iter (without_start A)) with (a_max_iter A).
    change (a_start (without_start A)) with (@None Z).
    destruct (vec_change_points_spec A d times cols None V) as (L & _).
    destruct (vec_change_points d cols (a_window A) (a_max_iter A) None) as [|c cps]; [|reflexivity].
    destruct cols; [congruence|discriminate]. }
  assert (DE : directions_ dirs = directions dirs).
  { destruct HD as [->|(l & -> & NE & H)]; [reflexivity|]. destruct l as [|s [|s' l]]; [congruence| |].
    - destruct (H s (or_introl eq_refl)) as [-> | ->]; reflexivity.
    - destruct s; reflexivity. }
  unfold vec_detector_, vec_detector. rewrite DE. destruct (directions dirs) as [ds|]; [|reflexivity].
  rewrite EQ. reflexivity.
Qed.
Theorem C272_other_refuted : forall A times cols,
  (forall s, s <> NEmpty -> vec_detector_ A (DStr s) times cols = None) /\
  vec_detector_ A (DList [NBoth]) times cols = None /\
  vec_detector_ A (DList []) times cols = Some (map (fun _ => []) cols) /\
  understood (DStr NInc) /\ means_both (DStr NBoth) /\ means_both (DList [NBoth]) /\ means_both (DList []).
Proof.
  intros A times cols. split; [intros [] N; try reflexivity; congruence|]. split; [reflexivity|]. split.
  - unfold vec_detector_. cbn [directions_ all_dirs keys vec_all_]. f_equal.
    assert (G : forall (l : list (list Q)) o, map (fun i => convert (a_all A) (pick_col i [])) (seq o (length l)) = map (fun _ => []) l).
    { induction l as [|x l IH]; intros o; [reflexivity|]. simpl. f_equal. apply IH. }
    apply G.
  - repeat split.
    + right. left. exists Increase. reflexivity.
    + right. right. exists NBoth. auto.
    + right. right. exists NBoth. auto.
    + right. left. reflexivity.
Qed.

(** Two columns: a step up and a step down. *)
Example C272_case : valid_call demo_args [0; 1; 2; 3; 4] [[1; 1; 1; 5; 5]%Q; [5; 5; 1; 1; 1]%Q] /\
  exists out, vec_detector demo_args DNone [0; 1; 2; 3; 4] [[1; 1; 1; 5; 5]%Q; [5; 5; 1; 1; 1]%Q] = Some out.
Proof.
  assert (V : valid_call demo_args [0; 1; 2; 3; 4] [[1; 1; 1; 5; 5]%Q; [5; 5; 1; 1; 1]%Q]).
  { split; [intros t [<-|[<-|[]]]; reflexivity|]. split; [simpl; lia|exact I]. }
  split; [exact V|]. destruct (vec_detector demo_args DNone _ _) as [out|] eqn:E; [eauto|]. exfalso.
  apply (C272_raises demo_args DNone _ _ V) in E; [|left; left; reflexivity]. destruct E as (ts & IN & N).
  destruct (C270_returns demo_args DNone [0; 1; 2; 3; 4] ts) as (out & H); try congruence.
  - destruct IN as [<-|[<-|[]]]; reflexivity.
  - destruct IN as [<-|[<-|[]]]; simpl; lia.
  - simpl. lia.
  - exact I.
  - reflexivity.
  - left. left. reflexivity.
Qed.

Print Assumptions C272_columns.
Print Assumptions C272_raises.
Print Assumptions C272_stable_refuted.
Print Assumptions C272_stable.
Print Assumptions C272_other_partial.
Print Assumptions C272_other_refuted.
