(** C29-C31, C69, C70: anomaly responses and change point intervals. *)
From Verif Require Import Common PySlice TSDataModel TSDataSpec TSDataProofs ResponseModel ResponseSpec ResponseProofs.
Open Scope Z_scope.

(** *** C29 *)
Theorem C29_sliding_window : forall {V} (c : comp) (ps : list (point V)) (r : response V) l,
  component c r = Some l -> l <> [] -> in_time_order (l ++ map (given c) ps) ->
  component c (fold_left update ps r) = Some (most_recent (length l) (l ++ map (given c) ps)).
Proof. exact @c29_sliding. Qed.
(** whatever the order of the time stamps, no component changes its length *)
Theorem C29_lengths : forall {V} (c : comp) (ps : list (point V)) (r : response V) l,
  component c r = Some l -> ps <> [] ->
  exists l', component c (fold_left update ps r) = Some l' /\ length l' = Nat.max 1 (length l).
Proof. exact @c29_lengths. Qed.
Theorem C29_absent_components : forall {V} (c : comp) (ps : list (point V)) (r : response V),
  component c r = None -> component c (fold_left update ps r) = None.
Proof. exact @c29_absent. Qed.
Definition c29_response : response Q :=
  MkResponse [(1, 10%Q); (2, 20%Q)] (Some ([(1, 11%Q); (2, 21%Q)], [(1, 12%Q); (2, 22%Q)])) None
             [(1, 13%Q); (2, 23%Q)] None.
Definition c29_points : list (point Q) :=
  [MkPoint 3 30 32 31 0 33 0; MkPoint 5 50 52 51 0 53 0]%Q.
Example C29_case :
  in_time_order (scores c29_response ++ map (given Scores) c29_points)
  /\ fold_left update (firstn 1 c29_points) c29_response
     = MkResponse [(2, 20%Q); (3, 30%Q)] (Some ([(2, 21%Q); (3, 31%Q)], [(2, 22%Q); (3, 32%Q)])) None
                  [(2, 23%Q); (3, 33%Q)] None.
Proof. split; [repeat constructor; cbn; lia|reflexivity]. Qed.

(** *** C30 *)
Theorem C30_last_n_partial : forall {V} (c : comp) (r : response V) l n,
  component c r = Some l -> in_time_order l -> 0 < n ->
  component c (get_last_n r n) = Some (most_recent (Z.to_nat n) l)
  /\ length (most_recent (Z.to_nat n) l) = Nat.min (Z.to_nat n) (length l).
Proof.
  intros V c r l n Hc Hs Hn. split.
  - rewrite component_last, Hc. cbn [option_map]. rewrite last_slice_spec by assumption. reflexivity.
  - unfold most_recent. rewrite skipn_length. lia.
Qed.
Theorem C30_absent_components : forall {V} (c : comp) (r : response V) n,
  component c r = None -> component c (get_last_n r n) = None.
Proof. intros V c r n H. rewrite component_last, H. reflexivity. Qed.
(** asking for the last 0 points returns all of them *)
Theorem C30_zero_refuted : forall {V} (c : comp) (r : response V) l,
  component c r = Some l -> in_time_order l -> component c (get_last_n r 0) = Some l.
Proof.
  intros V c r l Hc Hs. rewrite component_last, Hc. cbn [option_map].
  rewrite last_slice_zero by assumption. reflexivity.
Qed.
Example C30_case :
  scores (get_last_n c29_response 1) = [(2, 20%Q)]
  /\ scores (get_last_n c29_response 7) = [(1, 10%Q); (2, 20%Q)]
  /\ scores (get_last_n c29_response 0) = [(1, 10%Q); (2, 20%Q)].
Proof. repeat split. Qed.

(** *** C31 *)
Theorem C31_held_points : forall {SP} (ops : list interval_op) s e,
  let i := fold_left do_op ops (@new_interval SP s e) in
  i_start i = s /\ i_end i = e
  /\ i_data i = option_map (filter (fun r => (s <=? fst r) && (fst r <? e))) (supplied None ops).
Proof.
  intros SP ops s e i.
  assert (B : i_start i = s /\ i_end i = e).
  { unfold i. clear i. assert (G : forall j : interval SP, i_start (fold_left do_op ops j) = i_start j
      /\ i_end (fold_left do_op ops j) = i_end j).
    { induction ops as [|o t IH]; intros j; [split; reflexivity|]. cbn [fold_left].
      destruct (IH (do_op j o)) as [A B]. destruct (do_op_bounds j o) as (A' & B' & _).
      rewrite A, B, A', B'. split; reflexivity. }
    apply G. }
  destruct B as [B1 B2]. split; [exact B1|]. split; [exact B2|].
  unfold i. rewrite (c31_held_gen ops _ None) by reflexivity. reflexivity.
Qed.
Theorem C31_mean_and_variance : forall {SP} (i : interval SP) d,
  i_data i = Some d ->
  (d <> [] -> exists m, mean_val i = Some m /\ is_mean m (map snd d))
  /\ ((2 <= length d)%nat -> exists v, variance_val i = Some v /\ is_sample_variance v (map snd d))
  /\ (length d = 1%nat -> variance_val i = Some 0%Q)
  /\ (d = [] -> mean_val i = None /\ variance_val i = None)
  /\ interval_len i = length d.
Proof.
  intros SP i d E. unfold mean_val, variance_val, interval_len. rewrite E. repeat split.
  - intros H. apply np_mean_total. destruct d; [congruence|discriminate].
  - intros H. destruct (Nat.eqb_spec (length d) 1); [lia|]. apply np_var1_total. rewrite map_length. exact H.
  - intros ->. reflexivity.
  - subst. reflexivity.
  - subst. reflexivity.
Qed.
(** Spikes, once read, never change again, whatever data is supplied later. *)
Theorem C31_spikes_stale_refuted : forall {SP} (detect : list (Z * Q) -> SP) (i i' : interval SP) s ops,
  spikes detect i = Some (s, i') ->
  exists i'', spikes detect (fold_left do_op ops i') = Some (s, i'').
Proof.
  intros SP detect i i' s ops H.
  assert (C : i_spikes i' = Some s).
  { unfold spikes in H. destruct (i_spikes i) as [x|] eqn:E.
    - injection H as <- <-. exact E.
    - destruct (i_data i); [|discriminate]. injection H as <- <-. reflexivity. }
  clear H i. revert i' C. induction ops as [|o t IH]; intros i' C; cbn [fold_left].
  - exists i'. unfold spikes. rewrite C. reflexivity.
  - apply IH. destruct (do_op_bounds i' o) as (_ & _ & B). rewrite B. exact C.
Qed.
(** Before the first reading they are those of the held data. *)
Theorem C31_first_spikes_partial : forall {SP} (detect : list (Z * Q) -> SP) ops s e d,
  supplied None ops = Some d ->
  exists i', spikes detect (fold_left do_op ops (new_interval s e))
    = Some (detect (filter (fun r => (s <=? fst r) && (fst r <? e)) d), i').
Proof.
  intros SP detect ops s e d H.
  pose proof (@C31_held_points SP ops s e) as (_ & _ & D). cbv zeta in D. rewrite H in D.
  assert (C : i_spikes (fold_left do_op ops (@new_interval SP s e)) = None).
  { assert (G : forall j : interval SP, i_spikes (fold_left do_op ops j) = i_spikes j).
    { clear. induction ops as [|o t IH]; intros j; [reflexivity|]. cbn [fold_left].
      rewrite IH. destruct (do_op_bounds j o) as (_ & _ & B). exact B. }
    rewrite G. reflexivity. }
  unfold spikes. rewrite C, D. cbn [option_map]. eexists. reflexivity.
Qed.
Example C31_case :
  let count := fun l : list (Z * Q) => length l in
  let i := do_op (new_interval 0 10) (SetData [(-1, 1%Q); (0, 2%Q); (9, 4%Q); (10, 7%Q)]) in
  i_data i = Some [(0, 2%Q); (9, 4%Q)]
  /\ mean_val i = Some (6 / 2)%Q
  /\ spikes count i = Some (2%nat, MkInterval 0 10 (Some [(0, 2%Q); (9, 4%Q)]) (Some 2%nat))
  /\ exists i', spikes count (do_op (MkInterval 0 10 (Some [(0, 2%Q); (9, 4%Q)]) (Some 2%nat)) (ExtendData [(5, 1%Q)]))
       = Some (2%nat, i') /\ interval_len i' = 3%nat.
Proof. repeat split. eexists. split; reflexivity. Qed.

(** *** C69 *)
Theorem C69_inplace : forall {V} (c : comp) (r : response V) l p,
  component c r = Some l ->
  exists l', component c (inplace_update r p) = Some l'
    /\ map fst l' = map fst l
    /\ forall i d, (i < length l)%nat ->
         nth i l' d = (if fst (nth i l d) =? p_time p then given c p else nth i l d).
Proof.
  intros V c r l p Hc. rewrite component_inplace, Hc. cbn [option_map]. eexists. split; [reflexivity|].
  split; [apply inplace_times|]. intros i d Hi. rewrite inplace_nth by exact Hi. reflexivity.
Qed.
Theorem C69_absent_components : forall {V} (c : comp) (r : response V) p,
  component c r = None -> component c (inplace_update r p) = None.
Proof. intros V c r p H. rewrite component_inplace, H. reflexivity. Qed.
(** Two updates at different times commute; the later of two at the same time wins. *)
Theorem C69_order : forall {V} (c : comp) (r : response V) p q,
  (p_time p <> p_time q ->
   component c (inplace_update (inplace_update r p) q) = component c (inplace_update (inplace_update r q) p))
  /\ (p_time p = p_time q ->
      component c (inplace_update (inplace_update r p) q) = component c (inplace_update r q)).
Proof.
  intros V c r p q. rewrite !component_inplace. destruct (component c r) as [l|]; cbn [option_map]; [|tauto].
  assert (F : forall z : Z * V, fst (given c p) = p_time p /\ fst (given c q) = p_time q) by (intros; split; reflexivity).
  split; intros H; f_equal; unfold inplace_slice; rewrite !map_map; apply map_ext; intros z;
    destruct (F z) as [-> ->].
  - destruct (Z.eqb_spec (fst z) (p_time p)), (Z.eqb_spec (fst z) (p_time q)); cbn [fst];
      repeat match goal with |- context [?a =? ?b] => destruct (Z.eqb_spec a b) end; congruence.
  - rewrite H. destruct (Z.eqb_spec (fst z) (p_time q)); cbn [fst];
      repeat match goal with |- context [?a =? ?b] => destruct (Z.eqb_spec a b) end; congruence.
Qed.
Example C69_case :
  inplace_update c29_response (MkPoint 2 90 92 91 0 93 0)%Q
  = MkResponse [(1, 10%Q); (2, 90%Q)] (Some ([(1, 11%Q); (2, 91%Q)], [(1, 12%Q); (2, 92%Q)])) None
               [(1, 13%Q); (2, 93%Q)] None.
Proof. reflexivity. Qed.

(** *** C70 *)
Theorem C70_appends_partial : forall {V} infer (r o : response V) validate,
  same_shape r o ->
  (validate = true -> forall c a b, component c r = Some a -> component c o = Some b ->
     infer (map fst (a ++ b)) = true) ->
  exists r', extend_response infer validate r o = (true, r')
    /\ forall c a b, component c r = Some a -> component c o = Some b -> component c r' = Some (a ++ b).
Proof.
  intros V infer r o validate S H. destruct (c70_appended infer r o S) as (r' & E & R).
  exists r'. split; [|exact R]. destruct validate; [|exact E].
  rewrite c70_validated; [exact E|exact S|exact (H eq_refl)].
Qed.
Theorem C70_mismatch_unchanged : forall {V} infer validate (r o : response V),
  ~ same_shape r o -> extend_response infer validate r o = (false, r).
Proof. exact @c70_mismatch. Qed.
(** A failed validation leaves the scores extended and the magnitudes not. *)
Theorem C70_failed_validation_refuted : forall {V} infer (r o : response V),
  same_shape r o -> scores o <> [] ->
  infer (map fst (scores r ++ scores o)) = false ->
  exists r', extend_response infer true r o = (false, r')
    /\ scores r' = scores r ++ scores o /\ scores r' <> scores r
    /\ magnitude r' = magnitude r.
Proof.
  intros V infer r o S Ho Hi. unfold extend_response, extend_ts.
  destruct (xorb (is_some (band r)) (is_some (band o))) eqn:E1.
  { exfalso. pose proof (S Lower) as X. cbn in X. destruct (band r) as [[]|], (band o) as [[]|]; cbn in E1; try discriminate; destruct X as [A B]; try (discriminate (A eq_refl)); discriminate (B eq_refl). }
  destruct (xorb (is_some (predicted r)) (is_some (predicted o))) eqn:E2.
  { exfalso. pose proof (S Predicted) as X. cbn in X. destruct (predicted r), (predicted o); cbn in E2; try discriminate; destruct X as [A B]; try (discriminate (A eq_refl)); discriminate (B eq_refl). }
  destruct (xorb (is_some (stat_sig r)) (is_some (stat_sig o))) eqn:E3.
  { exfalso. pose proof (S StatSig) as X. cbn in X. destruct (stat_sig r), (stat_sig o); cbn in E3; try discriminate; destruct X as [A B]; try (discriminate (A eq_refl)); discriminate (B eq_refl). }
  rewrite Hi. cbn [negb]. eexists. split; [reflexivity|]. cbn [scores magnitude].
  split; [reflexivity|]. split; [|reflexivity].
  intros C. rewrite <- (app_nil_r (scores r)) in C at 2. apply app_inv_head in C. contradiction.
Qed.
Example C70_case :
  let more := MkResponse [(7, 70%Q)] (Some ([(7, 71%Q)], [(7, 72%Q)])) None [(7, 73%Q)] None in
  let strict := fun l : list Z => Nat.leb 3 (length l) && forallb (Z.eqb 1) (diffs l) in
  same_shape c29_response more
  /\ fst (extend_response strict true c29_response more) = false
  /\ scores (snd (extend_response strict true c29_response more)) = [(1, 10%Q); (2, 20%Q); (7, 70%Q)]
  /\ magnitude (snd (extend_response strict false c29_response more)) = [(1, 13%Q); (2, 23%Q); (7, 73%Q)].
Proof. split; [intros c; destruct c; cbn; split; congruence|repeat split]. Qed.

Print Assumptions C29_sliding_window. Print Assumptions C29_lengths. Print Assumptions C29_absent_components.
Print Assumptions C30_last_n_partial. Print Assumptions C30_absent_components. Print Assumptions C30_zero_refuted.
Print Assumptions C31_held_points. Print Assumptions C31_mean_and_variance.
Print Assumptions C31_spikes_stale_refuted. Print Assumptions C31_first_spikes_partial.
Print Assumptions C69_inplace. Print Assumptions C69_absent_components. Print Assumptions C69_order.
Print Assumptions C70_appends_partial. Print Assumptions C70_mismatch_unchanged. Print Assumptions C70_failed_validation_refuted.
