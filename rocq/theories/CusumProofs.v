From Verif Require Import Common PySlice CusumModel CusumSpec.
Open Scope Z_scope.

(** * arg_best *)
Definition no_worse (d : direction) (b x : Q) : Prop := match d with Increase => (b <= x)%Q | Decrease => (x <= b)%Q end.

Lemma better_true d x b : better d x b = true -> no_worse d x b.
Proof.
  unfold better, no_worse. destruct d; rewrite negb_true_iff; intros H;
    (apply Qnot_lt_le; intros Hlt; apply Qlt_le_weak, Qle_bool_iff in Hlt; congruence).
Qed.
Lemma better_false d x b : better d x b = false -> no_worse d b x.
Proof. unfold better, no_worse. destruct d; rewrite negb_false_iff, Qle_bool_iff; auto. Qed.
Lemma no_worse_trans d a b c : no_worse d a b -> no_worse d b c -> no_worse d a c.
Proof. unfold no_worse; destruct d; intros; lra. Qed.
Lemma no_worse_refl d a : no_worse d a a.
Proof. unfold no_worse; destruct d; lra. Qed.

Lemma arg_from_spec d l : forall i b j, (i < j)%nat ->
  let r := arg_from d i b j l in
  (r = i \/ (j <= r < j + length l)%nat) /\
  exists v, (r = i -> v = b) /\ ((j <= r)%nat -> v = nth (r - j) l 0%Q) /\
    no_worse d v b /\ (forall k, (k < length l)%nat -> no_worse d v (nth k l 0%Q)).
Proof.
  induction l as [|x t IH]; intros i b j Hij; cbn [arg_from].
  - cbv zeta. split; [left; reflexivity|]. exists b. repeat split; [intros; lia|apply no_worse_refl|simpl; intros; lia].
  - destruct (better d x b) eqn:E.
    + apply better_true in E. destruct (IH j x (S j) ltac:(lia)) as [Hr [v [H1 [H2 [H3 H4]]]]].
      cbv zeta in *. set (r := arg_from d j x (S j) t) in *.
      split; [right; simpl; lia|]. exists v. split; [intros; lia|]. split.
      { intros _. destruct Hr as [Hr|Hr].
        - rewrite H1 by exact Hr. rewrite Hr, Nat.sub_diag. reflexivity.
        - rewrite H2 by lia. replace (r - j)%nat with (S (r - S j)) by lia. reflexivity. }
      split; [eapply no_worse_trans; eauto|].
      intros [|k] Hk; [exact H3|]. apply H4. simpl in Hk; lia.
    + apply better_false in E. destruct (IH i b (S j) ltac:(lia)) as [Hr [v [H1 [H2 [H3 H4]]]]].
      cbv zeta in *. set (r := arg_from d i b (S j) t) in *.
      split; [destruct Hr; [left; auto|right; simpl; lia]|]. exists v. split; [exact H1|]. split.
      { intros Hge. destruct Hr as [Hr|Hr]; [lia|]. rewrite H2 by lia.
        replace (r - j)%nat with (S (r - S j)) by lia. reflexivity. }
      split; [exact H3|].
      intros [|k] Hk; [eapply no_worse_trans; eauto|]. apply H4. simpl in Hk; lia.
Qed.

Lemma arg_best_spec d l : l <> [] ->
  (arg_best d l < length l)%nat /\
  forall k, (k < length l)%nat -> no_worse d (nth (arg_best d l) l 0%Q) (nth k l 0%Q).
Proof.
  destruct l as [|b t]; [congruence|]. intros _. unfold arg_best.
  destruct (arg_from_spec d t O b 1 ltac:(lia)) as [Hr [v [H1 [H2 [H3 H4]]]]]. cbv zeta in *.
  set (r := arg_from d 0 b 1 t) in *. simpl length. split; [destruct Hr; lia|].
  assert (Hv : nth r (b :: t) 0%Q = v).
  { destruct Hr as [Hr|Hr]; [rewrite Hr; simpl; symmetry; auto|].
    rewrite H2 by lia. destruct r; [lia|]. simpl. rewrite Nat.sub_0_r. reflexivity. }
  rewrite Hv. intros [|k] Hk; [exact H3|]. apply H4. lia.
Qed.

Lemma cumsum_length a l : length (cumsum_from a l) = length l.
Proof. revert a; induction l; intros; simpl; auto. Qed.

Lemma cumsum_nth l : forall a k, (k < length l)%nat -> (nth k (cumsum_from a l) 0 == a + qsum (firstn (S k) l))%Q.
Proof.
  induction l as [|x t IH]; intros a k Hk; [simpl in Hk; lia|].
  destruct k as [|k]; [simpl; ring|].
  change (nth (S k) (cumsum_from a (x :: t)) 0%Q) with (nth k (cumsum_from (a + x)%Q t) 0%Q).
  rewrite IH by (simpl in Hk; lia). change (firstn (S (S k)) (x :: t)) with (x :: firstn (S k) t). simpl qsum. ring.
Qed.

(** * The search stays strictly inside *)
Lemma update_bounds d ts cp : 3 <= Z.of_nat (length ts) -> 1 <= cp_update d ts cp <= Z.of_nat (length ts) - 2.
Proof. intros H. unfold cp_update. lia. Qed.

Lemma loop_bounds d ts fuel cp : 3 <= Z.of_nat (length ts) -> (1 <= fuel)%nat ->
  1 <= fst (cp_loop d ts fuel cp) <= Z.of_nat (length ts) - 2.
Proof.
  intros Hn. revert cp. induction fuel as [|fuel IH]; intros cp Hf; [lia|].
  cbn [cp_loop]. destruct (Z.eqb_spec (cp_update d ts cp) cp) as [E|E].
  - cbn [fst]. rewrite <- E. apply update_bounds; auto.
  - destruct fuel as [|fuel]; [cbn [cp_loop fst]; apply update_bounds; auto|]. apply IH. lia.
Qed.

Lemma loop_stable d ts fuel cp : snd (cp_loop d ts fuel cp) = true ->
  cp_update d ts (fst (cp_loop d ts fuel cp)) = fst (cp_loop d ts fuel cp).
Proof.
  revert cp. induction fuel as [|fuel IH]; intros cp; [discriminate|].
  cbn [cp_loop]. destruct (Z.eqb_spec (cp_update d ts cp) cp) as [E|E]; [intros _; exact E|]. apply IH.
Qed.

Lemma slice_first {A} (l : list A) k : 0 <= k <= Z.of_nat (length l) -> py_slice l None (Some k) = firstn (Z.to_nat k) l.
Proof. intros H. unfold py_slice. rewrite norm_idx_in by lia. rewrite Z.sub_0_r. reflexivity. Qed.
Lemma slice_last {A} (l : list A) k : 0 <= k <= Z.of_nat (length l) -> py_slice l (Some k) None = skipn (Z.to_nat k) l.
Proof. intros H. unfold py_slice. rewrite norm_idx_in by lia. apply firstn_all2. rewrite skipn_length. lia. Qed.

Lemma len_q_pos {A} (l : list A) : l <> [] -> (0 < inject_Z (Z.of_nat (length l)))%Q.
Proof. intros H. destruct l; [congruence|]. unfold Qlt; simpl. lia. Qed.

Lemma qmean_spec l m : qmean l = Some m -> is_mean m l.
Proof.
  unfold qmean. intros H. destruct l as [|x t]; [discriminate|].
  assert (Hm : (m == qsum (x :: t) / inject_Z (Z.of_nat (length (x :: t))))%Q) by (injection H as <-; reflexivity).
  clear H. split; [discriminate|]. rewrite Hm. field.
  pose proof (len_q_pos (x :: t) ltac:(discriminate)). intros E. rewrite E in H. lra.
Qed.
Lemma qmean_some l : l <> [] -> exists m, qmean l = Some m.
Proof. destruct l; [congruence|]. intros _. eexists; reflexivity. Qed.

(** Full search without interest window. *)
Lemma search_splits d ts max_iter start cp :
  3 <= Z.of_nat (length ts) -> (1 <= max_iter)%nat ->
  get_change_point d ts None max_iter start = Some cp ->
  1 <= cp_index cp <= Z.of_nat (length ts) - 2 /\
  exists before after m0 m1, ts = before ++ after /\ Z.of_nat (length before) = cp_index cp + 1 /\ after <> [] /\
    cp_mu0 cp = Some m0 /\ cp_mu1 cp = Some m1 /\ is_mean m0 before /\ is_mean m1 after.
Proof.
  intros Hn Hi. unfold get_change_point. destruct (cp_start d ts start) as [s|]; [|discriminate].
  intros H; injection H as <-. cbn [cp_index cp_mu0 cp_mu1].
  pose proof (loop_bounds d ts max_iter s Hn Hi) as Hb. set (c := fst (cp_loop d ts max_iter s)) in *.
  split; [exact Hb|]. rewrite slice_first, slice_last by lia.
  exists (firstn (Z.to_nat (c + 1)) ts), (skipn (Z.to_nat (c + 1)) ts).
  assert (L1 : length (firstn (Z.to_nat (c + 1)) ts) = Z.to_nat (c + 1)) by (apply firstn_length_le; lia).
  assert (L2 : length (skipn (Z.to_nat (c + 1)) ts) = (length ts - Z.to_nat (c + 1))%nat) by apply skipn_length.
  destruct (qmean_some (firstn (Z.to_nat (c + 1)) ts)) as [m0 E0].
  { intros E. rewrite E in L1. simpl in L1. lia. }
  assert (Hne : skipn (Z.to_nat (c + 1)) ts <> []) by (intros E; rewrite E in L2; simpl in L2; lia).
  destruct (qmean_some _ Hne) as [m1 E1].
  exists m0, m1. split; [symmetry; apply firstn_skipn|]. split; [lia|]. split; [exact Hne|].
  split; [exact E0|]. split; [exact E1|]. split; apply qmean_spec; auto.
Qed.

Lemma search_defined d ts window max_iter start :
  (match window with Some (a, b) => py_slice ts (Some a) (Some b) | None => ts end) <> [] \/ start <> None ->
  exists cp, get_change_point d ts window max_iter start = Some cp.
Proof.
  intros H. unfold get_change_point, cp_start.
  destruct start as [s|]; [eexists; reflexivity|].
  destruct (match window with Some (a, b) => _ | None => _ end) as [|x t]; [destruct H; congruence|].
  eexists; reflexivity.
Qed.

Lemma search_window d ts a b max_iter start cp :
  0 <= a -> a + 3 <= b -> b <= Z.of_nat (length ts) -> (1 <= max_iter)%nat ->
  get_change_point d ts (Some (a, b)) max_iter start = Some cp ->
  a + 1 <= cp_index cp <= b - 2 /\
  exists before after m0 m1, ts = before ++ after /\ Z.of_nat (length before) = cp_index cp + 1 /\ after <> [] /\
    cp_mu0 cp = Some m0 /\ cp_mu1 cp = Some m1 /\ is_mean m0 before /\ is_mean m1 after.
Proof.
  intros Ha Hab Hb Hi. unfold get_change_point.
  assert (Hl : Z.of_nat (length (py_slice ts (Some a) (Some b))) = b - a) by (apply py_slice_length; lia).
  set (w := py_slice ts (Some a) (Some b)) in *.
  destruct (cp_start d w start) as [s|]; [|discriminate].
  intros H; injection H as <-. cbn [cp_index cp_mu0 cp_mu1].
  pose proof (loop_bounds d w max_iter s ltac:(lia) Hi) as Hc.
  set (c := fst (cp_loop d w max_iter s) + a) in *.
  assert (Hc' : a + 1 <= c <= b - 2) by lia. split; [exact Hc'|]. rewrite slice_first, slice_last by lia.
  exists (firstn (Z.to_nat (c + 1)) ts), (skipn (Z.to_nat (c + 1)) ts).
  assert (L1 : length (firstn (Z.to_nat (c + 1)) ts) = Z.to_nat (c + 1)) by (apply firstn_length_le; lia).
  assert (L2 : length (skipn (Z.to_nat (c + 1)) ts) = (length ts - Z.to_nat (c + 1))%nat) by apply skipn_length.
  destruct (qmean_some (firstn (Z.to_nat (c + 1)) ts)) as [m0 E0].
  { intros E. rewrite E in L1. simpl in L1. lia. }
  assert (Hne : skipn (Z.to_nat (c + 1)) ts <> []) by (intros E; rewrite E in L2; simpl in L2; lia).
  destruct (qmean_some _ Hne) as [m1 E1].
  exists m0, m1. split; [symmetry; apply firstn_skipn|]. split; [lia|]. split; [exact Hne|].
  split; [exact E0|]. split; [exact E1|]. split; apply qmean_spec; auto.
Qed.

(** Two points: the change point is the last point and the mean after it is NaN. *)
Lemma two_points d x y max_iter : (2 <= max_iter)%nat ->
  exists cp, get_change_point d [x; y] None max_iter None = Some cp /\ cp_index cp = 1 /\ cp_mu1 cp = None.
Proof.
  intros Hi. unfold get_change_point. cbn [cp_start].
  set (s := Z.min _ _). eexists. split; [reflexivity|]. cbn [cp_index cp_mu1].
  assert (Hu : forall c, cp_update d [x; y] c = 1).
  { intros c. unfold cp_update. cbn [length Z.of_nat Pos.of_succ_nat Pos.succ]. lia. }
  assert (Hl : fst (cp_loop d [x; y] max_iter s) = 1).
  { destruct max_iter as [|[|k]]; try lia. cbn [cp_loop]. rewrite !Hu.
    destruct (Z.eqb_spec 1 s) as [<-|]; reflexivity. }
  rewrite Hl. split; reflexivity.
Qed.

Lemma two_point_window d ts max_iter : (2 <= length ts)%nat -> (2 <= max_iter)%nat ->
  let n := Z.of_nat (length ts) in
  exists cp, get_change_point d ts (Some (n - 2, n)) max_iter None = Some cp /\ cp_index cp = n - 1 /\ cp_mu1 cp = None /\
    forall sig sig_int mag min_abs std ratio, regression_detected d cp sig sig_int mag min_abs std ratio = false.
Proof.
  intros Hn Hi n. unfold get_change_point.
  assert (Hl : Z.of_nat (length (py_slice ts (Some (n - 2)) (Some n))) = 2) by (rewrite py_slice_length; lia).
  destruct (py_slice ts (Some (n - 2)) (Some n)) as [|x [|y [|z t]]]; simpl in Hl; try lia. clear Hl.
  cbn [cp_start]. set (s := Z.min _ _). eexists. split; [reflexivity|]. cbn [cp_index cp_mu1].
  assert (Hu : forall c, cp_update d [x; y] c = 1).
  { intros c. unfold cp_update. cbn [length Z.of_nat Pos.of_succ_nat Pos.succ]. lia. }
  assert (Hl : fst (cp_loop d [x; y] max_iter s) = 1).
  { destruct max_iter as [|[|k]]; try lia. cbn [cp_loop]. rewrite !Hu.
    destruct (Z.eqb_spec 1 s) as [<-|]; reflexivity. }
  rewrite Hl. split; [lia|].
  assert (Hm : qmean (py_slice ts (Some (1 + (n - 2) + 1)) None) = None).
  { rewrite slice_last by lia. rewrite skipn_all2 by lia. reflexivity. }
  split; [exact Hm|]. intros. unfold regression_detected. cbn [cp_mu0 cp_mu1]. rewrite Hm.
  destruct (qmean (py_slice ts None _)); reflexivity.
Qed.

Lemma search_stable d ts max_iter start cp :
  get_change_point d ts None max_iter start = Some cp -> cp_stable cp = true ->
  cp_update d ts (cp_index cp) = cp_index cp.
Proof.
  unfold get_change_point. destruct (cp_start d ts start) as [s|]; [|discriminate].
  intros H; injection H as <-. cbn [cp_index cp_stable]. apply loop_stable.
Qed.

(** * A stable interior change point is the best split for its means *)
Lemma qsum_map_sub l m : (qsum (map (fun x => x - m) l) == qsum l - inject_Z (Z.of_nat (length l)) * m)%Q.
Proof.
  induction l as [|x t IH]; [simpl; ring|]. cbn [map length]. cbn [qsum]. rewrite IH.
  rewrite Nat2Z.inj_succ, <- Z.add_1_r, inject_Z_plus. change (inject_Z 1) with 1%Q. ring.
Qed.

Lemma err_diff l a b : (qsum (map (fun x => sq (x - a)) l) - qsum (map (fun x => sq (x - b)) l)
  == 2 * (b - a) * qsum (map (fun x => x - (a + b) / 2) l))%Q.
Proof.
  induction l as [|x t IH]; cbn [map qsum]; [ring|]. unfold sq in *.
  set (A := qsum (map (fun x0 => (x0 - a) * (x0 - a))%Q t)) in *.
  set (B := qsum (map (fun x0 => (x0 - b) * (x0 - b))%Q t)) in *.
  set (S := qsum (map (fun x0 => x0 - (a + b) / 2)%Q t)) in *.
  rewrite Qmult_plus_distr_r. rewrite <- IH. field.
Qed.

Lemma two_level_total ts k a b :
  (two_level_error ts k a b == qsum (map (fun x => sq (x - b)) ts)
     + 2 * (b - a) * qsum (map (fun x => x - (a + b) / 2) (firstn (S k) ts)))%Q.
Proof.
  unfold two_level_error. rewrite <- err_diff.
  assert (E : (qsum (map (fun x => sq (x - b)) ts) == qsum (map (fun x => sq (x - b)) (firstn (S k) ts))
     + qsum (map (fun x => sq (x - b)) (skipn (S k) ts)))%Q).
  { rewrite <- qsum_app, <- map_app, firstn_skipn. reflexivity. }
  rewrite E. ring.
Qed.

Lemma firstn_map_comm {A B} (f : A -> B) k l : firstn k (map f l) = map f (firstn k l).
Proof. revert l; induction k; intros [|x l]; simpl; auto. f_equal; auto. Qed.

Lemma stable_best d ts max_iter start cp m0 m1 :
  get_change_point d ts None max_iter start = Some cp -> cp_stable cp = true ->
  1 < cp_index cp < Z.of_nat (length ts) - 2 ->
  cp_mu0 cp = Some m0 -> cp_mu1 cp = Some m1 ->
  no_worse d m0 m1 /\
  forall k, (k < length ts)%nat ->
    (two_level_error ts (Z.to_nat (cp_index cp)) m0 m1 <= two_level_error ts k m0 m1)%Q.
Proof.
  intros Hg Hst Hin E0 E1. pose proof (search_stable _ _ _ _ _ Hg Hst) as Hu.
  unfold get_change_point in Hg. destruct (cp_start d ts start) as [s|]; [|discriminate].
  injection Hg as <-. cbn [cp_index cp_mu0 cp_mu1 cp_stable] in *.
  set (c := fst (cp_loop d ts max_iter s)) in *.
  unfold cp_update in Hu. rewrite E0, E1 in Hu. cbn [half_sum cusum_arg] in Hu.
  set (m := ((m0 + m1) / 2)%Q) in *.
  set (S_ := cumsum_from 0 (map (fun x => (x - m)%Q) ts)) in *.
  assert (HSl : length S_ = length ts) by (unfold S_; rewrite cumsum_length, map_length; reflexivity).
  assert (Harg : Z.of_nat (arg_best d S_) = c) by lia.
  destruct (arg_best_spec d S_) as [Hlt Hbest].
  { intros E. rewrite E in HSl. simpl in HSl. lia. }
  rewrite HSl in Hlt, Hbest.
  assert (Hs : forall k, (k < length ts)%nat -> (nth k S_ 0 == qsum (map (fun x => x - m) (firstn (S k) ts)))%Q).
  { intros k Hk. unfold S_. rewrite cumsum_nth by (rewrite map_length; auto). rewrite firstn_map_comm. ring. }
  assert (Hc : arg_best d S_ = Z.to_nat c) by lia. rewrite Hc in Hbest.
  assert (Hbest' : forall k, (k < length ts)%nat -> no_worse d (qsum (map (fun x => (x - m)%Q) (firstn (S (Z.to_nat c)) ts)))
      (qsum (map (fun x => (x - m)%Q) (firstn (S k) ts)))).
  { intros k Hk. specialize (Hbest k Hk). unfold no_worse in *.
    pose proof (Hs (Z.to_nat c) ltac:(lia)). pose proof (Hs k Hk). destruct d; lra. }
  rewrite slice_first in E0 by lia. rewrite slice_last in E1 by lia.
  replace (Z.to_nat (c + 1)) with (S (Z.to_nat c)) in * by lia.
  apply qmean_spec in E0, E1. destruct E0 as [N0 E0], E1 as [N1 E1].
  set (P := firstn (S (Z.to_nat c)) ts) in *. set (R := skipn (S (Z.to_nat c)) ts) in *.
  assert (Hord : no_worse d m0 m1).
  { pose proof (Hbest' (length ts - 1)%nat ltac:(lia)) as Hend.
    replace (S (length ts - 1)) with (length ts) in Hend by lia. rewrite firstn_all in Hend.
    assert (Hsplit : (qsum (map (fun x => x - m) ts) == qsum (map (fun x => x - m) P) + qsum (map (fun x => x - m) R))%Q).
    { rewrite <- (firstn_skipn (S (Z.to_nat c)) ts) at 1. rewrite map_app, qsum_app. reflexivity. }
    assert (HR : (qsum (map (fun x => x - m) R) == (1 # 2) * (inject_Z (Z.of_nat (length R)) * (m1 - m0)))%Q).
    { rewrite qsum_map_sub, <- E1. unfold m. field. }
    pose proof (len_q_pos R N1) as HLp. set (L := inject_Z (Z.of_nat (length R))) in *.
    unfold no_worse in *. destruct d.
    - destruct (Qlt_le_dec m1 m0) as [Hlt'|]; [exfalso|assumption].
      assert (0 < L * (m0 - m1))%Q by (apply Qmult_lt_0_compat; lra).
      assert (L * (m1 - m0) == - (L * (m0 - m1)))%Q by ring. lra.
    - destruct (Qlt_le_dec m0 m1) as [Hlt'|]; [exfalso|assumption].
      assert (0 < L * (m1 - m0))%Q by (apply Qmult_lt_0_compat; lra). lra. }
  split; [exact Hord|]. intros k Hk. rewrite !two_level_total. fold m. fold P.
  specialize (Hbest' k Hk). unfold no_worse in *. destruct d; nra.
Qed.

Lemma regression_direction d cp sig sig_int mag min_abs std ratio :
  regression_detected d cp sig sig_int mag min_abs std ratio = true ->
  exists m0 m1, cp_mu0 cp = Some m0 /\ cp_mu1 cp = Some m1 /\
    (match d with Increase => min_abs < m1 - m0 | Decrease => min_abs < m0 - m1 end)%Q /\
    (std * ratio < Qabs (m1 - m0))%Q /\ sig = true /\ sig_int = true /\ mag = true.
Proof.
  unfold regression_detected. destruct (cp_mu0 cp) as [m0|], (cp_mu1 cp) as [m1|]; try discriminate.
  rewrite !andb_true_iff. intros [[[[H1 H2] H3] H4] H5]. exists m0, m1. repeat split; auto.
  - destruct d; rewrite negb_true_iff in H3.
    + apply Qnot_le_lt. intros Hle. assert (Qle_bool m1 (m0 + min_abs) = true) by (apply Qle_bool_iff; lra). congruence.
    + apply Qnot_le_lt. intros Hle. assert (Qle_bool m0 (m1 + min_abs) = true) by (apply Qle_bool_iff; lra). congruence.
  - rewrite negb_true_iff in H4. apply Qnot_le_lt. intros Hle. apply Qle_bool_iff in Hle. congruence.
Qed.
