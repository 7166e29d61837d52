(** Theorems about the distribution distance detector: C37, C38, C101, C102. *)
From Verif Require Import Common PySlice TSDataModel TSDataSpec TSDataProofs RollingProofs RollingProps.
From Verif Require Import DistDistModel DistDistSpec DistDistProofs.
From Coq Require Import Sorted Permutation.
Open Scope Q_scope.

(** ** C37: equal percentiles are merged *)
Theorem C37_merge : forall l, l <> [] -> rising l ->
  distribution_of l (merge_percentile l) /\ is_distribution (map snd (merge_percentile l)).
Proof. exact merge_ok. Qed.

Example C37_case : rising [-(5#2); -(13#10); -(13#10); 6#5; 6#5] /\
  map (fun e => (fst e, Qred (snd e))) (merge_percentile [-(5#2); -(13#10); -(13#10); 6#5; 6#5])
  = [(-(5#2), 1#5); (-(13#10), 2#5); (6#5, 2#5)].
Proof. split; [|vm_compute; reflexivity]. unfold rising. repeat (constructor; try lra). Qed.

(** ** C38: the two probability vectors *)
Lemma sorted_same s : forall s', StronglySorted Qlt s -> StronglySorted Qlt s' ->
  (forall x, In x s -> exists y, In y s' /\ y == x) -> (forall y, In y s' -> exists x, In x s /\ x == y) -> Forall2 Qeq s s'.
Proof.
  induction s as [|x t IH]; intros s' Hs Hs' H1 H2.
  - destruct s' as [|y u]; [constructor|]. destruct (H2 y (or_introl eq_refl)) as (? & [] & _).
  - destruct s' as [|y u]; [destruct (H1 x (or_introl eq_refl)) as (? & [] & _)|].
    inversion Hs as [|? ? Ht Hx]; subst. inversion Hs' as [|? ? Hu Hy]; subst. rewrite Forall_forall in Hx, Hy.
    assert (E : x == y).
    { destruct (H1 x (or_introl eq_refl)) as (y' & [<-|Iy] & Ey); [lra|]. destruct (H2 y (or_introl eq_refl)) as (x' & [<-|Ix] & Ex); [lra|].
      specialize (Hx _ Ix). specialize (Hy _ Iy). lra. }
    constructor; [exact E|]. apply IH; [exact Ht|exact Hu| |].
    + intros z Hz. destruct (H1 z (or_intror Hz)) as (w & [<-|Iw] & Ew); [specialize (Hx z Hz); lra|]. exists w. split; assumption.
    + intros z Hz. destruct (H2 z (or_intror Hz)) as (w & [<-|Iw] & Ew); [specialize (Hy z Hz); lra|]. exists w. split; assumption.
Qed.
Lemma forall2_len' {A B} (R : A -> B -> Prop) a b : Forall2 R a b -> length a = length b.
Proof. induction 1; cbn; congruence. Qed.
Lemma distribution_same l d d' : distribution_of l d -> distribution_of l d' -> Forall2 Qeq (map fst d) (map fst d').
Proof.
  intros (S1 & I1 & A1) (S2 & I2 & A2). apply sorted_same; [exact S1|exact S2| |].
  - intros x Hx. apply in_map_iff in Hx as ([x' p] & <- & Hx). destruct (A2 x' (proj1 (I1 _ _ Hx))) as (y & q & Hy & E).
    exists y. split; [apply (in_map fst _ _ Hy)|exact E].
  - intros x Hx. apply in_map_iff in Hx as ([x' p] & <- & Hx). destruct (A1 x' (proj1 (I2 _ _ Hx))) as (y & q & Hy & E).
    exists y. split; [apply (in_map fst _ _ Hy)|exact E].
Qed.
Lemma distribution_length l d d' : distribution_of l d -> distribution_of l d' -> length d = length d'.
Proof. intros H H'. rewrite <- (map_length fst d), <- (map_length fst d'). eapply forall2_len', distribution_same; eassumption. Qed.
Lemma combine_split {A B} (d : list (A * B)) : combine (map fst d) (map snd d) = d.
Proof. induction d as [|[a b] t IH]; cbn; congruence. Qed.

(** Both results are vectors over the distinct values of the list that has more of them (the
    first list in a tie): its shares, and the increments of the other list's interpolated
    distribution function. *)
Theorem C38_vectors : forall l1 l2, length l1 = length l2 -> (1 < length l1)%nat -> rising l1 -> rising l2 ->
  exists p1 p2, percentile_to_prob l1 l2 = Some (p1, p2) /\ length p1 = length p2 /\
  forall d1 d2, distribution_of l1 d1 -> distribution_of l2 d2 ->
  length p1 = Nat.max (length d1) (length d2) /\
  exists s,
    ((length d2 <= length d1)%nat /\ distribution_of l1 (combine s p1) /\ is_distribution p1 /\ projection_of l2 s p2) \/
    ((length d1 < length d2)%nat /\ distribution_of l2 (combine s p2) /\ is_distribution p2 /\ projection_of l1 s p1).
Proof.
  intros l1 l2 L Hn H1 H2. unfold percentile_to_prob. rewrite L, Nat.eqb_refl. rewrite L in Hn. rewrite (proj2 (Nat.ltb_lt _ _) Hn). cbn [andb].
  assert (N1 : l1 <> []) by (intros ->; cbn in L; lia). assert (N2 : l2 <> []) by (intros ->; cbn in Hn; lia).
  destruct (merge_ok l1 N1 H1) as [D1 P1]. destruct (merge_ok l2 N2 H2) as [D2 P2].
  set (m1 := merge_percentile l1) in *. set (m2 := merge_percentile l2) in *. cbv zeta. unfold n_perc.
  destruct (Nat.ltb_spec (length m1) (length m2)).
  - pose proof (project_ok l1 m1 (length l1) (map fst m2) N1 D1 eq_refl (proj1 D2)) as P. destruct P as [PL P'].
    eexists. eexists. split; [reflexivity|]. split; [rewrite PL, !map_length; reflexivity|]. intros d1 d2 E1 E2.
    rewrite (distribution_length _ _ _ E1 D1), (distribution_length _ _ _ E2 D2). split; [rewrite PL, map_length; lia|].
    exists (map fst m2). right. rewrite combine_split. split; [assumption|]. split; [exact D2|]. split; [exact P2|]. split; [exact PL|exact P'].
  - pose proof (project_ok l2 m2 (length l1) (map fst m1) N2 D2 (eq_sym L) (proj1 D1)) as P. destruct P as [PL P'].
    eexists. eexists. split; [reflexivity|]. split; [rewrite PL, !map_length; reflexivity|]. intros d1 d2 E1 E2.
    rewrite (distribution_length _ _ _ E1 D1), (distribution_length _ _ _ E2 D2). split; [rewrite map_length; lia|].
    exists (map fst m1). left. rewrite combine_split. split; [assumption|]. split; [exact D1|]. split; [exact P1|]. split; [exact PL|exact P'].
Qed.

Example C38_case : rising [3;4;5;6;7] /\ rising [1;2;3;4;5] /\
  option_map (fun p => (map Qred (fst p), map Qred (snd p))) (percentile_to_prob [3;4;5;6;7] [1;2;3;4;5])
  = Some ([1#5;1#5;1#5;1#5;1#5], [3#5;1#5;1#5;0;0]).
Proof. split; [|split]; [| |vm_compute; reflexivity]; unfold rising; repeat (constructor; try lra). Qed.

(** The interpolated vector has total mass at most 1, and exactly 1 when the largest value
    reaches the other list's largest one — but not in general. *)
Lemma last_entry {A} (s : list A) : s <> [] -> exists x, nth_error s (length s - 1) = Some x /\ In x s.
Proof.
  intros H. destruct (nth_error s (length s - 1)) as [x|] eqn:E.
  - exists x. split; [reflexivity|eapply nth_error_In, E].
  - apply nth_error_None in E. destruct s; [contradiction|cbn in E; lia].
Qed.
Lemma projection_mass l s p : l <> [] -> s <> [] -> StronglySorted Qlt s -> projection_of l s p ->
  qsum p <= 1 /\ (qsum p == 1 <-> forall y, In y l -> exists x, In x s /\ y <= x).
Proof.
  intros Hl Hs Hst (L & _ & P). destruct (last_entry s Hs) as (x & E & Hx). specialize (P _ _ E).
  rewrite prefix_all in P by lia. destruct (interp_bounds l x (qsum p) Hl P) as (B0 & B1 & B2). split; [exact B1|]. split.
  - intros Hq y Hy. exists x. split; [exact Hx|]. destruct (Qlt_le_dec x y) as [C|C]; [|exact C].
    specialize (B2 (ex_intro _ y (conj Hy C))). lra.
  - intros H. assert (Hmax : forall z, In z s -> z <= x).
    { intros z Hz. apply (In_nth _ _ 0) in Hz as (j & Hj & <-). rewrite <- (nth_error_nth _ _ 0 E). apply ssorted_le; [exact Hst|lia|lia]. }
    destruct P as [[A Q]|[[A Q]|(a & b & Ha & Hb & Hax & Hxb & Hg & Q)]].
    + destruct l as [|y t]; [contradiction|]. destruct (H y (or_introl eq_refl)) as (z & Hz & Hyz). specialize (A y (or_introl eq_refl)). specialize (Hmax z Hz). lra.
    + exact Q.
    + destruct (H b Hb) as (z & Hz & Hbz). specialize (Hmax z Hz). lra.
Qed.
Theorem C38_mass_partial : forall l1 l2 p1 p2, length l1 = length l2 -> (1 < length l1)%nat -> rising l1 -> rising l2 ->
  percentile_to_prob l1 l2 = Some (p1, p2) ->
  qsum p1 <= 1 /\ qsum p2 <= 1 /\
  ((forall y, In y l1 -> exists x, In x l2 /\ y <= x) -> (forall y, In y l2 -> exists x, In x l1 /\ y <= x) ->
   qsum p1 == 1 /\ qsum p2 == 1).
Proof.
  intros l1 l2 p1 p2 L Hn H1 H2 E. destruct (C38_vectors l1 l2 L Hn H1 H2) as (q1 & q2 & E' & EL & K). rewrite E in E'. injection E' as <- <-.
  assert (N1 : l1 <> []) by (intros ->; cbn in Hn; lia). assert (N2 : l2 <> []) by (intros ->; cbn in L; lia).
  destruct (merge_ok l1 N1 H1) as [D1 _]. destruct (merge_ok l2 N2 H2) as [D2 _]. destruct (K _ _ D1 D2) as (_ & s & [(_ & A & B & C)|(_ & A & B & C)]).
  - assert (Es : map fst (combine s p1) = s) by (apply map_fst_combine; destruct C as [C _]; lia).
    pose proof (dist_nonempty l1 _ N1 A) as Ne. destruct A as (A1 & A2 & A3). rewrite Es in A1.
    assert (Hs : s <> []) by (intros ->; apply Ne; reflexivity).
    destruct (projection_mass l2 s p2 N2 Hs A1 C) as [M1 M2]. destruct B as [_ B]. split; [rewrite B; apply Qle_refl|]. split; [exact M1|].
    intros _ Hm. split; [exact B|]. apply M2. intros y Hy. destruct (Hm y Hy) as (x & Hx & Hyx). destruct (A3 x Hx) as (z & q & Hz & Ez).
    exists z. split; [rewrite <- Es; apply (in_map fst _ _ Hz)|]. lra.
  - assert (Es : map fst (combine s p2) = s) by (apply map_fst_combine; destruct C as [C _]; lia).
    pose proof (dist_nonempty l2 _ N2 A) as Ne. destruct A as (A1 & A2 & A3). rewrite Es in A1.
    assert (Hs : s <> []) by (intros ->; apply Ne; reflexivity).
    destruct (projection_mass l1 s p1 N1 Hs A1 C) as [M1 M2]. destruct B as [_ B]. split; [exact M1|]. split; [rewrite B; apply Qle_refl|].
    intros Hm _. split; [|exact B]. apply M2. intros y Hy. destruct (Hm y Hy) as (x & Hx & Hyx). destruct (A3 x Hx) as (z & q & Hz & Ez).
    exists z. split; [rewrite <- Es; apply (in_map fst _ _ Hz)|]. lra.
Qed.
Theorem C38_mass_refuted :
  (* part of the mass is lost *)
  (exists p1 p2, percentile_to_prob [1;2;3;4;5] [3;4;5;6;7] = Some (p1, p2) /\ qsum p1 == 1 /\ qsum p2 == 3#5) /\
  (* all of it is: the distance is then a division by zero *)
  (exists p1 p2, percentile_to_prob [1;1] [2;2] = Some (p1, p2) /\ qsum p1 == 1 /\ qsum p2 == 0).
Proof. split; eexists; eexists; (split; [vm_compute; reflexivity|]); split; vm_compute; reflexivity. Qed.
Example C38_mass_case : rising [1;2;3;5] /\ rising [2;2;4;5] /\
  (forall y, In y [1;2;3;5] -> exists x, In x [2;2;4;5] /\ y <= x) /\ (forall y, In y [2;2;4;5] -> exists x, In x [1;2;3;5] /\ y <= x).
Proof.
  assert (M : forall l m, In 5 m -> Forall (fun y => y <= 5) l -> forall y, In y l -> exists x, In x m /\ y <= x)
    by (intros l m H5 H y Hy; rewrite Forall_forall in H; exists 5; split; [exact H5|apply H, Hy]).
  split; [|split; [|split]]; [unfold rising; repeat (constructor; try lra)|unfold rising; repeat (constructor; try lra)| |];
  apply M; try (cbn; tauto); repeat (constructor; try lra).
Qed.

(** Lists with the same entries give the same vector twice. *)
Lemma prefix_pointwise p : forall q, length p = length q -> (forall k, (k < length p)%nat -> prefix_sum (S k) p == prefix_sum (S k) q) -> pointwise p q.
Proof.
  induction p as [|x t IH]; intros [|y u] L H; try discriminate; [constructor|]. cbn [length] in *.
  assert (E : x == y) by (pose proof (H 0%nat ltac:(lia)) as H0; unfold prefix_sum in H0; cbn in H0; lra).
  constructor; [exact E|]. apply IH; [lia|]. intros k Hk. specialize (H (S k) ltac:(lia)). unfold prefix_sum in *.
  rewrite (firstn_cons (S k) x), (firstn_cons (S k) y) in H. cbn [qsum] in H. lra.
Qed.
Lemma share_all l x : l <> [] -> (forall y, In y l -> y <= x) -> share_le l x == 1.
Proof.
  intros Hl H. pose proof (size_pos l Hl). unfold share_le. assert (E : filter (fun y => Qle_bool y x) l = l).
  { clear - H. induction l as [|a t IH]; [reflexivity|]. cbn [filter]. rewrite qle_b by (apply H; left; reflexivity).
    rewrite IH; [reflexivity|]. intros; apply H; right; assumption. }
  rewrite E. fold (size l). field. lra.
Qed.
(** at one of its own entries the interpolated function is the share so far *)
Lemma interp_at_entry l x y v : l <> [] -> In y l -> y == x -> interpolated l x v -> v == share_le l x.
Proof.
  intros Hl Hy E [[A Q]|[[A Q]|(a & b & Ha & Hb & Hax & Hxb & Hg & Q)]].
  - specialize (A y Hy). lra.
  - rewrite Q. symmetry. apply share_all; assumption.
  - assert (a == x) by (destruct (Hg y Hy); lra). rewrite Q, H. setoid_replace ((x - x) / (b - x) / size l) with 0; [ring|].
    pose proof (size_pos l Hl). field. split; lra.
Qed.
Lemma share_ext l l' x : Forall2 Qeq l l' -> share_le l x == share_le l' x.
Proof.
  intros H. unfold share_le, size. assert (E : length l = length l') by (eapply forall2_len', H). rewrite E.
  assert (F : length (filter (fun y => Qle_bool y x) l) = length (filter (fun y => Qle_bool y x) l')).
  { clear E. induction H as [|a b t u Hab _ IH]; [reflexivity|]. cbn [filter].
    assert (Q : Qle_bool a x = Qle_bool b x) by (rewrite Hab; reflexivity). rewrite Q. destruct (Qle_bool b x); cbn [length]; rewrite IH; reflexivity. }
  rewrite F. reflexivity.
Qed.
Lemma forall2_in {A B} (R : A -> B -> Prop) l m x : Forall2 R l m -> In x l -> exists y, In y m /\ R x y.
Proof. induction 1; intros []; [subst; eexists; split; [left; reflexivity|assumption]|]. destruct (IHForall2 H1) as (z & ? & ?). exists z. split; [right|]; assumption. Qed.
Lemma forall2_in_r {A B} (R : A -> B -> Prop) l m y : Forall2 R l m -> In y m -> exists x, In x l /\ R x y.
Proof. induction 1; intros []; [subst; eexists; split; [left; reflexivity|assumption]|]. destruct (IHForall2 H1) as (z & ? & ?). exists z. split; [right|]; assumption. Qed.
(** the distribution vector has the shares as prefix sums *)
Lemma dist_prefix l d k x : l <> [] -> distribution_of l d -> nth_error (map fst d) k = Some x -> prefix_sum (S k) (map snd d) == share_le l x.
Proof.
  intros Hl Hd E. assert (Hk : (k < length d)%nat) by (rewrite <- (map_length fst d); apply nth_error_Some; congruence).
  rewrite <- (dist_share l d x Hl Hd). symmetry. apply nth_error_nth with (d := 0) in E. apply prefix_indicator; [apply Hd|exact Hk|rewrite E; apply Qle_refl|].
  intros j Hj. rewrite <- E. apply ssorted_nth; [apply Hd|lia|rewrite map_length; lia].
Qed.
Theorem C38_same : forall l1 l2 p1 p2, (1 < length l1)%nat -> rising l1 -> rising l2 -> pointwise l1 l2 ->
  percentile_to_prob l1 l2 = Some (p1, p2) -> pointwise p1 p2.
Proof.
  intros l1 l2 p1 p2 Hn H1 H2 Hp E. pose proof (forall2_len' _ _ _ Hp) as L.
  destruct (C38_vectors l1 l2 L Hn H1 H2) as (q1 & q2 & E' & EL & K). rewrite E in E'. injection E' as <- <-.
  assert (N1 : l1 <> []) by (intros ->; cbn in Hn; lia). assert (N2 : l2 <> []) by (intros ->; cbn in L; lia).
  destruct (merge_ok l1 N1 H1) as [D1 _]. destruct (merge_ok l2 N2 H2) as [D2 _]. destruct (K _ _ D1 D2) as (_ & s & [(_ & A & _ & (C1 & _ & C2))|(_ & A & _ & (C1 & _ & C2))]).
  - assert (Es : map fst (combine s p1) = s) by (apply map_fst_combine; lia). assert (Ep : map snd (combine s p1) = p1) by (apply map_snd_combine; lia).
    apply prefix_pointwise; [exact EL|]. intros k Hk. destruct (nth_error s k) as [x|] eqn:Ex; [|apply nth_error_None in Ex; lia].
    pose proof (dist_prefix l1 _ k x N1 A) as F. rewrite Es, Ep in F. rewrite (F Ex). rewrite (share_ext _ _ x Hp). symmetry.
    destruct A as (_ & A2 & _). assert (Hx : In x (map fst (combine s p1))) by (rewrite Es; eapply nth_error_In, Ex).
    apply in_map_iff in Hx as ([x' q] & Hx' & Hx). cbn [fst] in Hx'. subst x'. destruct (forall2_in _ _ _ x Hp (proj1 (A2 _ _ Hx))) as (y & Hy & Hxy).
    apply (interp_at_entry l2 x y _ N2 Hy ltac:(lra) (C2 k x Ex)).
  - assert (Es : map fst (combine s p2) = s) by (apply map_fst_combine; lia). assert (Ep : map snd (combine s p2) = p2) by (apply map_snd_combine; lia).
    apply prefix_pointwise; [exact EL|]. intros k Hk. destruct (nth_error s k) as [x|] eqn:Ex; [|apply nth_error_None in Ex; lia].
    pose proof (dist_prefix l2 _ k x N2 A) as F. rewrite Es, Ep in F. rewrite (F Ex). rewrite <- (share_ext _ _ x Hp).
    destruct A as (_ & A2 & _). assert (Hx : In x (map fst (combine s p2))) by (rewrite Es; eapply nth_error_In, Ex).
    apply in_map_iff in Hx as ([x' q] & Hx' & Hx). cbn [fst] in Hx'. subst x'. destruct (forall2_in_r _ _ _ x Hp (proj1 (A2 _ _ Hx))) as (y & Hy & Hxy).
    apply (interp_at_entry l1 x y _ N1 Hy ltac:(lra) (C2 k x Ex)).
Qed.

(** ** C102: the order of the two lists *)
Theorem C102_swap_partial : forall l1 l2 d1 d2, length l1 = length l2 -> (1 < length l1)%nat -> rising l1 -> rising l2 ->
  distribution_of l1 d1 -> distribution_of l2 d2 -> length d1 <> length d2 ->
  percentile_to_prob l2 l1 = option_map (fun p => (snd p, fst p)) (percentile_to_prob l1 l2).
Proof.
  intros l1 l2 d1 d2 L Hn H1 H2 E1 E2 Hd. unfold percentile_to_prob. rewrite L, Nat.eqb_refl. rewrite L in Hn. rewrite (proj2 (Nat.ltb_lt _ _) Hn). cbn [andb].
  assert (N1 : l1 <> []) by (intros ->; cbn in L; lia). assert (N2 : l2 <> []) by (intros ->; cbn in Hn; lia).
  destruct (merge_ok l1 N1 H1) as [D1 _]. destruct (merge_ok l2 N2 H2) as [D2 _].
  rewrite (distribution_length _ _ _ E1 D1), (distribution_length _ _ _ E2 D2) in Hd. cbv zeta.
  replace (n_perc l2) with (n_perc l1) by (unfold n_perc; rewrite L; reflexivity).
  destruct (Nat.ltb_spec (length (merge_percentile l1)) (length (merge_percentile l2))), (Nat.ltb_spec (length (merge_percentile l2)) (length (merge_percentile l1)));
    try lia; reflexivity.
Qed.
(** With equally many distinct values the order matters: seen one way the two constant lists
    cannot be told apart, the other way one of them has no mass. *)
Theorem C102_swap_refuted :
  (exists p q, percentile_to_prob [2;2] [1;1] = Some (p, q) /\ pointwise p q /\ qsum p == 1) /\
  (exists p q, percentile_to_prob [1;1] [2;2] = Some (p, q) /\ ~ pointwise p q /\ qsum q == 0).
Proof.
  split; eexists; eexists; (split; [vm_compute; reflexivity|]).
  - split; [repeat constructor|]; vm_compute; reflexivity.
  - split; [|vm_compute; reflexivity]. intros H. inversion H as [|? ? ? ? A]; subst. vm_compute in A. discriminate.
Qed.
Example C102_case : rising [1;1;3] /\ rising [1;2;3] /\ distribution_of [1;1;3] (merge_percentile [1;1;3]) /\
  distribution_of [1;2;3] (merge_percentile [1;2;3]) /\ length (merge_percentile [1;1;3]) <> length (merge_percentile [1;2;3]).
Proof.
  assert (A : rising [1;1;3]) by (unfold rising; repeat (constructor; try lra)).
  assert (B : rising [1;2;3]) by (unfold rising; repeat (constructor; try lra)).
  split; [exact A|]. split; [exact B|]. split; [apply merge_ok; [discriminate|exact A]|]. split; [apply merge_ok; [discriminate|exact B]|].
  vm_compute. discriminate.
Qed.

Print Assumptions C37_merge.
Print Assumptions C38_vectors.
Print Assumptions C38_mass_partial.
Print Assumptions C38_mass_refuted.
Print Assumptions C38_same.
Print Assumptions C102_swap_partial.
Print Assumptions C102_swap_refuted.
