From Verif Require Import Common RunProbModel RunProbSpec RunProbProofs.
Open Scope Q_scope.

Lemma Qle_bool_false a b : Qle_bool a b = false <-> b < a.
Proof.
  destruct (Qle_bool a b) eqn:E.
  - apply Qle_bool_iff in E. split; [discriminate|lra].
  - split; [|reflexivity]. intros _. destruct (Qlt_le_dec b a) as [H|H]; [exact H|].
    apply Qle_bool_iff in H. congruence.
Qed.

Lemma Qle_bool_true a b : Qle_bool a b = true <-> a <= b.
Proof. apply Qle_bool_iff. Qed.

Lemma Qle_bool_spec a b : BoolSpec (a <= b) (b < a) (Qle_bool a b).
Proof.
  destruct (Qle_bool a b) eqn:E; constructor.
  - apply Qle_bool_iff; exact E.
  - apply Qle_bool_false; exact E.
Qed.

(** * _get_lowest_m *)
Section LowestM.
Variables (pg r : Q) (n max_iter : nat).
Hypotheses (Hpg : 0 <= pg) (Hr : 0 <= r).
Let target := pg * (r + 1).

Lemma target_ge : pg <= target.
Proof. unfold target. nra. Qed.

Lemma lowest_m_loop_sound fuel m p m' v :
  (0 < m)%nat ->
  (forall k, (0 < k < m)%nat -> target < G k pg n O) ->
  lowest_m_loop fuel pg r n max_iter m p = Some (m', v) ->
  (0 < m' <= n)%nat /\ (m' < max_iter)%nat /\ v == G m' pg n O /\ v <= target /\
  (forall k, (0 < k < m')%nat -> target < G k pg n O).
Proof.
  revert m p. induction fuel as [|f IH]; intros m p Hm Hprev H; simpl in H; [discriminate|].
  destruct (Nat.ltb_spec m max_iter) as [Hmi|]; [|discriminate].
  destruct (Qle_bool pg p); [|discriminate].
  destruct (Nat.leb_spec m n) as [Hmn|]; [|discriminate]. simpl in H.
  destruct (run_probability_G pg n m Hm Hmn) as [w [Hw HwG]]. rewrite Hw in H.
  destruct (Qle_bool_spec w (pg * (r + 1))) as [Hle|Hgt].
  - injection H as <- <-. repeat split; try lia; auto.
  - apply IH in H; [exact H|lia|]. intros k Hk.
    destruct (Nat.eq_dec k m) as [->|Hne]; [rewrite <- HwG; exact Hgt|apply Hprev; lia].
Qed.

Lemma lowest_m_loop_complete fuel m p m0 :
  (0 < m <= m0)%nat -> (m0 <= n)%nat -> (m0 < max_iter)%nat -> (m0 < m + fuel)%nat ->
  pg <= p ->
  (forall k, (m <= k < m0)%nat -> target < G k pg n O) -> G m0 pg n O <= target ->
  exists v, lowest_m_loop fuel pg r n max_iter m p = Some (m0, v) /\ v == G m0 pg n O.
Proof.
  revert m p. induction fuel as [|f IH]; intros m p Hm Hn Hmi Hf Hp Hprev Hle; [lia|]. simpl.
  destruct (Nat.ltb_spec m max_iter); [|lia].
  destruct (Qle_bool_spec pg p); [|lra].
  destruct (Nat.leb_spec m n); [|lia]. simpl.
  destruct (run_probability_G pg n m ltac:(lia) ltac:(lia)) as [w [Hw HwG]]. rewrite Hw.
  destruct (Nat.eq_dec m m0) as [->|Hne].
  - destruct (Qle_bool_spec w (pg * (r + 1))) as [_|Hgt]; [exists w; auto|].
    unfold target in Hle. rewrite <- HwG in Hle. lra.
  - destruct (Qle_bool_spec w (pg * (r + 1))) as [Hle'|Hgt].
    + specialize (Hprev m ltac:(lia)). unfold target in Hprev. rewrite <- HwG in Hprev. lra.
    + apply IH; try lia; auto.
      * pose proof target_ge. unfold target in *. lra.
      * intros k Hk. apply Hprev. lia.
Qed.

Lemma lowest_m_none_iff :
  get_lowest_m pg n r max_iter = None <->
  (forall k, (0 < k <= n)%nat -> (k < max_iter)%nat -> target < G k pg n O).
Proof.
  unfold get_lowest_m. split.
  - intros H k0 Hk0 Hk0m. destruct (Qlt_le_dec target (G k0 pg n O)) as [?|Hle]; [assumption|exfalso].
    (* take the least witness *)
    assert (Hleast : exists k, (0 < k <= k0)%nat /\ G k pg n O <= target /\
              forall j, (0 < j < k)%nat -> target < G j pg n O).
    { clear H Hk0m. revert Hk0 Hle. induction k0 as [k0 IHk] using lt_wf_ind. intros Hk0 Hle.
      assert (Hdec : (exists j, (0 < j < k0)%nat /\ G j pg n O <= target) \/
                     (forall j, (0 < j < k0)%nat -> target < G j pg n O)).
      { clear IHk Hle Hk0. induction k0 as [|k IH].
        - right. intros j Hj; lia.
        - destruct IH as [[j [Hj Hl]]|Hall].
          + left; exists j; split; [lia|auto].
          + destruct (Qlt_le_dec target (G k pg n O)) as [Hgt|Hl].
            * right. intros j Hj. destruct (Nat.eq_dec j k) as [->|]; [auto|apply Hall; lia].
            * destruct k as [|k]; [right; intros j Hj; lia|].
              left; exists (S k); split; [lia|auto]. }
      destruct Hdec as [[j [Hj Hl]]|Hall].
      - destruct (IHk j ltac:(lia) ltac:(lia) Hl) as [k [Hk [Hkl Hka]]].
        exists k; split; [lia|auto].
      - exists k0; split; [lia|auto]. }
    destruct Hleast as [k [Hk [Hkl Hka]]].
    destruct (lowest_m_loop_complete max_iter 1 pg k) as [v [Hv _]];
      try lia; try apply Qle_refl; try exact Hkl; try (intros j Hj; apply Hka; lia).
    congruence.
  - intros Hall. destruct (lowest_m_loop max_iter pg r n max_iter 1 pg) as [[m v]|] eqn:E; [|reflexivity].
    apply lowest_m_loop_sound in E; [|lia|intros; lia].
    destruct E as [E1 [E2 [E3 [E4 _]]]]. specialize (Hall m E1 E2). rewrite <- E3 in Hall. lra.
Qed.
End LowestM.

Lemma lowest_m_sound pg r n max_iter m v :
  get_lowest_m pg n r max_iter = Some (m, v) ->
  (0 < m <= n)%nat /\ (m < max_iter)%nat /\ v == true_run_probability pg n m /\
  true_run_probability pg n m <= pg * (1 + r) /\
  (forall k, (0 < k < m)%nat -> pg * (1 + r) < true_run_probability pg n k).
Proof.
  intros H. unfold get_lowest_m in H. apply lowest_m_loop_sound in H; [|lia|intros; lia].
  destruct H as [H1 [H2 [H3 [H4 H5]]]]. rewrite true_run_G. repeat split; try lia; auto.
  - rewrite <- H3. lra.
  - intros k Hk. rewrite true_run_G. specialize (H5 k Hk). lra.
Qed.

Lemma lowest_m_none pg r n max_iter : 0 <= pg -> 0 <= r ->
  get_lowest_m pg n r max_iter = None <->
  (forall k, (0 < k <= n)%nat -> (k < max_iter)%nat -> pg * (1 + r) < true_run_probability pg n k).
Proof.
  intros Hp Hr. rewrite lowest_m_none_iff by assumption.
  split; intros H k H1 H2; specialize (H k H1 H2).
  - rewrite true_run_G. lra.
  - rewrite true_run_G in H. lra.
Qed.

(** * bisection *)
Lemma bisect_sound fuel n m goal r lo hi pc pgl :
  (0 < m <= n)%nat ->
  bisect_loop fuel n m goal r lo hi = Some (pc, pgl) ->
  lo <= pc /\ pc <= hi /\ pgl == true_run_probability pc n m /\
  goal * (1 - r) <= pgl /\ pgl <= goal * (1 + r).
Proof.
  intros Hm. revert lo hi. induction fuel as [|f IH]; intros lo hi H; simpl in H; [discriminate|].
  destruct (Qle_bool_spec lo hi) as [Hlh|]; [|discriminate].
  assert (Hmid : lo <= (hi + lo) / 2 /\ (hi + lo) / 2 <= hi).
  { split; [apply Qle_shift_div_l|apply Qle_shift_div_r]; lra. }
  destruct (run_probability_correct ((hi + lo) / 2) n m ltac:(lia) ltac:(lia)) as [w [Hw HwG]].
  rewrite Hw in H.
  destruct (Qle_bool_spec w (goal * (r + 1))) as [H1|H1]; simpl in H.
  - destruct (Qle_bool_spec (goal * (1 - r)) w) as [H2|H2].
    + injection H as <- <-. repeat split; try tauto; auto. lra.
    + destruct (Qle_bool goal w); simpl in H; [destruct (Qle_bool w goal); simpl in H|];
        apply IH in H; destruct H as [A [B [C [D E]]]]; repeat split; auto; lra.
  - destruct (Qle_bool goal w); simpl in H; [destruct (Qle_bool w goal); simpl in H|];
      apply IH in H; destruct H as [A [B [C [D E]]]]; repeat split; auto; lra.
Qed.

Lemma bisect_success f n m goal r lo hi :
  (0 < m <= n)%nat -> 0 <= lo -> lo <= hi -> hi <= 1 -> 0 < goal -> 0 < r ->
  G m lo n O <= goal -> goal <= G m hi n O ->
  inject_Z (Z.of_nat n) * (hi - lo) <= r * goal * qpow 2 f ->
  exists pc pgl, bisect_loop (S f) n m goal r lo hi = Some (pc, pgl).
Proof.
  intros Hm. revert lo hi. induction f as [|f IH]; intros lo hi H0 Hlh H1 Hg Hr Hlo Hhi Hw.
  - cbn [bisect_loop]. destruct (Qle_bool_spec lo hi); [|lra].
    set (mid := (hi + lo) / 2).
    assert (Hmid : lo <= mid /\ mid <= hi).
    { split; unfold mid; [apply Qle_shift_div_l|apply Qle_shift_div_r]; lra. }
    destruct (run_probability_G mid n m ltac:(lia) ltac:(lia)) as [w [Ew HwG]]. rewrite Ew.
    simpl in Hw.
    pose proof (G_lipschitz m lo hi n O H0 Hlh H1) as HL.
    pose proof (G_mono_p m lo mid n O H0 ltac:(lra) ltac:(lra)).
    pose proof (G_mono_p m mid hi n O ltac:(lra) ltac:(lra) ltac:(lra)).
    rewrite <- HwG in *.
    destruct (Qle_bool_spec w (goal * (r + 1))); [|lra].
    destruct (Qle_bool_spec (goal * (1 - r)) w); [|lra]. simpl. eauto.
  - remember (S f) as f'. cbn [bisect_loop]. subst f'.
    destruct (Qle_bool_spec lo hi); [|lra].
    set (mid := (hi + lo) / 2).
    assert (Hmid : lo <= mid /\ mid <= hi).
    { split; unfold mid; [apply Qle_shift_div_l|apply Qle_shift_div_r]; lra. }
    assert (Hmid2 : mid + mid == hi + lo) by (unfold mid; field).
    destruct (run_probability_G mid n m ltac:(lia) ltac:(lia)) as [w [Ew HwG]]. rewrite Ew.
    destruct (Qle_bool w (goal * (r + 1)) && Qle_bool (goal * (1 - r)) w)%bool eqn:E; [eauto|].
    cbn [qpow] in Hw.
    assert (Hd1 : inject_Z (Z.of_nat n) * (hi - mid) <= r * goal * qpow 2 f).
    { setoid_replace (hi - mid) with ((hi - lo) / 2) by (unfold mid; field).
      setoid_replace (inject_Z (Z.of_nat n) * ((hi - lo) / 2))
        with ((inject_Z (Z.of_nat n) * (hi - lo)) / 2) by field.
      apply Qle_shift_div_r; lra. }
    assert (Hd2 : inject_Z (Z.of_nat n) * (mid - lo) <= r * goal * qpow 2 f).
    { setoid_replace (mid - lo) with ((hi - lo) / 2) by (unfold mid; field).
      setoid_replace (inject_Z (Z.of_nat n) * ((hi - lo) / 2))
        with ((inject_Z (Z.of_nat n) * (hi - lo)) / 2) by field.
      apply Qle_shift_div_r; lra. }
    destruct (Qle_bool_spec goal w) as [Hgw|Hgw]; cbn [negb].
    + destruct (Qle_bool_spec w goal) as [Hwg|Hwg]; cbn [negb].
      * (* w == goal : tolerance test must have succeeded *)
        exfalso. apply andb_false_iff in E. destruct E as [E|E]; apply Qle_bool_false in E; nra.
      * apply IH; auto; try lra; rewrite <- HwG; lra.
    + apply IH; auto; try lra; rewrite <- HwG; lra.
Qed.

(** bracket ends *)
Lemma bracket_low p n m goal : 0 <= p -> p <= 1 -> (0 < m <= n)%nat ->
  inject_Z (Z.of_nat n) * qpow p m <= goal -> true_run_probability p n m <= goal.
Proof.
  intros H0 H1 Hm H. rewrite true_run_G.
  pose proof (G_union m p n O H0 H1 ltac:(lia) ltac:(lia)) as HU. rewrite Nat.sub_0_r in HU.
  pose proof (qpow_nonneg p m H0).
  assert (1 + inject_Z (Z.of_nat (n - m)) <= inject_Z (Z.of_nat n)).
  { change 1 with (inject_Z 1). rewrite <- inject_Z_plus. rewrite <- Zle_Qle. lia. }
  nra.
Qed.

Lemma bracket_high p n m goal : 0 <= p -> p <= 1 -> (0 < m <= n)%nat ->
  qpow (1 - qpow p m) (n / m) <= 1 - goal -> goal <= true_run_probability p n m.
Proof.
  intros H0 H1 Hm H. rewrite true_run_G.
  pose proof (G_blocks m p (n / m) (n mod m) H0 H1) as HB.
  replace (n / m * m + n mod m)%nat with n in HB
    by (rewrite Nat.mul_comm; apply Nat.div_mod; lia).
  lra.
Qed.

Lemma bernoulli x j : 0 <= x -> x <= 1 -> 1 - inject_Z (Z.of_nat j) * x <= qpow (1 - x) j.
Proof.
  intros H0 H1. induction j as [|j IH]; [simpl; unfold inject_Z; lra|].
  cbn [qpow]. rewrite Nat2Z.inj_succ. unfold Z.succ. rewrite inject_Z_plus.
  assert (0 <= inject_Z (Z.of_nat j)) by (unfold Qle, inject_Z; simpl; lia).
  pose proof (qpow_nonneg (1 - x) j ltac:(lra)) as Hq.
  pose proof (Qmult_le_0_compat (1 - x) (qpow (1 - x) j - (1 - inject_Z (Z.of_nat j) * x)) ltac:(lra) ltac:(lra)).
  pose proof (Qmult_le_0_compat (inject_Z (Z.of_nat j)) (x * x) ltac:(lra) ltac:(nra)).
  change (inject_Z 1) with 1. lra.
Qed.

Lemma qpow_strict x y n : 0 <= x -> x < y -> (0 < n)%nat -> qpow x n < qpow y n.
Proof.
  intros H0 H1 Hn. destruct n as [|n]; [lia|]. clear Hn. induction n as [|n IH].
  - simpl. lra.
  - assert (0 <= qpow x (S n)) by (apply qpow_nonneg; auto).
    change (qpow x (S (S n))) with (x * qpow x (S n)).
    change (qpow y (S (S n))) with (y * qpow y (S n)). nra.
Qed.

Lemma bracket_ordered lo hi n m goal :
  0 <= lo -> 0 <= hi -> hi <= 1 -> (0 < m <= n)%nat -> 
  inject_Z (Z.of_nat n) * qpow lo m <= goal ->
  qpow (1 - qpow hi m) (n / m) <= 1 - goal -> lo <= hi.
Proof.
  intros H0 Hh Hh1 Hm Hlo Hhi.
  destruct (Qlt_le_dec hi lo) as [Hlt|]; [|assumption]. exfalso.
  pose proof (qpow_strict hi lo m Hh Hlt ltac:(lia)) as Hs.
  pose proof (qpow_nonneg hi m Hh). pose proof (qpow_le1 hi m Hh Hh1).
  pose proof (bernoulli (qpow hi m) (n / m) ltac:(lra) ltac:(lra)) as HB.
  assert (inject_Z (Z.of_nat (n / m)) <= inject_Z (Z.of_nat n)).
  { rewrite <- Zle_Qle. apply inj_le. apply Nat.div_le_upper_bound; [lia|]. nia. }
  assert (0 < inject_Z (Z.of_nat n)) by (unfold Qlt, inject_Z; simpl; lia).
  nra.
Qed.

(** Fast evaluation of G, for concrete witnesses. *)
Fixpoint Grow (m : nat) (p : Q) (n : nat) : list Q :=
  match n with
  | O => repeat 0 m ++ [1]
  | S n' => let row := Grow m p n' in
            map (fun k => Qred (p * nth (S k) row 0 + (1 - p) * nth O row 0)) (seq 0 m) ++ [1]
  end.

Lemma Grow_spec m p n k : (k <= m)%nat -> nth k (Grow m p n) 0 == G m p n k.
Proof.
  revert k; induction n as [|n IH]; intros k Hk; cbn [Grow].
  - simpl. destruct (Nat.leb_spec m k).
    + rewrite app_nth2 by (rewrite repeat_length; lia). rewrite repeat_length.
      replace (k - m)%nat with O by lia. reflexivity.
    + rewrite app_nth1 by (rewrite repeat_length; lia).
      assert (nth k (repeat 0 m) 0 = 0) as ->; [|reflexivity].
      clear. revert k; induction m as [|m IH]; intros [|k]; simpl; auto.
  - destruct (Nat.eq_dec k m) as [->|Hne].
    + rewrite app_nth2 by (rewrite map_length, seq_length; lia).
      rewrite map_length, seq_length, Nat.sub_diag, G_full by lia. reflexivity.
    + rewrite app_nth1 by (rewrite map_length, seq_length; lia).
      rewrite G_step by lia.
      set (fn := fun k0 => Qred (p * nth (S k0) (Grow m p n) 0 + (1 - p) * nth O (Grow m p n) 0)).
      rewrite nth_indep with (d' := fn O) by (rewrite map_length, seq_length; lia).
      rewrite (map_nth fn), seq_nth by lia. unfold fn.
      rewrite Qred_correct. simpl plus. rewrite !IH by lia. reflexivity.
Qed.

Lemma G_fast m p n : G m p n O == nth O (Grow m p n) 0.
Proof. rewrite Grow_spec by lia. reflexivity. Qed.

Global Instance G_proper m : Proper (Qeq ==> eq ==> eq ==> Qeq) (G m).
Proof.
  intros p q H n ? <- k ? <-. revert k. induction n as [|n IH]; intros k; simpl; destruct (Nat.leb m k); try reflexivity.
  rewrite !IH, H. reflexivity.
Qed.

Lemma lowest_m_hit pg r n max_iter m0 :
  0 <= pg -> 0 <= r -> (0 < m0 <= n)%nat -> (m0 < max_iter)%nat ->
  (forall k, (0 < k < m0)%nat -> pg * (r + 1) < nth O (Grow k pg n) 0) ->
  nth O (Grow m0 pg n) 0 <= pg * (r + 1) ->
  exists v, get_lowest_m pg n r max_iter = Some (m0, v) /\ v == nth O (Grow m0 pg n) 0.
Proof.
  intros Hp Hr Hm Hmi Hprev Hle.
  destruct (lowest_m_loop_complete pg r n max_iter Hp Hr max_iter 1 pg m0) as [v [H1 H2]];
    try lia; try apply Qle_refl.
  - intros k Hk. rewrite G_fast. apply Hprev. lia.
  - rewrite G_fast. exact Hle.
  - exists v. split; [exact H1|]. rewrite H2. apply G_fast.
Qed.

Lemma auto_duration_refuted :
  exists alpha n r_tol m pc,
    0 < alpha < 1 /\ 0 < r_tol /\
    get_lowest_m alpha n r_tol 1000 = Some (m, pc) /\
    alpha * (1 + r_tol) < true_run_probability pc n m.
Proof.
  destruct (lowest_m_hit (1#20) (1#10) 24 1000 2) as [v [H1 H2]].
  - discriminate.
  - discriminate.
  - split; apply Nat.leb_le; reflexivity.
  - apply Nat.leb_le; reflexivity.
  - intros k Hk. assert (k = 1%nat) as -> by lia. vm_compute. reflexivity.
  - vm_compute. discriminate.
  - exists (1#20), 24%nat, (1#10), 2%nat, v. split; [split; reflexivity|]. split; [reflexivity|].
    split; [exact H1|].
    (* the stored level is at least 5.2%, and already at 5.2% the global error exceeds 5.5% *)
    assert (Hlo : (52#1000) <= v) by (rewrite H2; vm_compute; discriminate).
    assert (Hv1 : v <= 1) by (rewrite H2; vm_compute; discriminate).
    rewrite true_run_G.
    eapply Qlt_le_trans; [|apply (G_mono_p 2 (52#1000) v 24 O); [discriminate|exact Hlo|exact Hv1]].
    eapply Qlt_le_trans; [|apply Qle_lteq; right; symmetry; apply G_fast].
    vm_compute. reflexivity.
Qed.

Lemma auto_duration_partial alpha n r_tol max_iter m pc :
  0 <= alpha -> alpha <= 1 ->
  get_lowest_m alpha n r_tol max_iter = Some (m, pc) -> pc <= alpha ->
  true_run_probability pc n m <= alpha.
Proof.
  intros H0 H1 H Hle. apply lowest_m_sound in H. destruct H as [Hm [_ [Hv [_ _]]]].
  rewrite true_run_G in *. rewrite Hv.
  assert (Hv0 : 0 <= G m alpha n O) by (apply G_bounds; auto).
  rewrite Hv in Hle.
  eapply Qle_trans; [apply (G_mono_p m (G m alpha n O) alpha n O); auto|]. exact Hle.
Qed.

(** * Wrappers in terms of the API *)
Lemma rp_inv p n m v : run_probability p n m = Some v -> (0 < m <= n)%nat /\ v == G m p n O.
Proof.
  intros H.
  assert (Hr : (0 < m <= n)%nat).
  { destruct (Nat.eq_dec m 0) as [->|]; [|destruct (Nat.lt_ge_cases n m) as [Hl|]; [|lia]].
    - assert (run_probability p n 0 = None) by (apply run_probability_error; lia). congruence.
    - assert (run_probability p n m = None) by (apply run_probability_error; lia). congruence. }
  split; [exact Hr|]. destruct (run_probability_G p n m ltac:(lia) ltac:(lia)) as [w [Hw Hg]].
  rewrite H in Hw. injection Hw as <-. exact Hg.
Qed.

Lemma rp_range p n m v : 0 <= p -> p <= 1 -> run_probability p n m = Some v -> 0 <= v /\ v <= 1.
Proof. intros H0 H1 H. apply rp_inv in H. destruct H as [_ ->]. apply G_bounds; auto. Qed.

Lemma rp_mono_p p q n m v w : 0 <= p -> p <= q -> q <= 1 ->
  run_probability p n m = Some v -> run_probability q n m = Some w -> v <= w.
Proof.
  intros H0 H1 H2 Hv Hw. apply rp_inv in Hv. apply rp_inv in Hw.
  destruct Hv as [_ ->], Hw as [_ ->]. apply G_mono_p; auto.
Qed.

Lemma rp_mono_n p n n' m v w : 0 <= p -> p <= 1 -> (n <= n')%nat ->
  run_probability p n m = Some v -> run_probability p n' m = Some w -> v <= w.
Proof.
  intros H0 H1 H2 Hv Hw. apply rp_inv in Hv. apply rp_inv in Hw.
  destruct Hv as [_ ->], Hw as [_ ->]. apply G_mono_n'; auto.
Qed.

Lemma rp_anti_m p n m m' v w : 0 <= p -> p <= 1 -> (m <= m')%nat ->
  run_probability p n m = Some v -> run_probability p n m' = Some w -> w <= v.
Proof.
  intros H0 H1 H2 Hv Hw. apply rp_inv in Hv. apply rp_inv in Hw.
  destruct Hv as [_ ->], Hw as [_ ->]. apply G_mono_m'; auto.
Qed.

Lemma rp_union p n m v : 0 <= p -> p <= 1 -> run_probability p n m = Some v ->
  v <= inject_Z (Z.of_nat n) * qpow p m.
Proof.
  intros H0 H1 H. apply rp_inv in H. destruct H as [Hm ->].
  rewrite <- true_run_G. apply bracket_low; auto. lra.
Qed.

Lemma rp_block p n m v : 0 <= p -> p <= 1 -> run_probability p n m = Some v ->
  1 - qpow (1 - qpow p m) (n / m) <= v.
Proof.
  intros H0 H1 H. apply rp_inv in H. destruct H as [Hm ->].
  rewrite <- true_run_G. apply bracket_high; auto. lra.
Qed.

Lemma lowest_p_sound root lo hi m n goal r_tol max_iter pc pgl :
  (0 < m < n)%nat ->
  get_lowest_p root lo hi m n goal r_tol max_iter = Some (pc, pgl) ->
  lo <= pc <= hi /\ pgl == true_run_probability pc n m /\
  goal * (1 - r_tol) <= pgl <= goal * (1 + r_tol).
Proof.
  intros Hm H. unfold get_lowest_p in H.
  destruct (Nat.ltb_spec n m); [lia|]. destruct (Nat.eqb_spec n m); [lia|].
  destruct (negb _); [discriminate|].
  apply bisect_sound in H; [|lia]. tauto.
Qed.

Lemma lowest_p_full root lo hi m goal r_tol max_iter pc pgl :
  (0 < m)%nat -> qpow root m == goal ->
  get_lowest_p root lo hi m m goal r_tol max_iter = Some (pc, pgl) ->
  pgl == goal /\ true_run_probability pc m m == goal.
Proof.
  intros Hm Hroot H. unfold get_lowest_p in H.
  rewrite Nat.ltb_irrefl, Nat.eqb_refl in H. injection H as <- <-.
  split; [reflexivity|]. rewrite true_run_G.
  destruct (run_probability_G root m m Hm (le_n m)) as [w [Hw HwG]].
  clear Hw HwG. rewrite <- Hroot. clear.
  assert (HG : forall d, (d <= m)%nat -> G m root d (m - d) == qpow root d).
  { induction d as [|d IH]; intros Hd.
    - rewrite Nat.sub_0_r, G_full by lia. reflexivity.
    - rewrite G_step by lia. replace (S (m - S d)) with (m - d)%nat by lia. rewrite IH by lia.
      rewrite (G_short m root d O) by lia. cbn [qpow]. ring. }
  specialize (HG m (le_n m)). rewrite Nat.sub_diag in HG. exact HG.
Qed.

Lemma bracket_ok lo hi n m goal :
  0 <= lo -> lo <= 1 -> 0 <= hi -> hi <= 1 -> (0 < m <= n)%nat ->
  inject_Z (Z.of_nat n) * qpow lo m <= goal ->
  qpow (1 - qpow hi m) (n / m) <= 1 - goal ->
  lo <= hi /\ true_run_probability lo n m <= goal /\ goal <= true_run_probability hi n m.
Proof.
  intros. split; [eapply bracket_ordered; eauto|]. split.
  - apply bracket_low; auto.
  - apply bracket_high; auto.
Qed.

Lemma lowest_p_succeeds root lo hi m n goal r_tol max_iter :
  0 <= lo -> 0 <= hi -> hi <= 1 -> (0 < m < n)%nat ->
  inject_Z (Z.of_nat n) * qpow lo m <= goal ->
  qpow (1 - qpow hi m) (n / m) <= 1 - goal ->
  0 < goal -> 1#1000000000 <= r_tol ->
  inject_Z (Z.of_nat n) <= r_tol * goal * qpow 2 max_iter ->
  exists pc pgl, get_lowest_p root lo hi m n goal r_tol max_iter = Some (pc, pgl).
Proof.
  intros H0 Hh Hh1 Hm Hlo Hhi Hg Hr Hw. unfold get_lowest_p.
  destruct (Nat.ltb_spec n m); [lia|]. destruct (Nat.eqb_spec n m); [lia|].
  destruct (Qle_bool_spec (1#1000000000) r_tol); [|lra]. cbn [negb].
  assert (Hord : lo <= hi) by (eapply bracket_ordered with (n := n) (m := m) (goal := goal); auto; lia).
  apply bisect_success; auto; try lia; try lra.
  - rewrite <- true_run_G. apply bracket_low; auto; try lia. lra.
  - rewrite <- true_run_G. apply bracket_high; auto; try lia.
  - assert (0 <= inject_Z (Z.of_nat n)) by (unfold Qle, inject_Z; simpl; lia). nra.
Qed.

Lemma cv_repeatable root lo hi alpha length r_tol d c s1 :
  get_critical_value_state root lo hi alpha length r_tol
    {| cv_duration := Some d; cv_corrected := c |} = Some s1 ->
  get_critical_value_state root lo hi alpha length r_tol s1 = Some s1.
Proof.
  unfold get_critical_value_state; cbn [cv_duration].
  destruct (get_lowest_p _ _ _ d length alpha r_tol 1000) as [[pc g]|] eqn:E; [|discriminate].
  intros H; injection H as <-. cbn [cv_duration]. rewrite E. reflexivity.
Qed.

Lemma cv_not_repeatable :
  exists alpha length r_tol, 0 < alpha < 1 /\ 0 < r_tol /\
  forall root lo hi,
    qpow (root length length alpha) length == alpha -> 0 <= root length length alpha ->
    exists s1 s2 a1 a2,
      get_critical_value_state root lo hi alpha length r_tol
        {| cv_duration := None; cv_corrected := None |} = Some s1 /\
      get_critical_value_state root lo hi alpha length r_tol s1 = Some s2 /\
      cv_corrected s1 = Some a1 /\ cv_corrected s2 = Some a2 /\ ~ a1 == a2.
Proof.
  exists (1#4), 2%nat, (1#10). split; [split; reflexivity|]. split; [reflexivity|].
  intros root lo hi Hroot Hpos.
  destruct (lowest_m_hit (1#4) (1#10) 2 1000 2) as [v [H1 H2]].
  - discriminate.
  - discriminate.
  - split; apply Nat.leb_le; reflexivity.
  - apply Nat.leb_le; reflexivity.
  - intros k Hk. assert (k = 1%nat) as -> by lia. vm_compute. reflexivity.
  - vm_compute. discriminate.
  - unfold get_critical_value_state. cbn [cv_duration]. rewrite H1.
    do 4 eexists. split; [reflexivity|]. cbn [cv_duration].
    unfold get_lowest_p. rewrite Nat.ltb_irrefl, Nat.eqb_refl.
    split; [reflexivity|]. split; [reflexivity|]. split; [reflexivity|].
    assert (H3 : v == 1#16) by (rewrite H2; vm_compute; reflexivity).
    rewrite H3. intros Heq. rewrite <- Heq in Hroot. vm_compute in Hroot. discriminate.
Qed.
