(** C273: the multivariate CUSUM detector; C274: comparing change points up to rounding. *)
From Verif Require Import Common PySlice CusumModel CusumDetModel CusumProofs.
Require Import Lqa.
Open Scope Z_scope.

(** ** Specification *)

(** the mean of a list of rows, in every column below [d] *)
Definition is_vmean (d : nat) (mu : row) (l : list row) : Prop :=
  forall j, (j < d)%nat -> (mu j * inject_Z (Z.of_nat (length l)) == qsum (map (fun x => x j) l))%Q.
(** squared Mahalanobis distances are not negative *)
Definition psd (d : nat) (M : nat -> nat -> Q) : Prop := forall v, (0 <= quad d M v)%Q.

(** ** Sums *)
Lemma qsum_sumn {A} (n : nat) (f : A -> nat -> Q) l :
  (qsum (map (fun v => sumn n (f v)) l) == sumn n (fun i => qsum (map (fun v => f v i) l)))%Q.
Proof.
  induction l as [|x l IH]; [simpl; symmetry; apply sumn_zero; reflexivity|].
  simpl. rewrite IH, <- sumn_plus. reflexivity.
Qed.
Lemma pair_sum (l : list row) i j (c m : row) (w : Q) :
  (m i * inject_Z (Z.of_nat (length l)) == qsum (map (fun x => x i) l))%Q ->
  (m j * inject_Z (Z.of_nat (length l)) == qsum (map (fun x => x j) l))%Q ->
  (qsum (map (fun v => vsub v c i * w * vsub v c j - vsub v m i * w * vsub v m j) l)
   == inject_Z (Z.of_nat (length l)) * (vsub m c i * w * vsub m c j))%Q.
Proof.
  intros HI HJ.
  assert (G : (qsum (map (fun v => vsub v c i * w * vsub v c j - vsub v m i * w * vsub v m j) l)
    == w * ((m j - c j) * qsum (map (fun x => x i) l) + (m i - c i) * qsum (map (fun x => x j) l)
            + inject_Z (Z.of_nat (length l)) * (c i * c j - m i * m j)))%Q).
  { clear HI HJ. unfold vsub. induction l as [|x l IH]; [simpl; ring|].
    cbn [map qsum fold_right length]. unfold qsum in *. cbn [map fold_right]. rewrite IH.
    rewrite Nat2Z.inj_succ, <- Z.add_1_r, inject_Z_plus. ring. }
  rewrite G, <- HI, <- HJ. unfold vsub. ring.
Qed.
Lemma quad_sum d M (l : list row) c m : is_vmean d m l ->
  (qsum (map (fun v => - quad d M (vsub v m) + quad d M (vsub v c)) l)
   == inject_Z (Z.of_nat (length l)) * quad d M (vsub m c))%Q.
Proof.
  intros H. unfold quad.
  assert (E : forall v, (- sumn d (fun i => sumn d (fun j => vsub v m i * M i j * vsub v m j))
    + sumn d (fun i => sumn d (fun j => vsub v c i * M i j * vsub v c j))
    == sumn d (fun i => sumn d (fun j => vsub v c i * M i j * vsub v c j - vsub v m i * M i j * vsub v m j)))%Q).
  { intros v. rewrite Qplus_comm.
    setoid_replace (- sumn d (fun i => sumn d (fun j => vsub v m i * M i j * vsub v m j)))%Q
      with ((-1) * sumn d (fun i => sumn d (fun j => vsub v m i * M i j * vsub v m j)))%Q by ring.
    rewrite <- sumn_scale, <- sumn_plus. apply sumn_ext. intros i _. rewrite <- sumn_scale, <- sumn_plus.
    apply sumn_ext. intros j _. ring. }
  rewrite (qsum_ext _ _ l (fun v _ => E v)). rewrite qsum_sumn.
  rewrite <- sumn_scale. apply sumn_ext. intros i Hi. rewrite qsum_sumn, <- sumn_scale. apply sumn_ext. intros j Hj.
  apply pair_sum; apply H; assumption.
Qed.
Lemma vmean_is d l : l <> [] -> is_vmean d (vmean l) l.
Proof.
  intros N j _. unfold vmean. field. destruct l; [congruence|]. unfold Qeq; simpl. lia.
Qed.
Lemma quad_scale d M k v w : (forall j, (j < d)%nat -> v j == k * w j)%Q -> (quad d M v == k * k * quad d M w)%Q.
Proof.
  intros H. unfold quad. rewrite <- sumn_scale. apply sumn_ext. intros i Hi. rewrite <- sumn_scale. apply sumn_ext.
  intros j Hj. rewrite (H i Hi), (H j Hj). ring.
Qed.

Lemma qsum_rev_eq l : (qsum (rev l) == qsum l)%Q.
Proof. induction l as [|x l IH]; [reflexivity|]. simpl rev. rewrite qsum_app, IH. unfold qsum. simpl. ring. Qed.

(** ** The statistic *)

(** With n0 points up to the change point, n1 after it and D the squared distance of the
    two means, the statistic is 2 n0 n1 (n0 - n1) / (n0 + n1)^2 D; the difference of two
    terms is taken where the likelihood ratio has their sum, which is 2 n0 n1 / (n0 + n1) D
    in the same units. *)
Theorem C273_value : forall d M ld a b mu0 mu1, a <> [] -> b <> [] ->
  is_vmean d mu0 a -> is_vmean d mu1 b ->
  let n0 := inject_Z (Z.of_nat (length a)) in let n1 := inject_Z (Z.of_nat (length b)) in
  (get_llr_multi d M ld a b mu0 mu1
   == 2 * n0 * n1 * (n0 - n1) / ((n0 + n1) * (n0 + n1)) * quad d M (vsub mu1 mu0))%Q.
Proof.
  intros d M ld a b mu0 mu1 NA NB HA HB n0 n1. unfold get_llr_multi, log_llr_multi.
  rewrite (quad_sum d M a _ _ HA), (quad_sum d M b _ _ HB). fold n0 n1.
  assert (P0 : (0 < n0)%Q) by (apply len_q_pos; exact NA).
  assert (P1 : (0 < n1)%Q) by (apply len_q_pos; exact NB).
  assert (NS : ~ (n0 + n1 == 0)%Q) by lra.
  assert (MT : forall j, (j < d)%nat -> (vmean (a ++ b) j * (n0 + n1) == mu0 j * n0 + mu1 j * n1)%Q).
  { intros j Hj. assert (NE : a ++ b <> []) by (destruct a; [congruence|discriminate]).
    pose proof (vmean_is d (a ++ b) NE j Hj) as E. rewrite map_app, qsum_app, app_length, Nat2Z.inj_add, inject_Z_plus in E.
    fold n0 n1 in E. rewrite E, <- (HA j Hj), <- (HB j Hj). reflexivity. }
  rewrite (quad_scale d M (- (n1 / (n0 + n1))) (vsub mu0 (vmean (a ++ b))) (vsub mu1 mu0)).
  - rewrite (quad_scale d M (n0 / (n0 + n1)) (vsub mu1 (vmean (a ++ b))) (vsub mu1 mu0)).
    + field. exact NS.
    + intros j Hj. unfold vsub. assert (E : (vmean (a ++ b) j == (mu0 j * n0 + mu1 j * n1) / (n0 + n1))%Q).
      { rewrite <- (MT j Hj). field. exact NS. }
      rewrite E. field. exact NS.
  - intros j Hj. unfold vsub. assert (E : (vmean (a ++ b) j == (mu0 j * n0 + mu1 j * n1) / (n0 + n1))%Q).
    { rewrite <- (MT j Hj). field. exact NS. }
    rewrite E. field. exact NS.
Qed.

(** Reversed in time the statistic changes its sign. *)
Theorem C273_reversed_refuted : forall d M ld a b mu0 mu1, a <> [] -> b <> [] ->
  is_vmean d mu0 a -> is_vmean d mu1 b ->
  (get_llr_multi d M ld (rev b) (rev a) mu1 mu0 == - get_llr_multi d M ld a b mu0 mu1)%Q.
Proof.
  intros d M ld a b mu0 mu1 NA NB HA HB.
  assert (RV : forall l mu, is_vmean d mu l -> is_vmean d mu (rev l)).
  { intros l mu H j Hj. rewrite rev_length, (H j Hj), map_rev. symmetry. apply qsum_rev_eq. }
  assert (RN : forall l : list row, l <> [] -> rev l <> []).
  { intros l N E. apply (f_equal (@length row)) in E. rewrite rev_length in E. destruct l; [congruence|discriminate]. }
  rewrite (C273_value d M ld (rev b) (rev a) mu1 mu0 (RN b NB) (RN a NA) (RV b mu1 HB) (RV a mu0 HA)).
  rewrite (C273_value d M ld a b mu0 mu1 NA NB HA HB). rewrite !rev_length.
  rewrite (quad_scale d M (-1) (vsub mu0 mu1) (vsub mu1 mu0)) by (intros j _; unfold vsub; ring).
  pose proof (len_q_pos a NA). pose proof (len_q_pos b NB). field. lra.
Qed.

(** ** The detector *)
Lemma multi_bounds d M ld ts : 3 <= Z.of_nat (length ts) -> forall k cp, (1 <= k)%nat ->
  1 <= fst (multi_loop d M ld ts k cp) <= Z.of_nat (length ts) - 2.
Proof.
  intros L. assert (U : forall cp, 1 <= multi_update d M ld ts cp <= Z.of_nat (length ts) - 2) by (intros cp; unfold multi_update; lia).
  induction k as [|k IH]; intros cp K; [lia|]. cbn [multi_loop].
  destruct (Z.eqb_spec (multi_update d M ld ts cp) cp) as [E|E]; [cbn [fst]; rewrite <- E; apply U|].
  destruct k as [|k]; [cbn [multi_loop fst]; apply U|]. apply IH. lia.
Qed.

(** The change point is neither the first nor one of the last two points ... *)
Theorem C273_index : forall d M ld crit ts max_iter start,
  3 <= Z.of_nat (length ts) -> (1 <= max_iter)%nat ->
  let '(index, llr, found) := multi_detector d M ld crit ts max_iter start in
  1 <= index <= Z.of_nat (length ts) - 2 /\
  exists before after mu0 mu1, ts = before ++ after /\ Z.of_nat (length before) = index + 1 /\
    is_vmean d mu0 before /\ is_vmean d mu1 after /\
    (llr == 2 * inject_Z (index + 1) * inject_Z (Z.of_nat (length ts) - index - 1)
            * inject_Z (2 * (index + 1) - Z.of_nat (length ts))
            / (inject_Z (Z.of_nat (length ts)) * inject_Z (Z.of_nat (length ts))) * quad d M (vsub mu1 mu0))%Q /\
    (found = true <-> (crit < llr)%Q).
Proof.
  intros d M ld crit ts max_iter start L K. unfold multi_detector.
  set (s := match start with Some s => s | None => Z.of_nat (length ts) / 2 end).
  pose proof (multi_bounds d M ld ts L max_iter s K) as B.
  set (cp := fst (multi_loop d M ld ts max_iter s)) in *. split; [exact B|].
  rewrite !slice_first, !slice_last by lia.
  set (a := firstn (Z.to_nat (cp + 1)) ts). set (b := skipn (Z.to_nat (cp + 1)) ts).
  assert (LA : length a = Z.to_nat (cp + 1)) by (apply firstn_length_le; lia).
  assert (LB : length b = (length ts - Z.to_nat (cp + 1))%nat) by apply skipn_length.
  assert (NA : a <> []) by (intros E; rewrite E in LA; simpl in LA; lia).
  assert (NB : b <> []) by (intros E; rewrite E in LB; simpl in LB; lia).
  exists a, b, (vmean a), (vmean b). split; [symmetry; apply firstn_skipn|]. split; [lia|].
  split; [apply vmean_is; exact NA|]. split; [apply vmean_is; exact NB|]. split.
  - rewrite (C273_value d M ld a b _ _ NA NB (vmean_is d a NA) (vmean_is d b NB)).
    replace (Z.of_nat (length ts)) with (Z.of_nat (length a) + Z.of_nat (length b)) by lia.
    replace (cp + 1) with (Z.of_nat (length a)) by lia.
    replace (Z.of_nat (length a) + Z.of_nat (length b) - cp - 1) with (Z.of_nat (length b)) by lia.
    replace (2 * Z.of_nat (length a) - (Z.of_nat (length a) + Z.of_nat (length b))) with (Z.of_nat (length a) + - Z.of_nat (length b)) by lia.
    rewrite !inject_Z_plus, inject_Z_opp. reflexivity.
  - rewrite negb_true_iff. split.
    + intros X. destruct (Qlt_le_dec crit (get_llr_multi d M ld a b (vmean a) (vmean b))) as [Y|Y]; [exact Y|].
      apply Qle_bool_iff in Y. congruence.
    + intros X. destruct (Qle_bool _ crit) eqn:Y; [|reflexivity]. apply Qle_bool_iff in Y. exfalso. apply (Qlt_not_le _ _ X Y).
Qed.

(** ... and a change point in the first half is never reported, however large the change. *)
Theorem C273_early_refuted : forall d M ld crit ts max_iter start,
  3 <= Z.of_nat (length ts) -> (1 <= max_iter)%nat -> psd d M -> (0 <= crit)%Q ->
  let '(index, llr, found) := multi_detector d M ld crit ts max_iter start in
  2 * (index + 1) <= Z.of_nat (length ts) -> found = false.
Proof.
  intros d M ld crit ts max_iter start L K PSD C.
  pose proof (C273_index d M ld crit ts max_iter start L K) as H.
  destruct (multi_detector d M ld crit ts max_iter start) as [[index llr] found].
  intros E. destruct H as (B & before & after & mu0 & mu1 & _ & _ & _ & _ & LE & F).
  destruct found; [|reflexivity]. exfalso. apply (Qlt_not_le crit llr); [apply F; reflexivity|].
  apply Qle_trans with 0%Q; [|exact C]. rewrite LE.
  set (n := Z.of_nat (length ts)) in *. pose proof (PSD (vsub mu1 mu0)) as P.
  set (D := quad d M (vsub mu1 mu0)) in *.
  assert (X : (0 <= 2 * inject_Z (index + 1) * inject_Z (n - index - 1) * inject_Z (n - 2 * (index + 1)) / (inject_Z n * inject_Z n))%Q).
  { apply Qle_shift_div_l; [unfold Qlt, inject_Z; simpl; nia|]. rewrite Qmult_0_l.
    assert (forall z, 0 <= z -> (0 <= inject_Z z)%Q) as NN by (intros z Hz; unfold Qle; simpl; lia).
    repeat apply Qmult_le_0_compat; try (apply NN; lia). }
  assert (Y : (2 * inject_Z (index + 1) * inject_Z (n - index - 1) * inject_Z (2 * (index + 1) - n) / (inject_Z n * inject_Z n) * D
    == - ((2 * inject_Z (index + 1) * inject_Z (n - index - 1) * inject_Z (n - 2 * (index + 1)) / (inject_Z n * inject_Z n)) * D))%Q).
  { replace (2 * (index + 1) - n) with (- (n - 2 * (index + 1))) by lia. rewrite inject_Z_opp. field. unfold Qeq, inject_Z; simpl; lia. }
  rewrite Y. pose proof (Qmult_le_0_compat _ _ X P). lra.
Qed.

(** a change that is found where it is, in the first and in the second half of ten points *)
Definition one : nat -> nat -> Q := fun _ _ => 1%Q.
Definition rows (l : list Q) : list row := map (fun x _ => x) l.
Lemma one_psd : psd 1 one.
Proof. intros v. unfold quad, one. simpl. destruct (Qlt_le_dec (v O) 0); nra. Qed.
Example C273_case : psd 1 one /\
  fst (fst (multi_detector 1 one 0 9 (rows [0; 0; 0; 9; 9; 9; 9; 9; 9; 9]%Q) 10 None)) = 2 /\
  snd (multi_detector 1 one 0 9 (rows [0; 0; 0; 9; 9; 9; 9; 9; 9; 9]%Q) 10 None) = false /\
  fst (fst (multi_detector 1 one 0 9 (rows [0; 0; 0; 0; 0; 0; 0; 9; 9; 9]%Q) 10 None)) = 6 /\
  snd (multi_detector 1 one 0 9 (rows [0; 0; 0; 0; 0; 0; 0; 9; 9; 9]%Q) 10 None) = true.
Proof. split; [exact one_psd|]. vm_compute. repeat split. Qed.

(** ** Comparing change points *)
Lemma div_floor (x : Q) : (inject_Z (Qnum x / QDen x) <= x)%Q /\ (x < inject_Z (Qnum x / QDen x) + 1)%Q.
Proof.
  destruct x as [n p]. cbn [Qnum Qden]. unfold Qle, Qlt, inject_Z, Qplus. cbn [Qnum Qden].
  pose proof (Z.div_mod n (Z.pos p) ltac:(lia)). pose proof (Z.mod_pos_bound n (Z.pos p) ltac:(lia)). nia.
Qed.
(** rounding moves a number by at most a half *)
Lemma round_near x : (Qabs (x - inject_Z (round_half_even x)) <= 1 # 2)%Q.
Proof.
  unfold round_half_even. destruct (div_floor x) as (L & U). set (f := Qnum x / QDen x) in *.
  destruct (Qeq_bool (x - inject_Z f) (1 # 2)) eqn:E.
  - apply Qeq_bool_iff in E. destruct (Z.even f).
    + rewrite E. discriminate.
    + rewrite inject_Z_plus. setoid_replace (x - (inject_Z f + inject_Z 1))%Q with ((1 # 2) - 1)%Q by (change (inject_Z 1) with 1%Q; lra). discriminate.
  - destruct (Qle_bool (x - inject_Z f) (1 # 2)) eqn:G.
    + apply Qle_bool_iff in G. apply Qabs_Qle_condition. lra.
    + assert (H : ~ (x - inject_Z f <= 1 # 2)%Q) by (intros H; apply Qle_bool_iff in H; congruence).
      rewrite inject_Z_plus. change (inject_Z 1) with 1%Q. apply Qabs_Qle_condition. lra.
Qed.
Lemma round_zero x : (0 <= x)%Q -> (x < 1 # 2)%Q -> round_half_even x = 0.
Proof.
  intros P H. unfold round_half_even. destruct (div_floor x) as (L & U).
  assert (F : Qnum x / QDen x = 0).
  { destruct x as [n p]. unfold Qle, Qlt in P, H. cbn [Qnum Qden] in *. apply Z.div_small. lia. }
  rewrite F. change (inject_Z 0) with 0%Q.
  destruct (Qeq_bool (x - 0) (1 # 2)) eqn:E; [apply Qeq_bool_iff in E; exfalso; lra|].
  assert (G : (x - 0 <= 1 # 2)%Q) by lra. apply Qle_bool_iff in G. rewrite G. reflexivity.
Qed.
Lemma ten_pos k : (0 < inject_Z (10 ^ Z.of_nat k))%Q.
Proof. unfold Qlt, inject_Z; simpl. pose proof (Z.pow_pos_nonneg 10 (Z.of_nat k) ltac:(lia) ltac:(lia)). lia. Qed.

(** Numbers that are almost equal to k decimals differ by at most one unit of the last
    decimal, or by half a unit relative to the first of them. *)
Theorem C274_close : forall k x y, almost_equal k x y = true ->
  (Qabs (x - y) * inject_Z (10 ^ Z.of_nat k) <= 1)%Q \/
  (Qabs (x - y) * inject_Z (10 ^ Z.of_nat k) <= (1 # 2) * Qabs x)%Q.
Proof.
  intros k x y H. unfold almost_equal in H. pose proof (ten_pos k) as T. set (t := inject_Z (10 ^ Z.of_nat k)) in *.
  apply orb_true_iff in H as [H|H]; [apply orb_true_iff in H as [H|H]|].
  - left. apply Qeq_bool_iff in H. setoid_replace (x - y)%Q with 0%Q by lra. discriminate.
  - left. apply Z.eqb_eq in H. unfold round_to in H. fold t in H.
    pose proof (round_near (x * t)) as A. pose proof (round_near (y * t)) as B. rewrite H in A.
    apply Qabs_Qle_condition in A. apply Qabs_Qle_condition in B.
    assert (E : (Qabs (x - y) * t == Qabs (x * t - y * t))%Q).
    { setoid_replace (x * t - y * t)%Q with ((x - y) * t)%Q by ring. rewrite Qabs_Qmult, (Qabs_pos t) by lra. reflexivity. }
    rewrite E. apply Qabs_Qle_condition. lra.
  - right. apply andb_true_iff in H as (N & H). apply Z.eqb_eq in H. unfold round_to in H. fold t in H.
    assert (X : ~ (x == 0)%Q) by (intros X; apply Qeq_bool_iff in X; rewrite X in N; discriminate).
    pose proof (round_near (Qabs ((y - x) / x) * t)) as A. rewrite H in A. change (inject_Z 0) with 0%Q in A.
    apply Qabs_Qle_condition in A. destruct A as (_ & A).
    assert (P : (0 < Qabs x)%Q).
    { apply Qabs_case; intros Z0; destruct (Q_dec x 0) as [[G|G]|G]; try lra; exfalso; auto. }
    assert (E : (Qabs (x - y) * t == Qabs ((y - x) / x) * t * Qabs x)%Q).
    { rewrite <- (Qabs_opp (x - y)). setoid_replace (- (x - y))%Q with (((y - x) / x) * x)%Q by (field; exact X).
      rewrite Qabs_Qmult. ring. }
    rewrite E. apply Qmult_le_compat_r; lra.
Qed.
(** Equal numbers are almost equal, and so are numbers that differ by less than half a unit
    of the last decimal relative to the first. *)
Theorem C274_enough : forall k x y,
  (x == y)%Q \/ (Qabs (x - y) * inject_Z (10 ^ Z.of_nat k) < (1 # 2) * Qabs x)%Q ->
  almost_equal k x y = true.
Proof.
  intros k x y [H|H]; unfold almost_equal.
  - apply Qeq_bool_iff in H. rewrite H. reflexivity.
  - pose proof (ten_pos k) as T. set (t := inject_Z (10 ^ Z.of_nat k)) in *.
    assert (X : ~ (x == 0)%Q).
    { intros E. rewrite E in H at 2. change (Qabs 0) with 0%Q in H.
      pose proof (Qabs_nonneg (x - y)). assert (0 <= Qabs (x - y) * t)%Q by (apply Qmult_le_0_compat; lra). lra. }
    assert (P : (0 < Qabs x)%Q).
    { apply Qabs_case; intros Z0; destruct (Q_dec x 0) as [[G|G]|G]; try lra; exfalso; auto. }
    apply orb_true_iff. right. apply andb_true_iff. split.
    + apply negb_true_iff. destruct (Qeq_bool x 0) eqn:E; [apply Qeq_bool_iff in E; contradiction|reflexivity].
    + apply Z.eqb_eq. unfold round_to. fold t. apply round_zero.
      * apply Qmult_le_0_compat; [apply Qabs_nonneg|lra].
      * assert (E : (Qabs ((y - x) / x) * t == Qabs (x - y) * t / Qabs x)%Q).
        { rewrite <- (Qabs_opp (x - y)). setoid_replace (- (x - y))%Q with (((y - x) / x) * x)%Q by (field; exact X).
          rewrite Qabs_Qmult. field. lra. }
        rewrite E. apply Qlt_shift_div_r; [exact P|]. lra.
Qed.
(** The relation depends on the order of the two numbers, for any number of decimals. *)
Lemma floor_unique (x : Q) z : (inject_Z z <= x)%Q -> (x < inject_Z z + 1)%Q -> Qnum x / QDen x = z.
Proof.
  intros L U. destruct (div_floor x) as (L' & U'). set (f := Qnum x / QDen x) in *.
  assert (A : (inject_Z f < inject_Z (z + 1))%Q) by (rewrite inject_Z_plus; change (inject_Z 1) with 1%Q; lra).
  assert (B : (inject_Z z < inject_Z (f + 1))%Q) by (rewrite inject_Z_plus; change (inject_Z 1) with 1%Q; lra).
  rewrite <- Zlt_Qlt in A, B. lia.
Qed.
Lemma round_half x : (x == 1 # 2)%Q -> round_half_even x = 0.
Proof.
  intros E. unfold round_half_even. rewrite (floor_unique x 0) by (change (inject_Z 0) with 0%Q; lra).
  change (inject_Z 0) with 0%Q. assert (H : (x - 0 == 1 # 2)%Q) by lra. apply Qeq_bool_iff in H. rewrite H. reflexivity.
Qed.
Lemma round_int x z : (x == inject_Z z)%Q -> round_half_even x = z.
Proof.
  intros E. unfold round_half_even. rewrite (floor_unique x z) by lra.
  destruct (Qeq_bool (x - inject_Z z) (1 # 2)) eqn:G; [apply Qeq_bool_iff in G; exfalso; lra|].
  assert (H : (x - inject_Z z <= 1 # 2)%Q) by lra. apply Qle_bool_iff in H. rewrite H. reflexivity.
Qed.
Lemma round_up x : (1 # 2 < x)%Q -> (x <= 1)%Q -> round_half_even x = 1.
Proof.
  intros L U. destruct (Qlt_le_dec x 1) as [H|H]; [|apply round_int; change (inject_Z 1) with 1%Q; lra].
  unfold round_half_even. rewrite (floor_unique x 0) by (change (inject_Z 0) with 0%Q; lra).
  change (inject_Z 0) with 0%Q.
  destruct (Qeq_bool (x - 0) (1 # 2)) eqn:G; [apply Qeq_bool_iff in G; exfalso; lra|].
  destruct (Qle_bool (x - 0) (1 # 2)) eqn:F; [apply Qle_bool_iff in F; exfalso; lra|reflexivity].
Qed.
Theorem C274_symmetry_refuted : forall k, exists x y,
  almost_equal k x y = true /\ almost_equal k y x = false.
Proof.
  intros k. pose proof (Z.pow_pos_nonneg 10 (Z.of_nat k) ltac:(lia) ltac:(lia)) as T. set (t := 10 ^ Z.of_nat k) in *.
  assert (TQ : (1 <= inject_Z t)%Q) by (change 1%Q with (inject_Z 1); rewrite <- Zle_Qle; lia).
  exists (inject_Z (2 * t)), (inject_Z (2 * t - 1)).
  assert (E2 : (inject_Z (2 * t) == 2 * inject_Z t)%Q) by (rewrite inject_Z_mult; reflexivity).
  assert (E1 : (inject_Z (2 * t - 1) == 2 * inject_Z t - 1)%Q).
  { unfold Z.sub. rewrite inject_Z_plus, E2. reflexivity. }
  split.
  - unfold almost_equal. apply orb_true_iff. right. apply andb_true_iff. split.
    + apply negb_true_iff. destruct (Qeq_bool (inject_Z (2 * t)) 0) eqn:E; [apply Qeq_bool_iff in E; exfalso; lra|reflexivity].
    + apply Z.eqb_eq. unfold round_to. apply round_half. fold t.
      assert (A : (Qabs ((inject_Z (2 * t - 1) - inject_Z (2 * t)) / inject_Z (2 * t)) == / (2 * inject_Z t))%Q).
      { rewrite E1, E2. setoid_replace ((2 * inject_Z t - 1 - 2 * inject_Z t) / (2 * inject_Z t))%Q with (- / (2 * inject_Z t))%Q by (field; lra).
        rewrite Qabs_opp, Qabs_pos; [reflexivity|]. apply Qlt_le_weak, Qinv_lt_0_compat. lra. }
      rewrite A. field. lra.
  - unfold almost_equal. apply orb_false_iff. split; [apply orb_false_iff; split|].
    + destruct (Qeq_bool _ _) eqn:E; [apply Qeq_bool_iff in E; exfalso; lra|reflexivity].
    + unfold round_to. fold t. rewrite (round_int _ ((2 * t - 1) * t)) by (rewrite inject_Z_mult; reflexivity).
      rewrite (round_int _ (2 * t * t)) by (rewrite inject_Z_mult; reflexivity). apply Z.eqb_neq. nia.
    + apply andb_false_iff. right. apply Z.eqb_neq. unfold round_to. fold t.
      assert (P : (0 < 2 * inject_Z t - 1)%Q) by lra.
      assert (A : (Qabs ((inject_Z (2 * t) - inject_Z (2 * t - 1)) / inject_Z (2 * t - 1)) * inject_Z t == inject_Z t / (2 * inject_Z t - 1))%Q).
      { rewrite E1, E2. setoid_replace ((2 * inject_Z t - (2 * inject_Z t - 1)) / (2 * inject_Z t - 1))%Q with (/ (2 * inject_Z t - 1))%Q by (field; lra).
        rewrite Qabs_pos; [field; lra|]. apply Qlt_le_weak, Qinv_lt_0_compat. lra. }
      rewrite round_up; [discriminate| |].
      * rewrite A. apply Qlt_shift_div_l; lra.
      * rewrite A. apply Qle_shift_div_r; lra.
Qed.
Example C274_case : almost_equal 10 1 (1 + (1 # 100000000000)) = true /\ almost_equal 10 1 (11 # 10) = false.
Proof. split; vm_compute; reflexivity. Qed.

Print Assumptions C273_value.
Print Assumptions C273_reversed_refuted.
Print Assumptions C273_index.
Print Assumptions C273_early_refuted.
Print Assumptions C274_close.
Print Assumptions C274_enough.
Print Assumptions C274_symmetry_refuted.
