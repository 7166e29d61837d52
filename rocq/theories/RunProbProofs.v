From Verif Require Import Common RunProbModel RunProbSpec.
Open Scope Q_scope.

(** * The specification satisfies the "streak" recursion *)

(** Probability of a run in n further trials, when the last k trials were rejections. *)
Fixpoint G (m : nat) (p : Q) (n k : nat) : Q :=
  if Nat.leb m k then 1
  else match n with
       | O => 0
       | S n' => p * G m p n' (S k) + (1 - p) * G m p n' O
       end.

Lemma all_true_spec l : all_true l = true <-> forall j, (j < length l)%nat -> nth j l false = true.
Proof.
  unfold all_true. rewrite forallb_forall. split.
  - intros H j Hj. apply H. apply nth_In; exact Hj.
  - intros H b Hb. apply In_nth with (d := false) in Hb. destruct Hb as [j [Hj Hn]].
    rewrite <- Hn. apply H; exact Hj.
Qed.


Lemma nth_skipn {A} (l : list A) i j d : nth j (skipn i l) d = nth (i + j) l d.
Proof.
  revert l; induction i as [|i IH]; intros l; [reflexivity|].
  destruct l as [|x t]; simpl; [destruct j; reflexivity|]. apply IH.
Qed.

Lemma nth_firstn_lt {A} (l : list A) n j d : (j < n)%nat -> nth j (firstn n l) d = nth j l d.
Proof.
  revert l j; induction n as [|n IH]; intros l j H; [lia|].
  destruct l as [|x t]; simpl; [destruct j; reflexivity|].
  destruct j as [|j]; [reflexivity|]. apply IH; lia.
Qed.

Lemma has_run_iff m l : has_run m l = true <-> has_run_prop m l.
Proof.
  unfold has_run, has_run_prop. rewrite andb_true_iff, existsb_exists, Nat.leb_le. split.
  - intros [[i [Hi Hr]] Hm]. apply in_seq in Hi. exists i. split; [lia|].
    intros j Hj. unfold has_run_at in Hr. rewrite all_true_spec in Hr.
    specialize (Hr j). rewrite firstn_length, skipn_length in Hr.
    rewrite <- Hr by lia. rewrite nth_firstn_lt, nth_skipn by lia. reflexivity.
  - intros [i [Hi Hr]]. split; [|lia]. exists i. split; [apply in_seq; lia|].
    unfold has_run_at. rewrite all_true_spec. intros j Hj.
    rewrite firstn_length, skipn_length in Hj.
    rewrite nth_firstn_lt, nth_skipn by lia. apply Hr; lia.
Qed.

Lemma bool_eq_iff (a b : bool) : (a = true <-> b = true) -> a = b.
Proof. destruct a, b; intuition congruence. Qed.

Lemma nth_repeat_true k j : (j < k)%nat -> nth j (repeat true k) false = true.
Proof. revert j; induction k as [|k IH]; intros [|j] H; simpl; try lia; auto. apply IH; lia. Qed.

Lemma has_run_full m k l : (m <= k)%nat -> has_run m (repeat true k ++ l) = true.
Proof.
  intros H. apply has_run_iff. exists O. rewrite app_length, repeat_length. split; [lia|].
  intros j Hj. simpl. rewrite app_nth1 by (rewrite repeat_length; lia). apply nth_repeat_true; lia.
Qed.

Lemma has_run_short m l : (length l < m)%nat -> has_run m l = false.
Proof.
  intros H. unfold has_run. destruct (Nat.leb_spec m (length l)); [lia|]. apply andb_false_r.
Qed.

Lemma has_run_break m k l : (k < m)%nat ->
  has_run m (repeat true k ++ false :: l) = has_run m l.
Proof.
  intros Hk. apply bool_eq_iff. rewrite !has_run_iff. split; intros [i [Hi Hr]].
  - rewrite app_length, repeat_length in Hi. simpl in Hi.
    destruct (Nat.le_gt_cases i k) as [Hle|Hgt].
    + specialize (Hr (k - i)%nat ltac:(lia)).
      replace (i + (k - i))%nat with k in Hr by lia.
      rewrite app_nth2 in Hr by (rewrite repeat_length; lia).
      rewrite repeat_length, Nat.sub_diag in Hr. simpl in Hr. discriminate.
    + exists (i - k - 1)%nat. split; [lia|]. intros j Hj. specialize (Hr j Hj).
      rewrite app_nth2 in Hr by (rewrite repeat_length; lia).
      rewrite repeat_length in Hr. replace (i + j - k)%nat with (S (i - k - 1 + j)) in Hr by lia.
      exact Hr.
  - exists (i + k + 1)%nat. rewrite app_length, repeat_length. simpl. split; [lia|].
    intros j Hj. rewrite app_nth2 by (rewrite repeat_length; lia).
    rewrite repeat_length. replace (i + k + 1 + j - k)%nat with (S (i + j)) by lia.
    simpl. apply Hr; exact Hj.
Qed.

Lemma qsum_filter {A} (c : A -> bool) (f : A -> Q) l :
  qsum (map f (filter c l)) == qsum (map (fun x => b2q (c x) * f x) l).
Proof.
  induction l as [|x t IH]; simpl; [reflexivity|].
  destruct (c x); simpl; rewrite IH; unfold b2q; ring.
Qed.

Lemma total_weight p n : qsum (map (weight p) (outcomes n)) == 1.
Proof.
  induction n as [|n IH]; simpl; [ring|].
  rewrite map_app, qsum_app, !map_map. cbn [weight].
  rewrite !(qsum_scale _ (weight p)), IH. ring.
Qed.

(** Spec probability after a streak of k rejections. *)
Definition SP (m : nat) (p : Q) (n k : nat) : Q :=
  qsum (map (fun l => b2q (has_run m (repeat true k ++ l)) * weight p l) (outcomes n)).

Lemma repeat_snoc k : repeat true k ++ [true] = repeat true (S k).
Proof. induction k as [|k IH]; simpl; [reflexivity|]. rewrite IH; reflexivity. Qed.

Lemma SP_step m p n k : (k < m)%nat ->
  SP m p (S n) k == p * SP m p n (S k) + (1 - p) * SP m p n O.
Proof.
  intros Hk. unfold SP. cbn [outcomes].
  rewrite map_app, qsum_app, !map_map, <- !qsum_scale.
  apply Qplus_comp; apply qsum_ext; intros l _.
  - rewrite <- repeat_snoc, <- app_assoc. cbn [weight app]. ring.
  - rewrite has_run_break by exact Hk. cbn [weight repeat app]. ring.
Qed.

Lemma SP_full m p n k : (m <= k)%nat -> SP m p n k == 1.
Proof.
  intros Hk. unfold SP. rewrite <- (total_weight p n). apply qsum_ext.
  intros l _. rewrite has_run_full by exact Hk. unfold b2q; ring.
Qed.

Lemma SP_zero m p k : (k < m)%nat -> SP m p O k == 0.
Proof.
  intros Hk. unfold SP. simpl. rewrite app_nil_r, has_run_short; [unfold b2q; ring|].
  rewrite repeat_length; exact Hk.
Qed.

Lemma SP_G m p n k : SP m p n k == G m p n k.
Proof.
  revert k; induction n as [|n IH]; intros k; simpl; destruct (Nat.leb_spec m k) as [H|H].
  - apply SP_full; exact H.
  - apply SP_zero; exact H.
  - apply SP_full; exact H.
  - rewrite SP_step by exact H. rewrite !IH. reflexivity.
Qed.

Lemma true_run_G p n m : true_run_probability p n m == G m p n O.
Proof.
  rewrite <- SP_G. unfold true_run_probability, SP. rewrite qsum_filter. reflexivity.
Qed.

(** * The matrix power satisfies the same recursion *)

Lemma G_full m p n k : (m <= k)%nat -> G m p n k = 1.
Proof. intros H. destruct n; simpl; destruct (Nat.leb_spec m k); auto; lia. Qed.

Lemma G_step m p n k : (k < m)%nat -> G m p (S n) k = p * G m p n (S k) + (1 - p) * G m p n O.
Proof. intros H. simpl. destruct (Nat.leb_spec m k); [lia|reflexivity]. Qed.

Lemma G_short m p n k : (n + k < m)%nat -> G m p n k == 0.
Proof.
  revert k; induction n as [|n IH]; intros k H; simpl; destruct (Nat.leb_spec m k); try lia; [reflexivity|].
  rewrite !IH by lia. ring.
Qed.

(** Unrolling up to the first failure. *)
Lemma G_unroll m p d N : (d <= m)%nat ->
  G m p (N + d) (m - d) ==
  sumn d (fun i => qpow p i * (1 - p) * G m p (N + d - 1 - i) O) + qpow p d.
Proof.
  induction d as [|d IH]; intros Hd.
  - simpl. rewrite Nat.sub_0_r, G_full by lia. ring.
  - rewrite Nat.add_succ_r, G_step by lia.
    replace (S (m - S d)) with (m - d)%nat by lia.
    rewrite IH by lia. rewrite sumn_S_first. cbn [qpow].
    replace (S (N + d) - 1 - 0)%nat with (N + d)%nat by lia.
    setoid_replace (sumn d (fun i => p * qpow p i * (1 - p) * G m p (S (N + d) - 1 - S i) 0))
      with (p * sumn d (fun i => qpow p i * (1 - p) * G m p (N + d - 1 - i) 0)).
    + ring.
    + rewrite <- sumn_scale. apply sumn_ext. intros i Hi.
      replace (S (N + d) - 1 - S i)%nat with (N + d - 1 - i)%nat by lia. ring.
Qed.

Lemma vec_mat_assoc d r A B j :
  vec_mat d r (mat_mul d A B) j == vec_mat d (vec_mat d r A) B j.
Proof.
  unfold vec_mat, mat_mul.
  transitivity (sumn d (fun i => sumn d (fun k => r i * (A i k * B k j)))).
  { apply sumn_ext; intros i _. rewrite sumn_scale. reflexivity. }
  rewrite sumn_swap. apply sumn_ext; intros k _. rewrite <- sumn_scale_r.
  apply sumn_ext; intros i _. ring.
Qed.

Lemma vec_mat_ext d r r' A j : (forall i, (i < d)%nat -> r i == r' i) -> vec_mat d r A j == vec_mat d r' A j.
Proof. intros H. apply sumn_ext; intros i Hi. rewrite (H i Hi). reflexivity. Qed.

Lemma vec_mat_id d r j : (j < d)%nat -> vec_mat d r mat_id j == r j.
Proof.
  intros Hj. unfold vec_mat, mat_id. etransitivity; [apply (sumn_single d _ j Hj)|].
  - intros i _ Hi; destruct (Nat.eqb_spec i j); [congruence|ring].
  - cbv beta. rewrite Nat.eqb_refl. ring.
Qed.

Section Matrix.
Variables (m : nat) (p : Q).
Hypothesis Hm : (0 < m)%nat.
Let A := trans_A m (w_independent m p).
Let u (t : nat) : vec := vec_mat (S m) (start_r m) (mat_pow (S m) A t).

Lemma u_inv t : (forall j, (j < m)%nat -> u t j == G m p (m - 1 + t - j) O) /\ u t m == 1.
Proof.
  induction t as [|t [IH IHm]].
  - split.
    + intros j Hj. unfold u. cbn [mat_pow]. rewrite vec_mat_id by lia.
      unfold start_r. destruct (Nat.eqb_spec j m); [lia|].
      rewrite G_short by lia. reflexivity.
    + unfold u. cbn [mat_pow]. rewrite vec_mat_id by lia.
      unfold start_r. rewrite Nat.eqb_refl. reflexivity.
  - assert (Hstep : forall j, u (S t) j == vec_mat (S m) (u t) A j)
      by (intros j; unfold u; cbn [mat_pow]; apply vec_mat_assoc).
    split.
    + intros j Hj. rewrite Hstep. unfold vec_mat. destruct j as [|j].
      * cbn [sumn]. unfold A at 2, trans_A. rewrite Nat.eqb_refl.
        replace (Nat.eqb 0 m) with false by (symmetry; apply Nat.eqb_neq; lia).
        rewrite !andb_false_r. cbn [Nat.eqb].
        rewrite IHm. unfold w_independent at 1. rewrite Nat.ltb_irrefl.
        replace (m - 1 + S t - 0)%nat with (t + m)%nat by lia.
        pose proof (G_unroll m p m t ltac:(lia)) as HU. rewrite Nat.sub_diag in HU. rewrite HU.
        setoid_replace (sumn m (fun i => u t i * A i 0%nat))
          with (sumn m (fun i => qpow p i * (1 - p) * G m p (t + m - 1 - i) 0)).
        { ring. }
        apply sumn_ext. intros i Hi. rewrite (IH i Hi).
        replace (m - 1 + t - i)%nat with (t + m - 1 - i)%nat by lia.
        unfold A, trans_A. replace (Nat.eqb 0 m) with false by (symmetry; apply Nat.eqb_neq; lia).
        rewrite !andb_false_r. cbn [Nat.eqb]. unfold w_independent.
        destruct (Nat.ltb_spec i m); [ring|lia].
      * etransitivity; [apply (sumn_single (S m) _ j); [lia|]|].
        2:{ unfold A, trans_A.
           destruct (Nat.eqb_spec j m); [lia|]. destruct (Nat.eqb_spec (S j) m); [lia|].
           cbn [andb]. cbn [Nat.eqb]. rewrite Nat.eqb_refl.
           rewrite IH by lia. replace (m - 1 + S t - S j)%nat with (m - 1 + t - j)%nat by lia. ring. }
        intros i Hi Hne. unfold A, trans_A.
           destruct (Nat.eqb_spec (S j) m); [lia|]. rewrite !andb_false_r. cbn [Nat.eqb].
           destruct (Nat.eqb_spec j i); [congruence|]. ring.
    + rewrite Hstep. unfold vec_mat. etransitivity; [apply (sumn_single (S m) _ m); [lia|]|].
      2:{ unfold A, trans_A. rewrite !Nat.eqb_refl. cbn [andb]. rewrite IHm. ring. }
      intros i Hi Hne. unfold A, trans_A. rewrite Nat.eqb_refl.
        destruct (Nat.eqb_spec i m); [congruence|]. cbn [andb].
        destruct (Nat.eqb_spec (S i) m); cbn [andb]; [ring|].
        destruct (Nat.eqb_spec m 0); [lia|]. destruct (Nat.eqb_spec m (S i)); [lia|]. ring.
Qed.
End Matrix.

Lemma run_probability_G p n m : (0 < m)%nat -> (m <= n)%nat ->
  exists v, run_probability p n m = Some v /\ v == G m p n O.
Proof.
  intros Hm Hn. unfold run_probability.
  destruct (Nat.leb_spec m 0); [lia|]. destruct (Nat.leb_spec n 0); [lia|].
  destruct (Nat.ltb_spec n m); [lia|].
  eexists; split; [reflexivity|]. unfold vec_solve.
  destruct (u_inv m p Hm (n - m + 1)) as [H3 _]. rewrite H3 by lia.
  replace (m - 1 + (n - m + 1) - 0)%nat with n by lia. reflexivity.
Qed.

Lemma run_probability_correct p n m : (0 < m)%nat -> (m <= n)%nat ->
  exists v, run_probability p n m = Some v /\ v == true_run_probability p n m.
Proof.
  intros Hm Hn. destruct (run_probability_G p n m Hm Hn) as [v [H1 H2]].
  exists v. split; [exact H1|]. rewrite H2, true_run_G. reflexivity.
Qed.

Lemma run_probability_error p n m :
  run_probability p n m = None <-> (m = 0 \/ n < m)%nat.
Proof.
  unfold run_probability.
  destruct (Nat.leb_spec m 0); [split; [lia|reflexivity]|].
  destruct (Nat.leb_spec n 0); [split; [lia|reflexivity]|].
  destruct (Nat.ltb_spec n m); [split; [lia|reflexivity]|].
  split; [discriminate|lia].
Qed.

(** * Order properties *)
Section Order.
Variable m : nat.

Lemma G_bounds p n k : 0 <= p -> p <= 1 -> 0 <= G m p n k /\ G m p n k <= 1.
Proof.
  intros H0 H1. revert k; induction n as [|n IH]; intros k; simpl; destruct (Nat.leb m k); try lra.
  destruct (IH (S k)), (IH O). split; nra.
Qed.

Lemma G_mono_k p n k k' : 0 <= p -> p <= 1 -> (k <= k')%nat -> G m p n k <= G m p n k'.
Proof.
  intros H0 H1. revert k k'; induction n as [|n IH]; intros k k' Hk; simpl.
  - destruct (Nat.leb_spec m k), (Nat.leb_spec m k'); try lra; lia.
  - destruct (Nat.leb_spec m k), (Nat.leb_spec m k'); try lra; try lia.
    + destruct (G_bounds p n (S k) H0 H1), (G_bounds p n O H0 H1). nra.
    + specialize (IH (S k) (S k') ltac:(lia)). nra.
Qed.

Lemma G_mono_n p n k : 0 <= p -> p <= 1 -> G m p n k <= G m p (S n) k.
Proof.
  intros H0 H1. revert k; induction n as [|n IH]; intros k.
  - destruct (Nat.le_gt_cases m k) as [H|H]; [rewrite !G_full by lia; lra|].
    simpl G at 1. destruct (Nat.leb_spec m k); [lia|]. apply G_bounds; auto.
  - destruct (Nat.le_gt_cases m k) as [H|H]; [rewrite !G_full by lia; lra|].
    rewrite !G_step by lia. pose proof (IH (S k)). pose proof (IH O). nra.
Qed.

Lemma G_mono_n' p n n' k : 0 <= p -> p <= 1 -> (n <= n')%nat -> G m p n k <= G m p n' k.
Proof.
  intros H0 H1 H. induction H as [|n' H IH]; [lra|].
  eapply Qle_trans; [exact IH|]. apply G_mono_n; auto.
Qed.

Lemma G_mono_p p q n k : 0 <= p -> p <= q -> q <= 1 -> G m p n k <= G m q n k.
Proof.
  intros H0 H1 H2. revert k; induction n as [|n IH]; intros k.
  - simpl; destruct (Nat.leb m k); lra.
  - destruct (Nat.le_gt_cases m k) as [H|H]; [rewrite !G_full by lia; lra|].
    rewrite !G_step by lia. pose proof (IH (S k)). pose proof (IH O).
    pose proof (G_mono_k q n O (S k) ltac:(lra) ltac:(lra) ltac:(lia)). nra.
Qed.

Lemma G_lipschitz p q n k : 0 <= p -> p <= q -> q <= 1 ->
  G m q n k - G m p n k <= inject_Z (Z.of_nat n) * (q - p).
Proof.
  intros H0 H1 H2. revert k; induction n as [|n IH]; intros k.
  - simpl; destruct (Nat.leb m k); unfold inject_Z; simpl; lra.
  - destruct (Nat.le_gt_cases m k) as [H|H].
    + rewrite !G_full by lia.
      assert (0 <= inject_Z (Z.of_nat (S n))) by (unfold Qle, inject_Z; simpl; lia). nra.
    + rewrite !G_step by lia. pose proof (IH (S k)). pose proof (IH O).
      destruct (G_bounds q n (S k)), (G_bounds q n O); try lra.
      rewrite Nat2Z.inj_succ. unfold Z.succ. rewrite inject_Z_plus.
      set (c := inject_Z (Z.of_nat n) * (q - p)) in *.
      set (a := G m q n (S k)) in *; set (a' := G m p n (S k)) in *.
      set (b := G m q n O) in *; set (b' := G m p n O) in *.
      pose proof (Qmult_le_0_compat (q - p) (1 - (a - b)) ltac:(lra) ltac:(lra)).
      pose proof (Qmult_le_0_compat p (c - (a - a')) ltac:(lra) ltac:(lra)).
      pose proof (Qmult_le_0_compat (1 - p) (c - (b - b')) ltac:(lra) ltac:(lra)).
      setoid_replace ((inject_Z (Z.of_nat n) + inject_Z 1) * (q - p)) with (c + (q - p))
        by (unfold c; simpl; ring).
      lra.
Qed.

(** union bound *)
Lemma G_union p n k : 0 <= p -> p <= 1 -> (k <= m)%nat -> (m - k <= n)%nat ->
  G m p n k <= qpow p (m - k) + inject_Z (Z.of_nat (n - (m - k))) * qpow p m.
Proof.
  intros H0 H1. revert k; induction n as [|n IH]; intros k Hk Hn.
  - replace k with m by lia. rewrite G_full, Nat.sub_diag by lia. simpl.
    unfold inject_Z; pose proof (qpow_nonneg p m H0). lra.
  - destruct (Nat.eq_dec k m) as [->|Hne].
    + rewrite G_full, Nat.sub_diag by lia. simpl qpow at 1.
      assert (0 <= inject_Z (Z.of_nat (S n - 0))) by (unfold Qle, inject_Z; simpl; lia).
      pose proof (qpow_nonneg p m H0). nra.
    + rewrite G_step by lia.
      pose proof (IH (S k) ltac:(lia) ltac:(lia)) as IH1.
      replace (m - k)%nat with (S (m - S k)) in * by lia. cbn [qpow].
      replace (S n - S (m - S k))%nat with (n - (m - S k))%nat by lia.
      pose proof (qpow_nonneg p m H0) as Hpm. pose proof (qpow_nonneg p (m - S k) H0) as Hpk.
      assert (HZ : G m p n 0 <= inject_Z (Z.of_nat (n - (m - S k))) * qpow p m).
      { destruct (Nat.le_gt_cases m n) as [Hmn|Hmn].
        - pose proof (IH O ltac:(lia) ltac:(lia)) as IH2. rewrite Nat.sub_0_r in IH2.
          assert (inject_Z (Z.of_nat (n - m)) + 1 <= inject_Z (Z.of_nat (n - (m - S k)))).
          { change 1 with (inject_Z 1). rewrite <- inject_Z_plus. rewrite <- Zle_Qle. lia. }
          nra.
        - rewrite G_short by lia.
          assert (0 <= inject_Z (Z.of_nat (n - (m - S k)))) by (unfold Qle, inject_Z; simpl; lia).
          nra. }
      nra.
Qed.

(** independent blocks *)
Lemma G_block p N d : 0 <= p -> p <= 1 -> (d <= m)%nat ->
  1 - G m p (N + d) (m - d) <= (1 - G m p N O) * (1 - qpow p d).
Proof.
  intros H0 H1. induction d as [|d IH]; intros Hd.
  - rewrite Nat.sub_0_r, G_full by lia. simpl. lra.
  - rewrite Nat.add_succ_r, G_step by lia. replace (S (m - S d)) with (m - d)%nat by lia.
    specialize (IH ltac:(lia)). cbn [qpow].
    pose proof (G_mono_n' p N (N + d) O H0 H1 ltac:(lia)).
    destruct (G_bounds p N O H0 H1). nra.
Qed.

Lemma G_blocks p j r : 0 <= p -> p <= 1 ->
  1 - G m p (j * m + r) O <= qpow (1 - qpow p m) j.
Proof.
  intros H0 H1. induction j as [|j IH].
  - simpl. destruct (G_bounds p r O H0 H1). lra.
  - replace (S j * m + r)%nat with ((j * m + r) + m)%nat by lia.
    pose proof (G_block p (j * m + r) m H0 H1 ltac:(lia)) as HB. rewrite Nat.sub_diag in HB.
    cbn [qpow]. pose proof (qpow_le1 p m H0 H1). 
    assert (0 <= 1 - qpow p m) by lra. nra.
Qed.
End Order.

Lemma G_mono_m m p n k : 0 <= p -> p <= 1 -> G (S m) p n k <= G m p n k.
Proof.
  intros H0 H1. revert k; induction n as [|n IH]; intros k.
  - simpl. destruct (Nat.leb_spec m k), k; try lra; destruct (Nat.leb_spec m k); try lra; lia.
  - destruct (Nat.le_gt_cases m k) as [H|H].
    + rewrite (G_full m) by lia. apply G_bounds; auto.
    + rewrite !G_step by lia. pose proof (IH (S k)). pose proof (IH O). nra.
Qed.

Lemma G_mono_m' m m' p n k : 0 <= p -> p <= 1 -> (m <= m')%nat -> G m' p n k <= G m p n k.
Proof.
  intros H0 H1 H. induction H as [|m' H IH]; [lra|].
  eapply Qle_trans; [apply G_mono_m; auto|exact IH].
Qed.
