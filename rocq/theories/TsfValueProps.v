(** Theorems about the values of single features (C159, C160, C161). *)
From Verif Require Import Common MetricsModel MedianSpec MedianProofs TsfValueModel.
From Coq Require Import Permutation Sorted.
Open Scope nat_scope.

(* ------------------------------------------------------------------ specification *)
Notation at_ x i := (nth i x 0%Q) (only parsing).
(** The series passes from one side of the level m to the other between rows i and i+1. *)
Definition changes_side (m : Q) (x : list Q) (i : nat) : Prop :=
  (at_ x i < m /\ m < at_ x (S i) \/ m < at_ x i /\ at_ x (S i) < m)%Q.
(** Exactly n rows satisfy P. *)
Definition how_many (P : nat -> Prop) (n : nat) : Prop := exists l, NoDup l /\ (forall i, In i l <-> P i) /\ length l = n.
(** m rows from row s on hold one value. *)
Definition flat (x : list Q) (s m : nat) : Prop := s + m <= length x /\ forall i, i < m -> (at_ x (s + i) == at_ x s)%Q.

(* ------------------------------------------------------------------ helpers *)
Lemma qltb_lt a b : qltb a b = true <-> (a < b)%Q.
Proof. unfold qltb. destruct (Qle_bool b a) eqn:E; cbn; split; try discriminate; intros H; auto.
  - apply Qle_bool_iff in E. lra.
  - apply Qnot_le_lt. intros X. apply Qle_bool_iff in X. congruence. Qed.
Lemma qltb_ge a b : qltb a b = false <-> (b <= a)%Q.
Proof. unfold qltb. destruct (Qle_bool b a) eqn:E; cbn; split; try discriminate; intros H; auto.
  - now apply Qle_bool_iff.
  - apply Qle_bool_iff in H. congruence. Qed.
Lemma qle_false a b : Qle_bool a b = false <-> (b < a)%Q.
Proof. rewrite <- qltb_lt. unfold qltb. destruct (Qle_bool a b); cbn; split; congruence. Qed.
Lemma lenQ_pos {A} (l : list A) : l <> [] -> (0 < lenQ l)%Q.
Proof. intros H. unfold lenQ. destruct l; [congruence|]. change 0%Q with (inject_Z 0). rewrite <- Zlt_Qlt. cbn. lia. Qed.

(* ------------------------------------------------------------------ C159 *)
(** Between values that are not the median itself, the crossing points are the passages over the median. *)
Theorem C159_crossing_partial : forall x m, median_of x m -> (forall v, In v x -> ~ v == m)%Q ->
  how_many (fun i => S i < length x /\ changes_side m x i) (crossing_points x).
Proof.
  intros x m M N. exists (filter (fun i => crosses (qmedian x) (nth i x 0%Q) (nth (S i) x 0%Q)) (seq 0 (length x - 1))).
  split; [apply NoDup_filter, seq_NoDup|]. split; [|reflexivity]. intros i. rewrite filter_In, in_seq.
  pose proof (median_qmedian _ _ M) as E. unfold changes_side.
  assert (D : forall i, i < length x -> ~ (at_ x i == m)%Q) by (intros k L; apply N, nth_In; exact L).
  split.
  - intros [A C]. split; [lia|]. pose proof (D i ltac:(lia)) as D1. unfold crosses in C. apply orb_prop in C.
    destruct C as [C|C]; apply andb_prop in C; destruct C as [C1 C2]; apply Qle_bool_iff in C1; apply qltb_lt in C2.
    + left. split; lra.
    + right. split; lra.
  - intros [A C]. split; [lia|]. unfold crosses. apply orb_true_intro. destruct C as [[C1 C2]|[C1 C2]]; [left|right]; apply andb_true_intro;
      (split; [apply Qle_bool_iff; lra|apply qltb_lt; lra]).
Qed.
(** A series that only touches the median from above is said to cross it. *)
Theorem C159_crossing_refuted : exists x m, median_of x m /\ (forall v, In v x -> m <= v)%Q /\ crossing_points x = 2.
Proof.
  exists [0;1;0;1;0]%Q, 0%Q. split.
  - exists [0;0;0;1;1]%Q. split; [|split].
    + apply perm_trans with [0;0;1;1;0]%Q; [apply perm_skip, perm_swap|]. apply perm_skip, perm_skip.
      apply perm_trans with [1;0;1]%Q; [apply perm_skip, perm_swap|apply perm_swap].
    + repeat constructor; lra.
    + vm_compute. reflexivity.
  - split; [|vm_compute; reflexivity]. cbn. intros v H. repeat destruct H as [<-|H]; try lra; tauto.
Qed.
Lemma qsum_b2q {A} (p : A -> bool) l : (qsum (map (fun v => b2q (p v)) l) == lenQ (filter p l))%Q.
Proof.
  unfold lenQ. induction l as [|a l IH]; [reflexivity|]. cbn [map qsum filter]. rewrite IH. destruct (p a); cbn [b2q length]; [|lra].
  rewrite Nat2Z.inj_succ, <- Z.add_1_l, inject_Z_plus. reflexivity.
Qed.
Lemma qsum_dev l c : (qsum (map (fun v => v - c) l) == qsum l - c * lenQ l)%Q.
Proof.
  unfold lenQ. induction l as [|a l IH]; [cbn; change (inject_Z 0) with 0%Q; ring|]. cbn [map qsum length]. rewrite IH.
  rewrite Nat2Z.inj_succ, <- Z.add_1_l, inject_Z_plus. change (inject_Z 1) with 1%Q. lra.
Qed.
Lemma avg_total l : l <> [] -> (avg l * lenQ l == qsum l)%Q.
Proof. intros N. unfold avg. field. pose proof (lenQ_pos l N). lra. Qed.
Lemma sum_nonpos_zero l : (forall v, In v l -> v <= 0)%Q -> (qsum l == 0)%Q -> forall v, In v l -> (v == 0)%Q.
Proof.
  induction l as [|a l IH]; intros H S v I; [destruct I|]. cbn in S.
  assert (B : (qsum l <= 0)%Q).
  { assert (X : forall l, (forall v, In v l -> v <= 0)%Q -> (qsum l <= 0)%Q).
    { induction l0 as [|b l0 IH0]; intros H0; cbn; [lra|]. pose proof (H0 b ltac:(now left)). pose proof (IH0 ltac:(intros; apply H0; now right)). lra. }
    apply X. intros w J. apply H. now right. }
  pose proof (H a ltac:(now left)) as A. destruct I as [<-|I]; [lra|]. apply IH; auto; [intros; apply H; now right|lra].
Qed.
Lemma sum_nonneg_zero l : (forall v, In v l -> 0 <= v)%Q -> (qsum l == 0)%Q -> forall v, In v l -> (v == 0)%Q.
Proof.
  induction l as [|a l IH]; intros H S v I; [destruct I|]. cbn in S.
  assert (B : (0 <= qsum l)%Q) by (apply qsum_nonneg; intros; apply H; now right).
  pose proof (H a ltac:(now left)) as A. destruct I as [<-|I]; [lra|]. apply IH; auto; [intros; apply H; now right|lra].
Qed.
(** The share of values above the mean: never all of them, and none only on a constant series. *)
Theorem C159_binarize : forall x m, x <> [] -> (m * lenQ x == qsum x)%Q ->
  (binarize_mean x * lenQ x == lenQ (filter (fun v => negb (Qle_bool v m)) x))%Q /\
  (0 <= binarize_mean x < 1)%Q /\
  ((binarize_mean x == 0)%Q <-> forall v w, In v x -> In w x -> (v == w)%Q).
Proof.
  intros x m N M. pose proof (lenQ_pos x N) as P. pose proof (avg_total x N) as T.
  assert (E : (m == avg x)%Q). { apply Qmult_inj_r with (lenQ x); [lra|]. lra. }
  assert (F : filter (fun v => negb (Qle_bool v m)) x = filter (qltb (avg x)) x).
  { apply filter_ext. intros v. unfold qltb. f_equal. destruct (Qle_bool v m) eqn:A, (Qle_bool v (avg x)) eqn:B; auto;
    [apply Qle_bool_iff in A; apply qle_false in B; lra|apply qle_false in A; apply Qle_bool_iff in B; lra]. }
  rewrite F. assert (L : (lenQ (map (fun v => b2q (qltb (avg x) v)) x) == lenQ x)%Q) by (unfold lenQ; rewrite map_length; reflexivity).
  assert (V : (binarize_mean x * lenQ x == lenQ (filter (qltb (avg x)) x))%Q).
  { unfold binarize_mean, avg at 1. rewrite L, qsum_b2q. field. lra. }
  split; [exact V|].
  assert (LT : (lenQ (filter (qltb (avg x)) x) < lenQ x)%Q).
  { unfold lenQ. rewrite <- Zlt_Qlt. assert (LE : forall l, length (filter (qltb (avg x)) l) <= length l) by (induction l; cbn; [lia|]; destruct (qltb _ _); cbn; lia).
    specialize (LE x). destruct (Nat.eq_dec (length (filter (qltb (avg x)) x)) (length x)) as [EQ|NE]; [exfalso|lia].
    assert (ALL : forall v, In v x -> (avg x < v)%Q).
    { assert (X : forall l, length (filter (qltb (avg x)) l) = length l -> forall v, In v l -> (avg x < v)%Q).
      { induction l as [|a l IH]; intros Q v I; [destruct I|]. cbn in Q. assert (LE0 : length (filter (qltb (avg x)) l) <= length l) by (clear; induction l as [|b l IH]; cbn; [lia|]; destruct (qltb _ _); cbn; lia).
        destruct (qltb (avg x) a) eqn:C; cbn in Q; [|lia]. destruct I as [<-|I]; [now apply qltb_lt|]. apply IH; [lia|exact I]. }
      apply X, EQ. }
    assert (S : (0 < qsum (map (fun v => v - avg x) x))%Q).
    { clear -ALL N. induction x as [|a l IH]; [congruence|]. cbn [map qsum]. revert ALL. generalize (avg (a :: l)). intros c ALL. pose proof (ALL a ltac:(now left)) as A.
      assert (B : (0 <= qsum (map (fun v => v - c) l))%Q). { apply qsum_nonneg. intros y I. apply in_map_iff in I. destruct I as (z & <- & J). pose proof (ALL z ltac:(now right)). lra. }
      lra. }
    rewrite qsum_dev in S. lra. }
  assert (NN : (0 <= lenQ (filter (qltb (avg x)) x))%Q). { unfold lenQ. change 0%Q with (inject_Z 0). rewrite <- Zle_Qle. lia. }
  split; [split|].
  - apply Qnot_lt_le. intros B. assert (X : (binarize_mean x * lenQ x < 0 * lenQ x)%Q) by (apply Qmult_lt_compat_r; lra). lra.
  - apply Qnot_le_lt. intros B. assert (X : (1 * lenQ x <= binarize_mean x * lenQ x)%Q) by (apply Qmult_le_compat_r; lra). lra.
  - split.
    + intros Z. assert (F0 : filter (qltb (avg x)) x = []).
      { assert (X : (lenQ (filter (qltb (avg x)) x) == 0)%Q) by (rewrite <- V, Z; ring). unfold lenQ in X. change 0%Q with (inject_Z 0) in X. rewrite inject_Z_injective in X.
        destruct (filter (qltb (avg x)) x); [reflexivity|cbn in X; lia]. }
      assert (LEM : forall v, In v x -> (v <= avg x)%Q).
      { intros v I. apply qltb_ge. destruct (qltb (avg x) v) eqn:C; [|reflexivity]. exfalso. assert (J : In v (filter (qltb (avg x)) x)) by (apply filter_In; auto). rewrite F0 in J. exact J. }
      assert (EQ : forall v, In v x -> (v == avg x)%Q).
      { intros v I. assert (X : (v - avg x == 0)%Q); [|lra]. apply (sum_nonpos_zero (map (fun v => v - avg x)%Q x)).
        - intros w J. apply in_map_iff in J. destruct J as (z & <- & J). pose proof (LEM z J). lra.
        - rewrite qsum_dev. lra.
        - apply in_map_iff. now exists v. }
      intros v w I J. rewrite (EQ v I), (EQ w J). reflexivity.
    + intros C. assert (F0 : filter (qltb (avg x)) x = []).
      { destruct x as [|a l]; [congruence|]. assert (EQ : (avg (a :: l) == a)%Q).
        { apply Qmult_inj_r with (lenQ (a :: l)); [lra|]. rewrite T. assert (D : (qsum (map (fun v => v - a)%Q (a :: l)) == 0)%Q).
          { assert (D : forall l', (forall v, In v l' -> v == a)%Q -> (qsum (map (fun v => v - a)%Q l') == 0)%Q).
            { induction l' as [|b l' IH]; intros H; cbn; [lra|]. rewrite IH by (intros; apply H; now right). rewrite (H b) by now left. lra. }
            apply D. intros v I. apply C; [exact I|now left]. }
          rewrite qsum_dev in D. lra. }
        apply filter_all_false. intros v I. apply qltb_ge. rewrite EQ. rewrite (C v a I) by now left. lra. }
      rewrite F0 in V. unfold lenQ in V at 2. cbn in V. apply Qmult_integral in V. destruct V as [V|V]; [exact V|lra].
Qed.
Example C159_case : crossing_points [1;3;1;4;2]%Q = 3 /\ (binarize_mean [1;3;1;4;2] == 2 # 5)%Q.
Proof. split; vm_compute; reflexivity. Qed.

(* ------------------------------------------------------------------ C160 *)
Lemma qsum_firstn_S w : forall l, w < length l -> (qsum (firstn (S w) l) == qsum (firstn w l) + at_ l w)%Q.
Proof.
  induction w as [|w IH]; intros [|a l] H; cbn in H; try lia; [cbn; lra|].
  change (firstn (S (S w)) (a :: l)) with (a :: firstn (S w) l). change (firstn (S w) (a :: l)) with (a :: firstn w l). cbn [qsum nth].
  rewrite IH by lia. lra.
Qed.
Lemma skipn_cons i : forall (x : list Q), i < length x -> skipn i x = at_ x i :: skipn (S i) x.
Proof. induction i as [|i IH]; intros [|a x] H; cbn in H; try lia; [reflexivity|]. cbn [skipn nth]. rewrite IH by lia. reflexivity. Qed.
Lemma nth_skipn_at i j (x : list Q) : at_ (skipn i x) j = at_ x (i + j).
Proof. revert x. induction i as [|i IH]; intros [|a x]; cbn; auto; destruct j; reflexivity || (destruct (i + _); reflexivity) || apply IH. Qed.
Lemma window_diff w i x : 1 <= w -> i + w < length x ->
  (avg (firstn w (skipn i x)) - avg (firstn w (skipn (S i) x)) == (at_ x i - at_ x (i + w)) / inject_Z (Z.of_nat w))%Q.
Proof.
  intros W L. unfold avg, lenQ. rewrite !firstn_length, !skipn_length. rewrite !Nat.min_l by lia.
  pose proof (qsum_firstn_S w (skipn i x) ltac:(rewrite skipn_length; lia)) as E. rewrite nth_skipn_at in E.
  rewrite (skipn_cons i x) in E at 1 by lia. change (firstn (S w) (at_ x i :: skipn (S i) x)) with (at_ x i :: firstn w (skipn (S i) x)) in E. cbn [qsum] in E.
  assert (P : (0 < inject_Z (Z.of_nat w))%Q) by (change 0%Q with (inject_Z 0); rewrite <- Zlt_Qlt; lia).
  setoid_replace (at_ x i - at_ x (i + w))%Q with (qsum (firstn w (skipn i x)) - qsum (firstn w (skipn (S i) x)))%Q by lra. field. lra.
Qed.
Lemma argmax_from_spec l : forall i best bv (full : list Q), best < i -> full <> [] -> length full = i + length l ->
  (forall j, j < length l -> at_ full (i + j) = at_ l j) -> bv = at_ full best ->
  (forall j, j < i -> (at_ full j <= bv)%Q) -> (forall j, j < best -> (at_ full j < bv)%Q) ->
  let k := argmax_from i best bv l in
  k < length full /\ (forall j, j < length full -> (at_ full j <= at_ full k)%Q) /\ (forall j, j < k -> (at_ full j < at_ full k)%Q).
Proof.
  induction l as [|v l IH]; intros i best bv full B NE LEN SH BV MX ST; cbv zeta; cbn [argmax_from].
  - cbn in LEN. rewrite <- BV. split; [lia|]. split; [intros j J; apply MX; lia|exact ST].
  - assert (V : at_ full i = v). { pose proof (SH 0 ltac:(cbn; lia)) as X. rewrite Nat.add_0_r in X. exact X. }
    assert (SH' : forall j, j < length l -> at_ full (S i + j) = at_ l j).
    { intros j J. pose proof (SH (S j) ltac:(cbn; lia)) as X. rewrite Nat.add_succ_r in X. exact X. }
    cbn in LEN. destruct (qltb bv v) eqn:C.
    + apply qltb_lt in C. apply (IH (S i) i v full); auto; try lia.
      * intros j J. destruct (Nat.eq_dec j i) as [->|D]; [rewrite V; lra|]. pose proof (MX j ltac:(lia)). lra.
      * intros j J. pose proof (MX j J). lra.
    + apply qltb_ge in C. apply (IH (S i) best bv full); auto; try lia.
      intros j J. destruct (Nat.eq_dec j i) as [->|D]; [rewrite V; lra|]. apply MX. lia.
Qed.
Lemma argmax_spec l : l <> [] -> argmax l < length l /\ (forall j, j < length l -> (at_ l j <= at_ l (argmax l))%Q) /\ (forall j, j < argmax l -> (at_ l j < at_ l (argmax l))%Q).
Proof.
  intros N. destruct l as [|v l]; [congruence|]. unfold argmax. apply (argmax_from_spec l 1 0 v (v :: l)); auto; try lia; try reflexivity.
  intros j J. replace j with 0 by lia. cbn. lra.
Qed.
(** The reported size is the greatest change over window_size rows, divided by window_size, and the location is the
    first row from which that change is made. Too short a series gives NaN. *)
Theorem C160_level_shift : forall w x, 1 <= w ->
  match level_shift w x with
  | None => length x < w + 2
  | Some (i, s) => i + w < length x /\ (s == Qabs (at_ x (i + w) - at_ x i) / inject_Z (Z.of_nat w))%Q /\
      (forall j, j + w < length x -> (Qabs (at_ x (j + w) - at_ x j) / inject_Z (Z.of_nat w) <= s)%Q) /\
      (forall j, j < i -> (Qabs (at_ x (j + w) - at_ x j) / inject_Z (Z.of_nat w) < s)%Q)
  end.
Proof.
  intros w x W. unfold level_shift. destruct (Nat.ltb_spec (length x) (w + 2)); [assumption|].
  set (means := map (fun i => avg (firstn w (skipn i x))) (seq 0 (length x - w + 1))). assert (LM : length means = length x - w + 1) by (unfold means; rewrite map_length, seq_length; reflexivity).
  assert (NM : forall i, i < length x - w + 1 -> nth i means 0%Q = avg (firstn w (skipn i x))).
  { intros i I. unfold means. rewrite nth_indep with (d' := avg (firstn w (skipn 0 x))) by (rewrite map_length, seq_length; lia).
    rewrite (map_nth (fun i => avg (firstn w (skipn i x)))). rewrite seq_nth by lia. reflexivity. }
  clearbody means.
  set (md := map (fun i => Qabs (nth i means 0 - nth (S i) means 0)%Q) (seq 0 (length means - 1))).
  assert (LD : length md = length x - w) by (unfold md; rewrite map_length, seq_length, LM; lia).
  assert (P : (0 < inject_Z (Z.of_nat w))%Q) by (change 0%Q with (inject_Z 0); rewrite <- Zlt_Qlt; lia).
  assert (ND : forall i, i + w < length x -> (nth i md 0 == Qabs (at_ x (i + w) - at_ x i) / inject_Z (Z.of_nat w))%Q).
  { intros i I. unfold md. rewrite nth_indep with (d' := Qabs (nth 0 means 0 - nth (S 0) means 0)%Q) by (rewrite map_length, seq_length; lia).
    rewrite (map_nth (fun i => Qabs (nth i means 0 - nth (S i) means 0)%Q)). rewrite seq_nth by lia. cbn [Nat.add]. rewrite !NM by lia.
    rewrite window_diff by lia. unfold Qdiv. rewrite Qabs_Qmult. rewrite (Qabs_pos (/ _)) by (apply Qlt_le_weak, Qinv_lt_0_compat; exact P).
    setoid_replace (at_ x i - at_ x (i + w))%Q with (- (at_ x (i + w) - at_ x i))%Q by lra. rewrite Qabs_opp. reflexivity. }
  destruct (argmax_spec md) as (A1 & A2 & A3). { intros E. rewrite E in LD. cbn in LD. lia. }
  split; [lia|]. split; [apply ND; lia|]. split.
  - intros j J. rewrite <- ND by exact J. apply A2. lia.
  - intros j J. rewrite <- ND by lia. apply A3. exact J.
Qed.
(** The mean of the series moves by h at row c and is flat elsewhere, yet the size reported is the w-th part of h. *)
Theorem C160_step_refuted : forall w x c a h, 1 <= w -> 1 <= c < length x -> w + 2 <= length x ->
  (forall i, i < length x -> (at_ x i == if (i <? c)%nat then a else a + h)%Q) ->
  exists i s, level_shift w x = Some (i, s) /\ (s * inject_Z (Z.of_nat w) <= Qabs h)%Q.
Proof.
  intros w x c a h W C L H. pose proof (C160_level_shift w x W) as T. destruct (level_shift w x) as [(i & s)|]; [|lia]. exists i, s. split; [reflexivity|].
  destruct T as (I & -> & _). assert (P : (0 < inject_Z (Z.of_nat w))%Q) by (change 0%Q with (inject_Z 0); rewrite <- Zlt_Qlt; lia).
  unfold Qdiv. rewrite <- Qmult_assoc, (Qmult_comm (/ _)), Qmult_inv_r, Qmult_1_r by lra.
  rewrite (H (i + w)) by lia. rewrite (H i) by lia. pose proof (Qabs_nonneg h) as B.
  destruct (Nat.ltb_spec (i + w) c), (Nat.ltb_spec i c); try lia.
  - setoid_replace (a - a)%Q with 0%Q by lra. exact B.
  - setoid_replace (a + h - a)%Q with h by lra. lra.
  - setoid_replace (a + h - (a + h))%Q with 0%Q by lra. exact B.
Qed.
Example C160_case : exists s, level_shift 2 [1;1;1;5;5;5]%Q = Some (1, s) /\ (s == 2)%Q.
Proof. eexists. split; [vm_compute; reflexivity|vm_compute; reflexivity]. Qed.

(* ------------------------------------------------------------------ C161 *)
Lemma flat_tail a l s m : flat (a :: l) (S s) m <-> flat l s m.
Proof. unfold flat. cbn [length]. split; intros [H1 H2]; (split; [lia|]); intros i I; specialize (H2 i I); exact H2. Qed.
Lemma runs_spec l : l <> [] -> exists r rs, run_lengths l = r :: rs /\ 1 <= r /\ flat l 0 r /\ (forall m, flat l 0 m -> m <= r) /\
  (forall s m, flat l s m -> m <= list_max (r :: rs)) /\ (exists s, flat l s (list_max (r :: rs))).
Proof.
  induction l as [|a l IH]; intros N; [congruence|]. destruct l as [|b l].
  - exists 1, []. assert (F : flat [a] 0 1) by (split; [cbn; lia|]; intros i I; replace i with 0 by lia; reflexivity).
    cbn. split; [reflexivity|]. split; [lia|]. split; [exact F|]. split; [intros m [M _]; cbn in M; lia|]. split; [intros s m [M _]; cbn in M; lia|now exists 0].
  - destruct (IH ltac:(discriminate)) as (r & rs & E & R1 & F0 & MX & ALL & (s0 & FS)). 
    change (run_lengths (a :: b :: l)) with (match run_lengths (b :: l) with r :: rs => if Qeq_bool a b then S r :: rs else 1 :: r :: rs | [] => [1] end). rewrite E.
    destruct (Qeq_bool a b) eqn:Q.
    + apply Qeq_bool_iff in Q. exists (S r), rs.
      assert (F1 : flat (a :: b :: l) 0 (S r)).
      { destruct F0 as [A B]. split; [cbn [length] in *; lia|]. intros [|i] I; [reflexivity|]. cbn [Nat.add]. change (at_ (a :: b :: l) (S i)) with (at_ (b :: l) i).
        specialize (B i ltac:(lia)). cbn [Nat.add] in B. rewrite B. cbn. symmetry. exact Q. }
      assert (M1 : forall m, flat (a :: b :: l) 0 m -> m <= S r).
      { intros [|m] [A B]; [lia|]. cut (m <= r); [lia|]. apply MX. split; [cbn [length] in *; lia|]. intros i I. specialize (B (S i) ltac:(lia)).
        cbn [Nat.add] in *. change (at_ (a :: b :: l) (S i)) with (at_ (b :: l) i) in B. rewrite B. cbn. exact Q. }
      split; [reflexivity|]. split; [lia|]. split; [exact F1|]. split; [exact M1|]. split.
      * intros [|s] m F; [pose proof (M1 m F); cbn [list_max fold_right]; change (fold_right Nat.max 0 rs) with (list_max rs); lia|].
        apply flat_tail, ALL in F. cbn [list_max fold_right] in *. lia.
      * cbn [list_max fold_right] in *. destruct (Nat.max_spec (S r) (fold_right Nat.max 0 rs)) as [[X ->]|[X ->]]; [|exists 0; exact F1].
        exists (S s0). apply flat_tail. rewrite Nat.max_r in FS by lia. exact FS.
    + assert (Q' : ~ (a == b)%Q) by (intros X; apply Qeq_bool_iff in X; congruence). exists 1, (r :: rs).
      assert (F1 : flat (a :: b :: l) 0 1) by (split; [cbn; lia|]; intros i I; replace i with 0 by lia; reflexivity).
      assert (M1 : forall m, flat (a :: b :: l) 0 m -> m <= 1).
      { intros [|[|m]] [A B]; try lia. exfalso. specialize (B 1 ltac:(lia)). cbn in B. apply Q'. symmetry. exact B. }
      split; [reflexivity|]. split; [lia|]. split; [exact F1|]. split; [exact M1|].
      assert (LM : list_max (1 :: r :: rs) = list_max (r :: rs)) by (cbn [list_max fold_right]; lia). rewrite LM. split.
      * intros [|s] m F; [pose proof (M1 m F); cbn [list_max fold_right]; lia|]. apply flat_tail, ALL in F. exact F.
      * exists (S s0). apply flat_tail. exact FS.
Qed.
Lemma fold_max (f : nat -> nat) l : forall m0, let m := fold_left (fun m k => if m <? f k then f k else m) l m0 in
  m0 <= m /\ (forall k, In k l -> f k <= m) /\ (m = m0 \/ exists k, In k l /\ m = f k).
Proof.
  induction l as [|k l IH]; intros m0; cbv zeta; cbn [fold_left]; [split; [lia|split; [intros _ []|now left]]|].
  specialize (IH (if m0 <? f k then f k else m0)). cbv zeta in IH. destruct IH as (A & B & C). set (m := fold_left _ l _) in *.
  destruct (Nat.ltb_spec m0 (f k)).
  - split; [lia|]. split; [intros j [<-|J]; auto|]. right. destruct C as [C|(j & J & C)]; [exists k|exists j]; cbn; auto.
  - split; [lia|]. split; [intros j [<-|J]; [lia|auto]|]. destruct C as [C|(j & J & C)]; [auto|]. right. exists j. cbn. auto.
Qed.
Lemma block_flat w k x s m : 1 <= w -> 1 <= m -> flat (firstn w (skipn (k * w) x)) s m -> flat x (k * w + s) m /\ s + m <= w.
Proof.
  intros W M [A B]. rewrite firstn_length, skipn_length in A. split; [|lia]. 
  assert (E : forall j, j < w -> at_ (firstn w (skipn (k * w) x)) j = at_ x (k * w + j)).
  { intros j J. rewrite <- nth_skipn_at. rewrite <- (firstn_skipn w (skipn (k * w) x)) at 2.
    destruct (Nat.lt_ge_cases j (length (firstn w (skipn (k * w) x)))) as [L|L]; [now rewrite app_nth1|].
    rewrite nth_overflow by exact L. rewrite firstn_length, skipn_length in L. rewrite nth_overflow; [reflexivity|]. rewrite firstn_skipn, skipn_length. lia. }
  split; [lia|]. intros i I. specialize (B i I). rewrite !E in B by lia. rewrite Nat.add_assoc in B. exact B.
Qed.
Lemma flat_block w k x s m : 1 <= m -> s + m <= w -> flat x (k * w + s) m -> flat (firstn w (skipn (k * w) x)) s m.
Proof.
  intros M L [A B]. split; [rewrite firstn_length, skipn_length; lia|]. intros i I. specialize (B i I).
  assert (E : forall j, j < w -> at_ (firstn w (skipn (k * w) x)) j = at_ x (k * w + j)).
  { intros j J. rewrite <- nth_skipn_at. rewrite <- (firstn_skipn w (skipn (k * w) x)) at 2.
    destruct (Nat.lt_ge_cases j (length (firstn w (skipn (k * w) x)))) as [L'|L']; [now rewrite app_nth1|].
    rewrite nth_overflow by exact L'. rewrite firstn_length, skipn_length in L'. rewrite nth_overflow; [reflexivity|]. rewrite firstn_skipn, skipn_length. lia. }
  rewrite !E by lia. rewrite Nat.add_assoc. exact B.
Qed.
(** The segments are the stretches of length n / nbins from the first row on; the feature is the length of the longest
    flat stretch inside one segment. NaN exactly if there are no more rows than bins. *)
Theorem C161_flat_spots : forall nbins x, 1 <= nbins ->
  match flat_spots nbins x with
  | None => length x <= nbins
  | Some m => let w := length x / nbins in
      nbins < length x /\ 1 <= m <= w /\
      (exists k s, s + m <= w /\ flat x (k * w + s) m) /\
      (forall k s m', s + m' <= w -> flat x (k * w + s) m' -> m' <= m)
  end.
Proof.
  intros nbins x N. unfold flat_spots. destruct (Nat.leb_spec (length x) nbins) as [L|L]; [exact L|]. cbv zeta.
  set (w := length x / nbins). assert (W : 1 <= w) by (apply Nat.div_le_lower_bound; lia). split; [exact L|].
  set (f := fun k => list_max (run_lengths (firstn w (skipn (k * w) x)))).
  change (fold_left _ _ _) with (fold_left (fun m k => if m <? f k then f k else m) (seq 0 ((length x + w - 1) / w)) 0).
  destruct (fold_max f (seq 0 ((length x + w - 1) / w)) 0) as (_ & B & C). set (m := fold_left _ _ _) in *.
  assert (NUM : forall k, k * w < length x -> k < (length x + w - 1) / w).
  { intros k K. apply Nat.lt_le_trans with (S k); [lia|]. apply Nat.div_le_lower_bound; [lia|]. nia. }
  assert (NUM' : forall k, k < (length x + w - 1) / w -> k * w < length x).
  { intros k K. assert (S k <= (length x + w - 1) / w) as K' by lia. pose proof (Nat.mul_div_le (length x + w - 1) w ltac:(lia)). nia. }
  assert (NE : forall k, k * w < length x -> firstn w (skipn (k * w) x) <> []).
  { intros k K E. apply (f_equal (@length Q)) in E. rewrite firstn_length, skipn_length in E. cbn in E. lia. }
  assert (MAX : forall k s m', s + m' <= w -> flat x (k * w + s) m' -> m' <= m).
  { intros k s [|m'] S F; [lia|]. assert (K : k * w < length x) by (destruct F; lia). 
    apply Nat.le_trans with (f k); [|apply B, in_seq; pose proof (NUM k K); lia]. apply flat_block in F; [|lia|exact S].
    destruct (runs_spec _ (NE k K)) as (r & rs & E & _ & _ & _ & ALL & _). unfold f. rewrite E. eapply ALL. exact F. }
  assert (M1 : 1 <= m).
  { apply (MAX 0 0 1); [lia|]. split; [cbn; lia|]. intros i I. replace i with 0 by lia. reflexivity. }
  destruct C as [C|(k & K & C)]; [lia|]. apply in_seq in K. assert (K' : k * w < length x) by (apply NUM'; lia).
  destruct (runs_spec _ (NE k K')) as (r & rs & E & _ & _ & _ & _ & (s & FS)). unfold f in C. rewrite E in C. rewrite <- C in FS.
  apply block_flat in FS; [|exact W|exact M1]. destruct FS as [F S]. split; [lia|]. split; [exists k, s; auto|exact MAX].
Qed.
(** A stretch that continues into the next segment is cut: on a constant series the answer is the segment length. *)
Theorem C161_longest_refuted : forall nbins x c, 2 <= nbins < length x -> (forall v, In v x -> v == c)%Q ->
  exists m, flat_spots nbins x = Some m /\ flat x 0 (length x) /\ m = length x / nbins /\ m < length x.
Proof.
  intros nbins x c N C. pose proof (C161_flat_spots nbins x ltac:(lia)) as T. destruct (flat_spots nbins x) as [m|]; [|lia]. exists m. split; [reflexivity|].
  assert (F : flat x 0 (length x)). { split; [lia|]. intros i I. rewrite (C (at_ x (0 + i))) by (apply nth_In; lia). rewrite (C (at_ x 0)) by (apply nth_In; lia). reflexivity. }
  split; [exact F|]. cbv zeta in T. destruct T as (_ & M & _ & MAX). set (w := length x / nbins) in *.
  assert (W : w <= length x) by (apply Nat.div_le_upper_bound; nia). assert (w < length x) by (apply Nat.div_lt; lia).
  assert (w <= m); [|lia]. apply (MAX 0 0 w); [lia|]. destruct F as [A B]. split; [cbn; lia|]. intros i I. apply B. lia.
Qed.
Example C161_case : flat_spots 2 [1;2;2;2;2;3;3;4]%Q = Some 3 /\ flat_spots 8 [1;2;2;2;2;3;3;4]%Q = None.
Proof. split; vm_compute; reflexivity. Qed.

Print Assumptions C159_crossing_partial.
Print Assumptions C159_crossing_refuted.
Print Assumptions C159_binarize.
Print Assumptions C160_level_shift.
Print Assumptions C160_step_refuted.
Print Assumptions C161_flat_spots.
Print Assumptions C161_longest_refuted.
