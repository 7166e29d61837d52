(** Theorems about the features of the autocorrelation function (C162) and the chunk statistics (C164). *)
From Verif Require Import Common TsfValueModel TsfValueProps.
Open Scope nat_scope.

(* ------------------------------------------------------------------ specification *)
(** m is the mean of x. *)
Definition mean_of (x : list Q) (m : Q) : Prop := (m * lenQ x == qsum x)%Q.
(** r k is the autocorrelation of x at lag k. *)
Definition autocorrelation (x : list Q) (r : nat -> Q) : Prop :=
  exists m, mean_of x m /\ forall k, k < length x ->
    (r k * sumn (length x) (fun t => (at_ x t - m) * (at_ x t - m))
     == sumn (length x - k) (fun t => (at_ x t - m) * (at_ x (t + k) - m)))%Q.
Definition constant (x : list Q) : Prop := forall v w, In v x -> In w x -> (v == w)%Q.

(* ------------------------------------------------------------------ the sum of all autocorrelations *)
Lemma sumn_rev n f : (sumn n (fun j => f (n - S j)%nat) == sumn n f)%Q.
Proof.
  induction n as [|n IH]; [reflexivity|]. rewrite sumn_S_first. cbn [sumn]. rewrite <- IH. replace (S n - 1) with n by lia.
  rewrite Qplus_comm. apply Qplus_comp; [|reflexivity]. apply sumn_ext. intros i I. replace (S n - S (S i)) with (n - S i) by lia. reflexivity.
Qed.
Lemma lag_sums (d : nat -> Q) n :
  (2 * sumn n (fun j => sumn (n - S j) (fun t => d t * d (t + S j)%nat)) + sumn n (fun t => d t * d t) == sumn n d * sumn n d)%Q.
Proof.
  induction n as [|n IH]; [cbn; ring|].
  assert (E : (sumn (S n) (fun j => sumn (S n - S j) (fun t => d t * d (t + S j)%nat))
     == sumn n (fun j => sumn (n - S j) (fun t => d t * d (t + S j)%nat)) + d n * sumn n d)%Q).
  { cbn [sumn]. replace (S n - S n) with 0 by lia. cbn [sumn]. rewrite <- (sumn_rev n d), <- sumn_scale, Qplus_0_r, <- sumn_plus.
    apply sumn_ext. intros j J. replace (S n - S j) with (S (n - S j)) by lia. cbn [sumn]. replace (n - S j + S j) with n by lia. ring. }
  rewrite E. cbn [sumn]. setoid_replace (2 * (sumn n (fun j => sumn (n - S j) (fun t => d t * d (t + S j)%nat)) + d n * sumn n d) + (sumn n (fun t => d t * d t) + d n * d n))%Q
    with ((2 * sumn n (fun j => sumn (n - S j) (fun t => d t * d (t + S j)%nat)) + sumn n (fun t => d t * d t)) + 2 * (d n * sumn n d) + d n * d n)%Q by ring.
  rewrite IH. ring.
Qed.
Lemma sumn_nth l : (sumn (length l) (fun i => at_ l i) == qsum l)%Q.
Proof.
  induction l as [|a l IH]; [reflexivity|]. change (length (a :: l)) with (S (length l)). rewrite sumn_S_first. cbn [nth qsum]. rewrite IH. reflexivity.
Qed.
Lemma sumn_const n c : (sumn n (fun _ => c) == c * inject_Z (Z.of_nat n))%Q.
Proof. induction n as [|n IH]; [cbn; change (inject_Z 0) with 0%Q; ring|]. cbn [sumn]. rewrite IH, Nat2Z.inj_succ, <- Z.add_1_r, inject_Z_plus. change (inject_Z 1) with 1%Q. ring. Qed.
Lemma sumn_nonneg n f : (forall i, i < n -> (0 <= f i)%Q) -> (0 <= sumn n f)%Q.
Proof. induction n as [|n IH]; intros H; cbn; [lra|]. pose proof (IH ltac:(intros; apply H; lia)). pose proof (H n ltac:(lia)). lra. Qed.
Lemma sumn_zero_all n f : (forall i, i < n -> (0 <= f i)%Q) -> (sumn n f == 0)%Q -> forall i, i < n -> (f i == 0)%Q.
Proof.
  induction n as [|n IH]; intros H S i I; [lia|]. cbn in S. pose proof (sumn_nonneg n f ltac:(intros; apply H; lia)) as A. pose proof (H n ltac:(lia)) as B.
  destruct (Nat.eq_dec i n) as [->|D]; [lra|]. apply IH; [intros; apply H; lia|lra|lia].
Qed.
Lemma sq_nonneg a : (0 <= a * a)%Q.
Proof. destruct (Qlt_le_dec a 0); [setoid_replace (a * a)%Q with ((- a) * (- a))%Q by ring|]; apply Qmult_le_0_compat; lra. Qed.
Lemma sq_zero a : (a * a == 0)%Q -> (a == 0)%Q.
Proof. intros H. apply Qmult_integral in H. tauto. Qed.

Section Ac.
Variables (x : list Q) (r : nat -> Q).
Hypothesis R : autocorrelation x r.
Lemma avg_mean m : x <> [] -> mean_of x m -> (m == avg x)%Q.
Proof. intros N M. pose proof (lenQ_pos x N). pose proof (avg_total x N). unfold mean_of in M. apply Qmult_inj_r with (lenQ x); lra. Qed.
Lemma acov_r k : k < length x -> (r k * acov x 0 == acov x k)%Q.
Proof.
  destruct R as (m & M & E). intros K. assert (N : x <> []) by (intros ->; cbn in K; lia). pose proof (avg_mean m N M) as A. specialize (E k K).
  unfold acov. rewrite Nat.sub_0_r.
  assert (X : (sumn (length x) (fun t => (at_ x t - avg x) * (at_ x (t + 0) - avg x)) == sumn (length x) (fun t => (at_ x t - m) * (at_ x t - m)))%Q).
  { apply sumn_ext. intros i I. rewrite Nat.add_0_r, A. reflexivity. }
  rewrite X. rewrite E. apply sumn_ext. intros i I. rewrite A. reflexivity.
Qed.
Lemma acov0_pos : ~ constant x -> (0 < acov x 0)%Q.
Proof.
  intros C. assert (NN : (0 <= acov x 0)%Q). { unfold acov. apply sumn_nonneg. intros i I. rewrite Nat.add_0_r. apply sq_nonneg. }
  destruct (Qlt_le_dec 0 (acov x 0)); [assumption|]. exfalso. apply C. intros v w V W.
  assert (Z : forall u, In u x -> (u == avg x)%Q).
  { intros u U. apply (In_nth _ _ 0%Q) in U. destruct U as (i & I & <-).
    assert (S : (sumn (length x) (fun t => (at_ x t - avg x) * (at_ x (t + 0) - avg x)) == 0)%Q) by (unfold acov in *; rewrite Nat.sub_0_r in *; lra).
    assert (NNf : forall j, j < length x -> (0 <= (at_ x j - avg x) * (at_ x (j + 0) - avg x))%Q) by (intros j J; rewrite Nat.add_0_r; apply sq_nonneg).
    pose proof (sumn_zero_all _ _ NNf S i I) as X. cbv beta in X. rewrite Nat.add_0_r in X. apply sq_zero in X. lra. }
  rewrite (Z v V), (Z w W). reflexivity.
Qed.
Lemma acov_total : x <> [] -> (2 * sumn (length x) (fun j => acov x (S j)) == - acov x 0)%Q.
Proof.
  intros N. pose proof (lag_sums (fun t => at_ x t - avg x)%Q (length x)) as E. cbv beta in E.
  assert (S0 : (sumn (length x) (fun t => at_ x t - avg x) == 0)%Q).
  { unfold Qminus. rewrite sumn_plus, sumn_nth, sumn_const. pose proof (avg_total x N) as T. unfold lenQ in T. lra. }
  rewrite S0 in E. unfold acov at 2. rewrite Nat.sub_0_r.
  assert (X : (sumn (length x) (fun t => (at_ x t - avg x) * (at_ x (t + 0) - avg x)) == sumn (length x) (fun t => (at_ x t - avg x) * (at_ x t - avg x)))%Q)
    by (apply sumn_ext; intros i I; rewrite Nat.add_0_r; reflexivity).
  rewrite X. unfold acov. lra.
Qed.
Lemma r_sign k : ~ constant x -> k < length x -> (0 < r k <-> 0 < acov x k)%Q /\ (r k < 0 <-> acov x k < 0)%Q.
Proof.
  intros C K. pose proof (acov0_pos C) as P. pose proof (acov_r k K) as E. rewrite <- E. split; split; intros H.
  - apply Qmult_lt_0_compat; lra.
  - destruct (Qlt_le_dec 0 (r k)); [assumption|]. assert (r k * acov x 0 <= 0 * acov x 0)%Q by (apply Qmult_le_compat_r; lra). lra.
  - assert (r k * acov x 0 < 0 * acov x 0)%Q by (apply Qmult_lt_compat_r; lra). lra.
  - destruct (Qlt_le_dec (r k) 0); [assumption|]. assert (0 * acov x 0 <= r k * acov x 0)%Q by (apply Qmult_le_compat_r; lra). lra.
Qed.
Lemma acf_nth i : ~ constant x -> S i < length x -> exists v, nth i (acf x) None = Some v /\ (v == r (S i))%Q.
Proof.
  intros C I. unfold acf. pose proof (acov0_pos C) as P. exists (acov x (S i) / acov x 0)%Q. split.
  - rewrite nth_indep with (d' := (if Qeq_bool (acov x 0) 0 then None else Some (acov x 0 / acov x 0)%Q)) by (rewrite map_length, seq_length; lia).
    rewrite (map_nth (fun k => if Qeq_bool (acov x 0) 0 then None else Some (acov x k / acov x 0)%Q)). rewrite seq_nth by lia.
    destruct (Qeq_bool (acov x 0) 0) eqn:E; [apply Qeq_bool_iff in E; lra|reflexivity].
  - rewrite <- (acov_r (S i) I). field. lra.
Qed.
Lemma acf_length : length (acf x) = length x - 1.
Proof. unfold acf. now rewrite map_length, seq_length. Qed.
Lemma acf_gt i : ~ constant x -> S (S i) < length x -> gt_nan (nth i (acf x) None) (nth (S i) (acf x) None) = true <-> (r (S (S i)) < r (S i))%Q.
Proof.
  intros C I. destruct (acf_nth i C ltac:(lia)) as (a & -> & A). destruct (acf_nth (S i) C I) as (b & -> & B). cbn [gt_nan]. rewrite qltb_lt. lra.
Qed.
End Ac.

Lemma first_min_spec AC : forall i, AC <> [] -> exists p, first_min i AC = i + p /\ p < length AC /\
  (forall j, j < p -> gt_nan (nth j AC None) (nth (S j) AC None) = true) /\
  (S p < length AC -> gt_nan (nth p AC None) (nth (S p) AC None) = false).
Proof.
  induction AC as [|a AC IH]; intros i N; [congruence|]. destruct AC as [|b AC].
  - exists 0. cbn. split; [lia|]. split; [lia|]. split; [intros; lia|lia].
  - cbn [first_min]. destruct (gt_nan a b) eqn:G.
    + destruct (IH (S i) ltac:(discriminate)) as (p & E & L & A & B). exists (S p). split; [etransitivity; [exact E|lia]|]. split; [cbn [length] in *; lia|]. split.
      * intros [|j] J; [exact G|]. apply (A j). lia.
      * intros H. apply B. cbn [length] in *. lia.
    + exists 0. split; [lia|]. split; [cbn; lia|]. split; [intros; lia|intros _; exact G].
Qed.
Definition falls (AC : list (option Q)) (j : nat) : bool := gt_nan (nth j AC None) (Some 0%Q) && gt_nan (Some 0%Q) (nth (S j) AC None).
Lemma first_zero_spec AC : forall j, AC <> [] -> exists p, first_zero j AC = j + p /\ p < length AC /\
  (forall q, q < p -> falls AC q = false) /\ (S p < length AC -> falls AC p = true).
Proof.
  induction AC as [|a AC IH]; intros i N; [congruence|]. destruct AC as [|b AC].
  - exists 0. cbn. split; [lia|]. split; [lia|]. split; [intros; lia|lia].
  - cbn [first_zero]. destruct (gt_nan a (Some 0%Q) && gt_nan (Some 0%Q) b) eqn:G.
    + exists 0. split; [lia|]. split; [cbn; lia|]. split; [intros; lia|intros _; exact G].
    + destruct (IH (S i) ltac:(discriminate)) as (p & E & L & A & B). exists (S p). split; [etransitivity; [exact E|lia]|]. split; [cbn [length] in *; lia|]. split.
      * intros [|j] J; [exact G|]. apply (A j). lia.
      * intros H. apply B. cbn [length] in *. lia.
Qed.

(* ------------------------------------------------------------------ C162 *)
(** The first minimum: the autocorrelations fall up to that lag and do not fall after it. *)
Theorem C162_firstmin : forall x r, ~ constant x -> autocorrelation x r ->
  let k := fst (special_ac x) in
  1 <= k < length x /\ (forall j, 1 <= j < k -> (r (S j) < r j)%Q) /\ (S k < length x -> (r k <= r (S k))%Q).
Proof.
  intros x r C R. cbv zeta. unfold special_ac. cbn [fst].
  assert (L : 2 <= length x). { destruct x as [|a [|b l]]; cbn; try lia; exfalso; apply C; [intros v w []|intros v w [<-|[]] [<-|[]]; reflexivity]. }
  destruct (first_min_spec (acf x) 0) as (p & -> & P & A & B). { intros E. pose proof (acf_length x) as X. rewrite E in X. cbn in X. lia. }
  rewrite acf_length in *. cbn [Nat.add]. split; [lia|]. split.
  - intros j J. destruct j as [|j]; [lia|]. apply (acf_gt x r R j C ltac:(lia)). apply A. lia.
  - intros K. replace (p + 1) with (S p) in * by lia. specialize (B ltac:(lia)). destruct (Qlt_le_dec (r (S (S p))) (r (S p))) as [X|X]; [|exact X].
    apply (acf_gt x r R p C ltac:(lia)) in X. congruence.
Qed.
(** If the autocorrelation at lag 1 is positive and none is zero, the first zero crossing is the first negative lag. *)
Theorem C162_firstzero_partial : forall x r, ~ constant x -> autocorrelation x r ->
  (0 < r 1%nat)%Q -> (forall k, 1 <= k < length x -> ~ (r k == 0)%Q) ->
  let k := snd (special_ac x) in
  2 <= k < length x /\ (r k < 0)%Q /\ (forall j, 1 <= j < k -> (0 < r j)%Q).
Proof.
  intros x r C R R1 NZ. cbv zeta. unfold special_ac. cbn [snd].
  assert (L : 2 <= length x). { destruct x as [|a [|b l]]; cbn; try lia; exfalso; apply C; [intros v w []|intros v w [<-|[]] [<-|[]]; reflexivity]. }
  assert (NE : x <> []) by (intros ->; cbn in L; lia).
  assert (F : forall q, S (S q) < length x -> falls (acf x) q = true <-> (0 < r (S q))%Q /\ (r (S (S q)) < 0)%Q).
  { intros q Q. unfold falls. destruct (acf_nth x r R q C ltac:(lia)) as (a & -> & A). destruct (acf_nth x r R (S q) C Q) as (b & -> & B).
    cbn [gt_nan]. rewrite andb_true_iff, !qltb_lt. rewrite A, B. reflexivity. }
  assert (NEG : exists k, 1 <= k < length x /\ (r k < 0)%Q).
  { pose proof (acov_total x NE) as T. pose proof (acov0_pos x C) as P.
    assert (X : forall n, (sumn n (fun j => acov x (S j)) < 0)%Q -> exists j, j < n /\ (acov x (S j) < 0)%Q).
    { induction n as [|n IH]; intros S; cbn in S; [lra|]. destruct (Qlt_le_dec (acov x (Datatypes.S n)) 0); [exists n; split; [lia|assumption]|].
      destruct IH as (j & J & E); [lra|]. exists j. split; [lia|exact E]. }
    destruct (X (length x)) as (j & J & E); [lra|]. exists (S j). assert (K : S j < length x).
    { destruct (Nat.lt_ge_cases (S j) (length x)) as [K|K]; [exact K|]. exfalso. unfold acov in E. replace (length x - S j) with 0 in E by lia. cbn in E. lra. }
    split; [lia|]. apply (r_sign x r R (S j) C K). exact E. }
  assert (FIRST : exists q, S (S q) < length x /\ (r (S (S q)) < 0)%Q /\ forall j, 1 <= j <= S q -> (0 < r j)%Q).
  { destruct NEG as (k & K & N).
    assert (X : forall n, n < length x -> (forall j, 1 <= j <= n -> (0 < r j)%Q) \/ exists q, S (S q) <= n /\ (r (S (S q)) < 0)%Q /\ forall j, 1 <= j <= S q -> (0 < r j)%Q).
    { induction n as [|n IH]; intros H; [left; intros; lia|]. destruct (IH ltac:(lia)) as [A|(q & Q1 & Q2 & Q3)]; [|right; exists q; split; [lia|auto]].
      destruct (Qlt_le_dec 0 (r (S n))) as [P|P].
      - left. intros j J. destruct (Nat.eq_dec j (S n)) as [->|D]; [exact P|]. apply A. lia.
      - right. destruct n as [|n]; [lra|]. exists n. split; [lia|]. split; [|exact A]. pose proof (NZ (S (S n)) ltac:(lia)). lra. }
    destruct (X k ltac:(lia)) as [A|(q & Q1 & Q2 & Q3)]; [specialize (A k ltac:(lia)); lra|]. exists q. split; [lia|auto]. }
  destruct FIRST as (q & Q1 & Q2 & Q3).
  destruct (first_zero_spec (acf x) 0) as (p & -> & P & A & B). { intros E. pose proof (acf_length x) as X. rewrite E in X. cbn in X. lia. }
  rewrite acf_length in *. cbn [Nat.add]. assert (E : p = q).
  { destruct (Nat.lt_trichotomy p q) as [H|[H|H]]; [|exact H|].
    - specialize (B ltac:(lia)). apply F in B; [|lia]. destruct B as [_ B]. pose proof (Q3 (S (S p)) ltac:(lia)). lra.
    - specialize (A q H). assert (falls (acf x) q = true); [|congruence]. apply F; [lia|]. split; [apply Q3; lia|exact Q2]. }
  subst p. replace (q + 2) with (S (S q)) by lia. split; [lia|]. split; [exact Q2|]. intros j J. apply Q3. lia.
Qed.
(** A crossing at lag 1 is missed, and so is one through an exact zero; a constant series, and one whose crossing is
    missed, gets its own length, which is not a lag. *)
Theorem C162_firstzero_refuted :
  (exists x r, ~ constant x /\ autocorrelation x r /\ (0 < r 0%nat)%Q /\ (r 1%nat < 0)%Q /\ snd (special_ac x) = 3) /\
  (exists x r, ~ constant x /\ autocorrelation x r /\ (0 < r 1%nat)%Q /\ (r 2%nat == 0)%Q /\ (r 3%nat < 0)%Q /\ snd (special_ac x) = length x) /\
  (forall x, constant x -> 2 <= length x -> special_ac x = (1, length x)).
Proof.
  split; [|split].
  - exists [1;-1;1;-1;1;-1]%Q, (fun k => acov [1;-1;1;-1;1;-1] k / 6)%Q. split.
    + intros C. specialize (C 1%Q (-1)%Q ltac:(cbn; auto) ltac:(cbn; auto)). lra.
    + split; [|split; [|split]]; try (vm_compute; reflexivity). exists 0%Q. split; [vm_compute; reflexivity|].
      intros k K. cbn [length] in K. do 6 (destruct k as [|k]; [vm_compute; reflexivity|]). lia.
  - exists [-1;-1;-1;1;1;1]%Q, (fun k => acov [-1;-1;-1;1;1;1] k / 6)%Q. split.
    + intros C. specialize (C (-1)%Q 1%Q ltac:(cbn; auto) ltac:(cbn; auto)). lra.
    + split; [|split; [|split; [|split]]]; try (vm_compute; reflexivity). exists 0%Q. split; [vm_compute; reflexivity|].
      intros k K. cbn [length] in K. do 6 (destruct k as [|k]; [vm_compute; reflexivity|]). lia.
  - intros x C L. assert (NE : x <> []) by (intros ->; cbn in L; lia).
    assert (Z : (acov x 0 == 0)%Q).
    { unfold acov. apply sumn_zero. intros i I. assert (E : (at_ x i == avg x)%Q); [|rewrite E; ring].
      apply Qmult_inj_r with (lenQ x); [pose proof (lenQ_pos x NE); lra|]. rewrite (avg_total x NE). rewrite <- sumn_nth. unfold lenQ. rewrite <- sumn_const.
      apply sumn_ext. intros j J. apply C; apply nth_In; lia. }
    assert (A : acf x = repeat None (length x - 1)).
    { unfold acf. apply Qeq_bool_iff in Z. rewrite Z. clear. generalize 1 at 1. induction (length x - 1) as [|n IH]; intros s; cbn; [reflexivity|]. now rewrite IH. }
    unfold special_ac. rewrite A. f_equal.
    + destruct (length x - 1) as [|[|n]]; reflexivity.
    + assert (X : forall n j, 1 <= n -> first_zero j (repeat None n) = j + (n - 1)).
      { induction n as [|n IH]; intros j H; [lia|]. destruct n as [|n]; [cbn; lia|]. change (first_zero j (repeat None (S (S n)))) with (first_zero (S j) (repeat None (S n))). rewrite IH; lia. }
      rewrite X by lia. lia.
Qed.
Example C162_case : special_ac [1;2;3;4;3;2;1;2;3]%Q = (3, 2).
Proof. vm_compute. reflexivity. Qed.

(* ------------------------------------------------------------------ C164 *)
(** v is the variance of the values l. *)
Definition variance_of (l : list Q) (v : Q) : Prop :=
  exists m, mean_of l m /\ (v * lenQ l == qsum (map (fun y => (y - m) * (y - m)) l))%Q.
Lemma split_concat sizes : forall x, length x <= list_sum sizes -> concat (split_sizes sizes x) = x.
Proof.
  induction sizes as [|s sizes IH]; intros x L; cbn [split_sizes concat]; [destruct x; [reflexivity|cbn in L; lia]|].
  change (list_sum (s :: sizes)) with (s + list_sum sizes) in L. rewrite IH by (rewrite skipn_length; lia). apply firstn_skipn.
Qed.
Lemma split_lengths sizes : forall x, list_sum sizes <= length x -> map (@length Q) (split_sizes sizes x) = sizes.
Proof.
  induction sizes as [|s sizes IH]; intros x L; cbn [split_sizes map]; [reflexivity|]. change (list_sum (s :: sizes)) with (s + list_sum sizes) in L.
  rewrite firstn_length, Nat.min_l by lia. rewrite IH by (rewrite skipn_length; lia). reflexivity.
Qed.
Lemma list_sum_repeat a n : list_sum (repeat a n) = n * a.
Proof. induction n as [|n IH]; [reflexivity|]. change (list_sum (repeat a (S n))) with (a + list_sum (repeat a n)). rewrite IH. reflexivity. Qed.
Lemma split_facts c x : 1 <= c -> concat (array_split c x) = x /\
  map (@length Q) (array_split c x) = repeat (length x / c + 1) (length x mod c) ++ repeat (length x / c) (c - length x mod c).
Proof.
  intros C. unfold array_split. set (sizes := _ ++ _). assert (T : list_sum sizes = length x).
  { unfold sizes. rewrite list_sum_app, !list_sum_repeat. pose proof (Nat.div_mod_eq (length x) c). pose proof (Nat.mod_upper_bound (length x) c ltac:(lia)). nia. }
  split; [apply split_concat; lia|apply split_lengths; lia].
Qed.
Lemma piece_length c x p : 1 <= c -> In p (array_split c x) -> length p = length x / c + 1 /\ 0 < length x mod c \/ length p = length x / c.
Proof.
  intros C I. destruct (split_facts c x C) as [_ E]. apply (in_map (@length Q)) in I. rewrite E in I. apply in_app_iff in I.
  destruct I as [I|I]; [|right; now apply repeat_spec in I]. left. split; [now apply repeat_spec in I|]. destruct (length x mod c); [destruct I|lia].
Qed.
Lemma mean_avg l : l <> [] -> mean_of l (avg l).
Proof. apply avg_total. Qed.
Lemma variance_var l : l <> [] -> variance_of l (var l).
Proof.
  intros N. exists (avg l). split; [now apply mean_avg|]. unfold var. rewrite <- avg_total by (destruct l; [congruence|discriminate]).
  unfold lenQ. rewrite map_length. reflexivity.
Qed.
Lemma all_values_some (f : list Q -> option Q) (g : list Q -> Q) ps : (forall p, In p ps -> f p = Some (g p)) -> all_values (map f ps) = Some (map g ps).
Proof.
  induction ps as [|p ps IH]; intros H; [reflexivity|]. cbn [map all_values]. rewrite (H p) by now left. rewrite IH by (intros; apply H; now right). reflexivity.
Qed.
Lemma nan_avg p : p <> [] -> avg_nan p = Some (avg p). Proof. destruct p; [congruence|reflexivity]. Qed.
Lemma nan_var p : p <> [] -> var_nan p = Some (var p). Proof. destruct p; [congruence|reflexivity]. Qed.
Section Chunks.
Variables (w : nat) (x : list Q).
Hypotheses (W : 2 <= w) (N : x <> []).
Lemma len1 : 1 <= length x. Proof. destruct x; [congruence|cbn; lia]. Qed.
Lemma chunk_length p : In p (chunks w x) -> 1 <= length p <= w.
Proof.
  intros I. unfold chunks in I. set (c := length x / w + 1) in *. assert (C : 1 <= c) by (unfold c; lia). pose proof len1 as L.
  assert (U : length x < w * c). { unfold c. pose proof (Nat.mul_succ_div_gt (length x) w ltac:(lia)). lia. }
  assert (D : length x / c <= w - 1). { assert (length x / c < w); [|lia]. apply Nat.div_lt_upper_bound; lia. }
  assert (B : c <= length x \/ length x = 1 /\ c = 1).
  { unfold c. destruct (Nat.eq_dec (length x) 1) as [E|E]; [right; rewrite E; split; [reflexivity|]; rewrite Nat.div_small by lia; reflexivity|left].
    pose proof (Nat.div_le_compat_l (length x) 2 w ltac:(lia)). pose proof (Nat.div_lt_upper_bound (length x) 2 (length x) ltac:(lia) ltac:(lia)). lia. }
  assert (D1 : 1 <= length x / c). { destruct B as [B|[B1 B2]]; [apply Nat.div_le_lower_bound; lia|rewrite B1, B2; cbn; lia]. }
  destruct (piece_length c x p C I) as [[E _]|E]; lia.
Qed.
Lemma chunk_nonempty p : In p (chunks w x) -> p <> [].
Proof. intros I ->. apply chunk_length in I. cbn in I. lia. Qed.
Lemma chunks_nonempty : chunks w x <> [].
Proof. intros E. destruct (split_facts (length x / w + 1) x ltac:(lia)) as [C _]. unfold chunks in E. rewrite E in C. cbn in C. congruence. Qed.
Lemma stability_eq : stability w x = Some (var (map avg (chunks w x))).
Proof. unfold stability. rewrite (all_values_some avg_nan avg); [reflexivity|]. intros p I. apply nan_avg, chunk_nonempty, I. Qed.
Lemma lumpiness_eq : lumpiness w x = Some (var (map var (chunks w x))).
Proof. unfold lumpiness. rewrite (all_values_some var_nan var); [reflexivity|]. intros p I. apply nan_var, chunk_nonempty, I. Qed.
End Chunks.
(** The series is cut, in order and without loss, into pieces of nearly equal length, none longer than window_size;
    stability is the variance of their means and lumpiness the variance of their variances. *)
Theorem C164_pieces_partial : forall w x, 2 <= w -> x <> [] ->
  exists pieces ms vs s l, concat pieces = x /\
    (forall p, In p pieces -> 1 <= length p <= w) /\
    (forall p q, In p pieces -> In q pieces -> length p <= length q + 1) /\
    Forall2 mean_of pieces ms /\ Forall2 variance_of pieces vs /\
    stability w x = Some s /\ variance_of ms s /\ lumpiness w x = Some l /\ variance_of vs l.
Proof.
  intros w x W N. exists (chunks w x), (map avg (chunks w x)), (map var (chunks w x)), (var (map avg (chunks w x))), (var (map var (chunks w x))).
  assert (F : forall (P : list Q -> Q -> Prop) f, (forall p, In p (chunks w x) -> P p (f p)) -> Forall2 P (chunks w x) (map f (chunks w x))).
  { intros P f. generalize (chunks w x). induction l as [|p l IH]; intros H; cbn; constructor; [apply H; now left|apply IH; intros; apply H; now right]. }
  split; [exact (proj1 (split_facts (length x / w + 1) x ltac:(lia)))|]. split; [intros p; apply chunk_length; assumption|]. split.
  - intros p q I J. unfold chunks in I, J. assert (C : 1 <= length x / w + 1) by lia.
    destruct (piece_length _ _ _ C I) as [[E _]|E], (piece_length _ _ _ C J) as [[E' _]|E']; lia.
  - split; [apply F; intros p I; apply mean_avg, (chunk_nonempty w x W N), I|]. split; [apply F; intros p I; apply variance_var, (chunk_nonempty w x W N), I|].
    split; [now apply stability_eq|]. split; [apply variance_var; intros E; apply map_eq_nil in E; now apply (chunks_nonempty w x W N)|].
    split; [now apply lumpiness_eq|]. apply variance_var; intros E; apply map_eq_nil in E; now apply (chunks_nonempty w x W N).
Qed.
(** With windows of one row one piece is empty and both features are NaN, whatever the series. *)
Theorem C164_window_refuted : forall x, x <> [] -> stability 1 x = None /\ lumpiness 1 x = None.
Proof.
  intros x N. assert (E : In [] (chunks 1 x)).
  { unfold chunks. rewrite Nat.div_1_r. destruct (split_facts (length x + 1) x ltac:(lia)) as [_ E]. rewrite Nat.div_small in E by lia. rewrite Nat.mod_small in E by lia.
    assert (I : In 0 (map (@length Q) (array_split (length x + 1) x))). { rewrite E. apply in_or_app. right. replace (length x + 1 - length x) with 1 by lia. now left. }
    apply in_map_iff in I. destruct I as (p & L & I). destruct p; [exact I|discriminate]. }
  assert (X : forall (f : list Q -> option Q) ps, f [] = None -> In [] ps -> all_values (map f ps) = None).
  { induction ps as [|p ps IH]; intros F I; [destruct I|]. cbn [map all_values]. destruct I as [->|I]; [now rewrite F|]. rewrite IH by assumption. now destruct (f p). }
  unfold stability, lumpiness. rewrite !X by (reflexivity || exact E). split; reflexivity.
Qed.
Lemma lenQ_map {A B} (f : A -> B) l : lenQ (map f l) = lenQ l. Proof. unfold lenQ. now rewrite map_length. Qed.
Lemma qsum_affine a c l : (qsum (map (fun v => a * v + c) l) == a * qsum l + c * lenQ l)%Q.
Proof.
  unfold lenQ. induction l as [|v l IH]; [cbn; change (inject_Z 0) with 0%Q; ring|]. cbn [map qsum length]. rewrite IH, Nat2Z.inj_succ, <- Z.add_1_r, inject_Z_plus. change (inject_Z 1) with 1%Q. ring.
Qed.
Lemma avg_affine a c l : l <> [] -> (avg (map (fun v => a * v + c)%Q l) == a * avg l + c)%Q.
Proof. intros N. unfold avg. rewrite lenQ_map, qsum_affine. field. pose proof (lenQ_pos l N). lra. Qed.
Lemma avg_ext {A} (f g : A -> Q) (l : list A) : (forall v, In v l -> f v == g v)%Q -> (avg (map f l) == avg (map g l))%Q.
Proof. intros H. unfold avg. rewrite !lenQ_map. rewrite (Common.qsum_ext f g l H). reflexivity. Qed.
Lemma var_affine a c l : l <> [] -> (var (map (fun v => a * v + c)%Q l) == a * a * var l)%Q.
Proof.
  intros N. unfold var. rewrite map_map. transitivity (avg (map (fun d => a * a * d + 0)%Q (map (fun v => (v - avg l) * (v - avg l))%Q l))).
  - rewrite map_map. apply avg_ext. intros v I. rewrite (avg_affine a c l N). ring.
  - rewrite avg_affine; [ring|]. intros E. apply map_eq_nil in E. congruence.
Qed.
Lemma var_pointwise (f g : list Q -> Q) ps : (forall p, In p ps -> f p == g p)%Q -> (var (map f ps) == var (map g ps))%Q.
Proof.
  intros H. pose proof (avg_ext f g ps H) as E. unfold var. rewrite !map_map. apply avg_ext. intros p I. rewrite E, (H p I). reflexivity.
Qed.
Lemma split_map f sizes : forall x, split_sizes sizes (map f x) = map (map f) (split_sizes sizes x).
Proof. induction sizes as [|s sizes IH]; intros x; [reflexivity|]. cbn [split_sizes map]. now rewrite firstn_map, skipn_map, IH. Qed.
Lemma chunks_map f w x : chunks w (map f x) = map (map f) (chunks w x).
Proof. unfold chunks, array_split. rewrite !map_length. apply split_map. Qed.
(** Units: when the values are scaled by a and shifted by c, stability is scaled by a^2 and lumpiness by a^4. *)
Theorem C164_units : forall w x a c, 2 <= w -> x <> [] ->
  exists s l s' l', stability w x = Some s /\ lumpiness w x = Some l /\
    stability w (map (fun v => a * v + c)%Q x) = Some s' /\ lumpiness w (map (fun v => a * v + c)%Q x) = Some l' /\
    (s' == a * a * s)%Q /\ (l' == a * a * (a * a) * l)%Q.
Proof.
  intros w x a c W N. assert (N' : map (fun v => a * v + c)%Q x <> []) by (intros E; apply map_eq_nil in E; congruence).
  do 4 eexists. split; [now apply stability_eq|]. split; [now apply lumpiness_eq|]. split; [now apply stability_eq|]. split; [now apply lumpiness_eq|].
  rewrite chunks_map, !map_map. pose proof (chunks_nonempty w x W N) as CN. split.
  - rewrite (var_pointwise _ (fun p => a * avg p + c)%Q) by (intros p I; apply avg_affine, (chunk_nonempty w x W N), I).
    rewrite <- (map_map avg (fun v => a * v + c)%Q). apply var_affine. intros E. apply map_eq_nil in E. congruence.
  - rewrite (var_pointwise _ (fun p => a * a * var p + 0)%Q) by (intros p I; rewrite var_affine by (apply (chunk_nonempty w x W N), I); ring).
    rewrite <- (map_map var (fun v => a * a * v + 0)%Q). apply var_affine. intros E. apply map_eq_nil in E. congruence.
Qed.
Example C164_case : (exists s, stability 2 [1;2;3;4;5]%Q = Some s /\ (s == 37 # 18)%Q) /\ (exists l, lumpiness 2 [1;2;3;4;5]%Q = Some l /\ (l == 1 # 72)%Q).
Proof. split; eexists; (split; [vm_compute; reflexivity|vm_compute; reflexivity]). Qed.

Print Assumptions C162_firstmin.
Print Assumptions C162_firstzero_partial.
Print Assumptions C162_firstzero_refuted.
Print Assumptions C164_pieces_partial.
Print Assumptions C164_window_refuted.
Print Assumptions C164_units.
