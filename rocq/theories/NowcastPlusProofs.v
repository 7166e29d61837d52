(** Lemmas about the models that difference a deseasonalised series. *)
From Coq Require Import ZArith.
From Verif Require Import Common FeatModel FeatSpec FeatProofs FeatProps NowcastModel NowcastSpec NowcastProps.
Open Scope nat_scope.

Lemma nth_map_seq {A} (f : nat -> A) d : forall n a i, i < n -> nth i (map f (seq a n)) d = f (a + i).
Proof.
  intros n a i H. rewrite (nth_indep _ d (f 0)) by (rewrite map_length, seq_length; exact H). rewrite map_nth, seq_nth by exact H. reflexivity.
Qed.
Lemma complete_map s : complete s -> s = map Some (map (value s) (seq 0 (length s))).
Proof.
  intros C. apply (nth_ext _ _ None None); [rewrite !map_length, seq_length; reflexivity|]. intros i L.
  rewrite map_map, nth_map_seq by exact L. cbn [Nat.add]. destruct (C i L) as (v & V & _). unfold value. rewrite V. exact V.
Qed.
Lemma poly_rows_map (m : nat -> Z) (v : nat -> Q) : forall l, poly_rows (map m l) (map Some (map v l)) = map (fun j => (m j, v j)) l.
Proof. unfold poly_rows. induction l as [|a l IH]; [reflexivity|]. cbn. f_equal. exact IH. Qed.
Lemma season_complete poly minute s : complete s ->
  season poly (map minute (seq 0 (length s))) s = map (curve poly minute s) (seq 0 (length s)).
Proof.
  intros C. unfold season. cbv zeta.
  assert (E : poly_rows (map minute (seq 0 (length s))) s = map (fun j => (minute j, value s j)) (seq 0 (length s))).
  { rewrite (complete_map s C) at 2. apply poly_rows_map. }
  rewrite E, map_map. reflexivity.
Qed.
Lemma filter_ge k f : forall n, (forall i, i < n -> f i = (k <=? i)) -> filter f (seq 0 n) = seq k (n - k).
Proof.
  induction n as [|n IH]; intros H; [reflexivity|]. rewrite seq_S, filter_app, IH by (intros; apply H; lia). cbn [filter Nat.add].
  rewrite H by lia. destruct (Nat.leb_spec k n) as [L|L].
  - replace (S n - k) with (S (n - k)) by lia. rewrite seq_S. f_equal. f_equal. lia.
  - rewrite app_nil_r. replace (n - k) with 0 by lia. replace (S n - k) with 0 by lia. reflexivity.
Qed.
Lemma kept_from cols s k : complete s -> (forall i, i < length s -> ((exists x, row_of cols i = Some x) <-> k <= i)) ->
  kept cols s = seq k (length s - k).
Proof.
  intros C H. unfold kept. apply filter_ge. intros i L. destruct (C i L) as (v & V & _). unfold row in V. rewrite V.
  destruct (row_of cols i) as [x|] eqn:E.
  - symmetry. apply Nat.leb_le. apply H; [exact L|]. exists x. exact E.
  - symmetry. apply Nat.leb_gt. destruct (Nat.lt_ge_cases i k) as [K|K]; [exact K|]. apply H in K; [|exact L]. destruct K as [x X]. congruence.
Qed.
Lemma all_some_values {A B} (f : A -> option B) g : forall l, (forall a, In a l -> f a = Some (g a)) -> all_some (map f l) = Some (map g l).
Proof.
  induction l as [|a l IH]; intros H; [reflexivity|]. cbn [map all_some]. rewrite H by (left; reflexivity).
  rewrite IH by (intros; apply H; right; assumption). reflexivity.
Qed.
Lemma nth_error_map_seq {A} (f : nat -> A) n i : i < n -> nth_error (map f (seq 0 n)) i = Some (f i).
Proof. intros H. rewrite nth_error_map. rewrite (nth_error_nth' _ 0) by (rewrite seq_length; exact H). rewrite seq_nth by exact H. reflexivity. Qed.
Lemma deseasoned_from s b k n : complete s -> n = length s ->
  deseasoned (seq k (n - k)) s (map b (seq 0 n)) = Some (map (fun i => (value s i - b i)%Q) (seq k (n - k))).
Proof.
  intros C ->. unfold deseasoned. apply all_some_values. intros i I. apply in_seq in I. destruct (C i) as (v & V & _); [lia|].
  rewrite nth_error_map_seq by lia. unfold value. rewrite V. unfold row in V. rewrite V. reflexivity.
Qed.
Lemma map2_seq {A B} (f : A -> A -> B) (d : nat -> A) c : forall m' m a, m' <= m ->
  FeatModel.map2 f (map d (seq a m)) (map d (seq (a + c) m')) = map (fun i => f (d i) (d (i + c))) (seq a m').
Proof.
  induction m' as [|m' IH]; intros [|m] a H; try lia; [reflexivity|reflexivity|]. cbn. f_equal. apply (IH m (S a)). lia.
Qed.
Lemma skipn_seq : forall k a m, skipn k (seq a m) = seq (a + k) (m - k).
Proof.
  induction k as [|k IH]; intros a m; [rewrite Nat.add_0_r, Nat.sub_0_r; reflexivity|]. destruct m as [|m]; [reflexivity|]. cbn [seq skipn Nat.sub].
  rewrite IH. f_equal. lia.
Qed.
Lemma diff_ahead_seq (d : nat -> Q) c a m : diff_ahead c (map d (seq a m)) = map (fun i => (d i - d (i + c)%nat)%Q) (seq a (m - c)).
Proof.
  unfold diff_ahead. rewrite map_length, seq_length. rewrite skipn_map, skipn_seq.
  rewrite (map2_seq (fun a b => (a - b)%Q) d c (m - c) m a) by lia. apply firstn_all2. rewrite map_length, seq_length. lia.
Qed.
Lemma first_at_least : forall l x i, i < length l -> (nth i l 0 == x)%Q ->
  exists f, first_at x l = Some f /\ f <= i /\ (nth f l 0 == x)%Q /\ forall j, j < f -> ~ (nth j l 0 == x)%Q.
Proof.
  induction l as [|a l IH]; intros x i L E; [cbn in L; lia|]. cbn [first_at]. destruct (Qeq_bool a x) eqn:Q0.
  - exists 0. apply Qeq_bool_iff in Q0. split; [reflexivity|]. split; [lia|]. split; [exact Q0|]. intros j J. lia.
  - assert (NE : ~ (a == x)%Q) by (intros X; apply Qeq_bool_iff in X; congruence).
    destruct i as [|i]; [contradiction|]. cbn in L. destruct (IH x i ltac:(lia) E) as (f & F & LF & EF & MF). rewrite F. exists (S f).
    split; [reflexivity|]. split; [lia|]. split; [exact EF|]. intros [|j] J; [exact NE|]. apply MF. lia.
Qed.
Lemma grid_mod P minute : daily_grid P minute -> forall i, minute i = minute (i mod P).
Proof.
  intros (P1 & PER & _) i. rewrite (Nat.div_mod i P) at 1 by lia. rewrite Nat.add_comm. generalize (i mod P) as r. intros r.
  induction (i / P) as [|q IH]; [rewrite Nat.mul_0_r, Nat.add_0_r; reflexivity|].
  replace (r + P * S q) with ((r + P * q) + P) by lia. rewrite PER. exact IH.
Qed.
Lemma grid_shift P minute : daily_grid P minute -> forall i c, minute (i mod P + c) = minute (i + c).
Proof.
  intros G i c. rewrite (grid_mod P minute G (i mod P + c)), (grid_mod P minute G (i + c)). f_equal.
  destruct G as (P1 & _). apply Nat.add_mod_idemp_l. lia.
Qed.
Section Core.
Variables (poly : list (Z * Q) -> Z -> Q) (learn : list (list Q) -> list Q -> list Q -> Q).
Variables (P : nat) (minute : nat -> Z) (s : column) (cols : list column) (k : nat).
Let n := length s.
Let b := curve poly minute s.
Hypothesis C : complete s.
Hypothesis G : daily_grid P minute.
Hypothesis INJ : forall i j, i < P -> j < P -> (b i == b j)%Q -> i = j.
Hypothesis K : forall i, i < length s -> ((exists x, row_of cols i = Some x) <-> k <= i).
Definition features_at (i : nat) : list Q := match row_of cols i with Some x => x | None => [] end.
Lemma features_ok i : k <= i < n -> row_of cols i = Some (features_at i).
Proof. intros H. destruct (proj2 (K i ltac:(unfold n in H; lia))) as [x X]; [lia|]. unfold features_at. rewrite X. reflexivity. Qed.
Lemma season_b : season poly (map minute (seq 0 n)) s = map b (seq 0 n).
Proof. exact (season_complete poly minute s C). Qed.
Lemma core_fit m : 1 <= m -> k + m < n ->
  diff_fit poly learn m cols (map minute (seq 0 n)) s =
  Some (learn (map features_at (seq k (n - k))) (map (fun i => (value s i - b i - (value s (i + m)%nat - b (i + m)%nat))%Q) (seq k (n - k - m)))).
Proof.
  intros M L. unfold diff_fit. cbv zeta. rewrite (kept_from cols s k C K). fold n.
  rewrite (all_some_values _ features_at) by (intros i I; apply in_seq in I; apply features_ok; lia).
  rewrite season_b. rewrite (deseasoned_from s b k n C eq_refl). destruct m as [|m]; [lia|]. rewrite diff_ahead_seq.
  destruct (map _ (seq k (n - k - S m))) eqn:E; [|reflexivity].
  apply (f_equal (@length Q)) in E. rewrite map_length, seq_length in E. cbn in E. lia.
Qed.
Lemma first_pos : n <> 0 -> first_at (b (n - 1)) (map b (seq 0 n)) = Some ((n - 1) mod P).
Proof.
  intros N0. assert (P1 : 1 <= P) by apply G.
  assert (BM : b ((n - 1) mod P) = b (n - 1)) by (unfold b, curve; rewrite <- (grid_mod P minute G); reflexivity).
  assert (ML : (n - 1) mod P <= n - 1) by (apply Nat.mod_le; lia).
  destruct (first_at_least (map b (seq 0 n)) (b (n - 1)) ((n - 1) mod P)) as (f & F & LF & EF & _).
  - rewrite map_length, seq_length. lia.
  - rewrite nth_map_seq by lia. cbn [Nat.add]. rewrite BM. reflexivity.
  - rewrite F. f_equal. rewrite nth_map_seq in EF by lia. cbn [Nat.add] in EF. rewrite <- BM in EF.
    pose proof (Nat.mod_upper_bound (n - 1) P ltac:(lia)). apply INJ; [lia|lia|exact EF].
Qed.
Lemma season_rev : n <> 0 -> exists r, rev (map b (seq 0 n)) = b (n - 1) :: r.
Proof.
  intros N0. assert (E : seq 0 n = seq 0 (n - 1) ++ [0 + (n - 1)]) by (rewrite <- seq_S; f_equal; lia). rewrite E, map_app, rev_app_distr. cbn. eexists. reflexivity.
Qed.
Lemma core_predict step model : 1 <= step -> k + step <= n -> P + step <= n ->
  diff_predict poly step cols (map minute (seq 0 n)) s model =
  Some (map (fun i => (value s i - b (n - 1)%nat - model (features_at i) + b (n - 1 + step)%nat)%Q) (seq (n - step) step)).
Proof.
  intros H L D. assert (P1 : 1 <= P) by apply G. unfold diff_predict. cbv zeta. rewrite (kept_from cols s k C K). fold n.
  unfold last_rows. rewrite seq_length, skipn_seq. replace (k + (n - k - step)) with (n - step) by lia. replace (n - k - (n - k - step)) with step by lia.
  rewrite !season_b. destruct (season_rev ltac:(lia)) as [r R]. rewrite R.
  rewrite (first_pos ltac:(lia)). pose proof (Nat.mod_upper_bound (n - 1) P ltac:(lia)).
  rewrite nth_error_map_seq by lia.
  assert (BS : b ((n - 1) mod P + step) = b (n - 1 + step)) by (unfold b, curve; rewrite (grid_shift P minute G); reflexivity).
  rewrite BS. destruct (seq (n - step) step) eqn:E; [destruct step; [lia|discriminate]|]. rewrite <- E. apply all_some_values.
  intros i I. apply in_seq in I. destruct (C i) as (v & V & _); [fold n; lia|]. rewrite features_ok by lia. unfold value. rewrite V. unfold row in V. rewrite V. reflexivity.
Qed.
Lemma core_short step model : 1 <= step -> n <= P -> diff_predict poly step cols (map minute (seq 0 n)) s model = None.
Proof.
  intros H L. unfold diff_predict. cbv zeta. rewrite !season_b. destruct (last_rows step (kept cols s)); [destruct (rev (map b (seq 0 n))); reflexivity|].
  destruct (Nat.eq_dec n 0) as [Z|Z]; [rewrite Z; reflexivity|]. destruct (season_rev Z) as [r R]. rewrite R. rewrite (first_pos Z).
  rewrite Nat.mod_small by lia. rewrite (proj2 (nth_error_None _ _)) by (rewrite map_length, seq_length; lia). reflexivity.
Qed.
End Core.
