(** Theorems about NowcastingModel (C141, C142). *)
From Coq Require Import ZArith Sorted.
From Verif Require Import Common FeatModel FeatSpec FeatProofs FeatProps NowcastModel NowcastSpec.
Open Scope nat_scope.

Lemma all_some_forall2 {A B} (f : A -> option B) : forall l x, all_some (map f l) = Some x <-> Forall2 (fun a v => f a = Some v) l x.
Proof.
  induction l as [|a l IH]; intros x; cbn.
  - split; [intros H; injection H as <-; constructor|intros H; inversion H; reflexivity].
  - split.
    + destruct (f a) as [v|] eqn:E; [|discriminate]. destruct (all_some (map f l)) as [t|] eqn:T; [|discriminate].
      intros H. injection H as <-. constructor; [exact E|]. apply IH. reflexivity.
    + intros H. inversion H as [|? v ? t E F]; subst. rewrite E. apply IH in F. rewrite F. reflexivity.
Qed.
Lemma forall2_map_l {A B C} (g : A -> B) (R : B -> C -> Prop) : forall l x, Forall2 R (map g l) x <-> Forall2 (fun a v => R (g a) v) l x.
Proof.
  induction l as [|a l IH]; intros x; cbn; split; intros H; inversion H; subst; constructor; try assumption; apply IH; assumption.
Qed.
Lemma forall2_imp {A B} (R R' : A -> B -> Prop) : forall l x, (forall a v, In a l -> R a v -> R' a v) -> Forall2 R l x -> Forall2 R' l x.
Proof.
  intros l x H F. induction F as [|a v l x E F IH]; constructor; [apply H; [left; reflexivity|exact E]|]. apply IH. intros b w I. apply H. right. exact I.
Qed.
Lemma row_of_forall2 cols i x : row_of cols i = Some x <-> Forall2 (fun c v => row c i = Some v) cols x.
Proof. apply all_some_forall2. Qed.
Lemma roc_row n s i v : 1 <= n -> i < length s -> (row (ROC n s) i = Some v <-> change_from s i (n - 1) v).
Proof.
  intros N H. rewrite C136_roc_partial by assumption. unfold change_from. destruct (Nat.ltb_spec i (n - 1)) as [L|L].
  - split; [discriminate|]. intros [K _]. lia.
  - destruct (row s (i - (n - 1))) as [a|] eqn:A; [destruct (row s i) as [b|] eqn:B|].
    + destruct (Qeq_bool a 0) eqn:Z.
      * split; [discriminate|]. intros (_ & a' & b' & A' & _ & NZ & _). injection A' as <-. apply Qeq_bool_iff in Z. contradiction.
      * split.
        -- intros E. injection E as <-. split; [exact L|]. exists a, b. repeat split. intros X. apply Qeq_bool_iff in X. congruence.
        -- intros (_ & a' & b' & A' & B' & _ & ->). congruence.
    + split; [discriminate|]. intros (_ & a' & b' & _ & B' & _). discriminate.
    + split; [discriminate|]. intros (_ & a' & b' & A' & _). discriminate.
Qed.
Lemma lag_row n s i v : i < length s -> (row (LAG n s) i = Some v <-> value_before s i n v).
Proof.
  intros H. rewrite C136_lag by exact H. unfold value_before. destruct (Nat.ltb_spec i n).
  - split; [discriminate|]. intros []. lia.
  - tauto.
Qed.
Lemma inputs_row s i x : i < length s -> (row_of (nowcast_columns s) i = Some x <-> inputs s i x).
Proof.
  intros H. rewrite row_of_forall2. unfold nowcast_columns, inputs.
  change [9; 14; 19; 24; 29] with (map (fun n => n - 1) [10; 15; 20; 25; 30]). split.
  - intros F. apply Forall2_app_inv_l in F as (c & l & F1 & F2 & ->). exists c, l. split; [reflexivity|].
    apply (proj1 (forall2_map_l _ _ _ _)) in F1. apply (proj1 (forall2_map_l _ _ _ _)) in F2. split.
    + apply (proj2 (forall2_map_l _ _ _ _)). revert F1. apply forall2_imp. intros n v I E. apply roc_row; [cbn in I; lia|exact H|exact E].
    + revert F2. apply forall2_imp. intros n v I E. apply lag_row; [exact H|exact E].
  - intros (c & l & -> & F1 & F2). apply (proj1 (forall2_map_l _ _ _ _)) in F1. apply Forall2_app; apply (proj2 (forall2_map_l _ _ _ _)).
    + revert F1. apply forall2_imp. intros n v I E. apply roc_row; [cbn in I; lia|exact H|exact E].
    + revert F2. apply forall2_imp. intros n v I E. apply lag_row; [exact H|exact E].
Qed.
Lemma row_lt s i v : row s i = Some v -> i < length s.
Proof. intros H. destruct (Nat.lt_ge_cases i (length s)) as [L|L]; [exact L|]. unfold row in H. rewrite nth_overflow in H by exact L. discriminate. Qed.
Lemma inputs_value s i x : inputs s i x -> exists v, row s i = Some v.
Proof. intros (c & l & _ & F & _). inversion F as [|? ? ? ? [_ (a & b & _ & B & _)]]. exists b. exact B. Qed.

Lemma in_kept cols s i : In i (kept cols s) <-> (exists v, row s i = Some v) /\ exists x, row_of cols i = Some x.
Proof.
  unfold kept. rewrite filter_In, in_seq. split.
  - intros [_ H]. unfold row. destruct (nth i s None) as [v|]; [|discriminate]. destruct (row_of cols i) as [x|]; [|discriminate].
    split; eexists; reflexivity.
  - intros [[v V] [x X]]. split; [apply row_lt in V; lia|]. unfold row in V. rewrite V, X. reflexivity.
Qed.
Lemma sorted_seq : forall n a, StronglySorted lt (seq a n).
Proof.
  induction n as [|n IH]; intros a; cbn; constructor; [apply IH|]. apply Forall_forall. intros x I. apply in_seq in I. lia.
Qed.
Lemma sorted_filter f : forall l, StronglySorted lt l -> StronglySorted lt (filter f l).
Proof.
  induction l as [|a l IH]; intros H; cbn; [constructor|]. inversion H as [|? ? S F]; subst. destruct (f a); [|apply IH; exact S].
  constructor; [apply IH; exact S|]. apply Forall_forall. intros x I. apply filter_In in I as [I _].
  rewrite Forall_forall in F. apply F. exact I.
Qed.
Definition pick {A} (f : nat -> option A) (l : list nat) : list A := flat_map (fun i => match f i with Some p => [p] | None => [] end) l.
Lemma pick_filter {A} (f : nat -> option A) : forall l,
  Forall2 (fun i p => f i = Some p) (filter (fun i => match f i with Some _ => true | None => false end) l) (pick f l).
Proof. induction l as [|a l IH]; cbn; [constructor|]. destruct (f a) eqn:E; cbn; [constructor; assumption|exact IH]. Qed.
Lemma pick_sub {A} (f : nat -> option A) g : forall l, (forall i p, In i l -> f i = Some p -> g i = true) -> pick f (filter g l) = pick f l.
Proof.
  induction l as [|a l IH]; intros H; [reflexivity|]. cbn [filter]. destruct (g a) eqn:G; cbn.
  - f_equal. apply IH. intros i p I. apply H. right. exact I.
  - destruct (f a) as [p|] eqn:E; [rewrite (H a p (or_introl eq_refl) E) in G; discriminate|]. apply IH. intros i p I. apply H. right. exact I.
Qed.
Lemma pick_ext {A} (f g : nat -> option A) : forall l, (forall i, In i l -> f i = g i) -> pick f l = pick g l.
Proof. induction l as [|a l IH]; intros H; [reflexivity|]. cbn. rewrite H by (left; reflexivity). f_equal. apply IH. intros. apply H. right. assumption. Qed.
Definition pair_at (step : nat) (s : column) (i : nat) : option (list Q * Q) :=
  match row_of (nowcast_columns s) i, row s (i + step) with Some x, Some y => Some (x, y) | _, _ => None end.
Lemma train_pick step s : (1 <= step)%Z -> nowcast_train step s = Some (pick (pair_at (Z.to_nat step) s) (seq 0 (length s))).
Proof.
  intros H. unfold nowcast_train, nowcast_label. destruct (Z.leb_spec 1 step); [|lia]. f_equal. unfold pairs_of, kept.
  transitivity (pick (pair_at (Z.to_nat step) s) (filter (fun i => match nth i s None, row_of (nowcast_columns s) i with Some _, Some _ => true | _, _ => false end) (seq 0 (length s)))).
  - unfold pick. apply flat_map_ext. intros i. unfold pair_at, LAG_neg. rewrite shift_back_nth. unfold row.
    destruct (row_of (nowcast_columns s) i); [|reflexivity]. destruct (nth (i + Z.to_nat step) s None); reflexivity.
  - apply pick_sub. intros i p I E. unfold pair_at in E. destruct (row_of (nowcast_columns s) i) as [x|] eqn:X; [|discriminate].
    apply in_seq in I. apply inputs_row in X; [|lia]. destruct (inputs_value _ _ _ X) as [v V]. unfold row in V. rewrite V. reflexivity.
Qed.
(** What is learnt: for exactly the rows whose ten inputs and whose value [step] rows later exist, in order, the pair of both. *)
Theorem C141_training : forall step s, 1 <= step -> exists t rows,
  nowcast_train (Z.of_nat step) s = Some t /\ StronglySorted lt rows /\
  (forall i, In i rows <-> exists x y, inputs s i x /\ target s i step y) /\
  Forall2 (fun i p => inputs s i (fst p) /\ target s i step (snd p)) rows t.
Proof.
  intros step s H. eexists. exists (filter (fun i => match pair_at step s i with Some _ => true | None => false end) (seq 0 (length s))).
  split; [rewrite train_pick by lia; rewrite Nat2Z.id; reflexivity|]. split; [apply sorted_filter, sorted_seq|].
  assert (P : forall i p, i < length s -> pair_at step s i = Some p <-> inputs s i (fst p) /\ target s i step (snd p)).
  { intros i [x y] L. unfold pair_at, target. cbn [fst snd]. rewrite <- inputs_row by exact L.
    destruct (row_of (nowcast_columns s) i); [|split; [discriminate|intros [X _]; discriminate]].
    destruct (row s (i + step)); [|split; [discriminate|intros [_ X]; discriminate]]. split; [intros E; injection E as <- <-; split; reflexivity|].
    intros [E1 E2]. congruence. }
  split.
  - intros i. rewrite filter_In, in_seq. split.
    + intros [L E]. destruct (pair_at step s i) as [p|] eqn:X; [|discriminate]. apply P in X; [|lia]. exists (fst p), (snd p). exact X.
    + intros (x & y & I & T). destruct (inputs_value _ _ _ I) as [v V]. apply row_lt in V. split; [lia|].
      rewrite (proj2 (P i (x, y) V)); [reflexivity|split; assumption].
  - pose proof (pick_filter (pair_at step s) (seq 0 (length s))) as F.
    assert (G : forall l q, (forall i, In i l -> i < length s) -> Forall2 (fun i p => pair_at step s i = Some p) l q -> Forall2 (fun i p => inputs s i (fst p) /\ target s i step (snd p)) l q).
    { intros l q L K. induction K as [|i p l q E K IH]; constructor; [apply P; [apply L; left; reflexivity|exact E]|]. apply IH. intros j J. apply L. right. exact J. }
    apply G; [|exact F]. intros i I. apply filter_In in I as [I _]. apply in_seq in I. lia.
Qed.
Lemma row_firstn k s i : row (firstn k s) i = if i <? k then row s i else None.
Proof.
  unfold row. destruct (Nat.ltb_spec i k) as [L|L]; [apply nth_firstn_lt; exact L|]. apply nth_overflow. rewrite firstn_length. lia.
Qed.
Lemma row_of_firstn k s i : i < k -> i < length s -> row_of (nowcast_columns (firstn k s)) i = row_of (nowcast_columns s) i.
Proof.
  intros K L. unfold row_of, nowcast_columns. f_equal. rewrite !map_app, !map_map. f_equal; apply map_ext_in; intros n I.
  - destruct n as [|n]; [cbn in I; lia|]. destruct (C135_causal n 0) as (_ & _ & C & _). destruct (C s) as [_ E]. rewrite E. apply nth_firstn_lt. exact K.
  - destruct (C135_causal n 0) as (C & _). destruct (C s) as [_ E]. rewrite E. apply nth_firstn_lt. exact K.
Qed.
(** Nothing leaks from later rows: on the first k rows alone, exactly an initial part of the training set is built. *)
Theorem C141_no_leak : forall step s k, 1 <= step -> exists t t',
  nowcast_train (Z.of_nat step) (firstn k s) = Some t /\ nowcast_train (Z.of_nat step) s = Some (t ++ t').
Proof.
  intros step s k H. rewrite !train_pick by lia. rewrite Nat2Z.id. eexists.
  destruct (Nat.le_gt_cases (length s) k) as [L|L].
  - exists []. split; [reflexivity|]. rewrite app_nil_r, firstn_all2 by exact L. reflexivity.
  - exists (pick (pair_at step s) (seq (k - step) (length s - (k - step)))). split; [reflexivity|]. f_equal.
    rewrite firstn_length, Nat.min_l by lia. symmetry.
    replace (length s) with ((k - step) + (length s - (k - step))) at 2 by lia. rewrite seq_app. unfold pick at 3. rewrite flat_map_app.
    fold (pick (pair_at step s) (seq 0 (k - step))). cbn [Nat.add]. f_equal.
    replace k with ((k - step) + (k - (k - step))) at 2 by lia. rewrite seq_app. unfold pick at 1. rewrite flat_map_app.
    fold (pick (pair_at step (firstn k s)) (seq 0 (k - step))). fold (pick (pair_at step (firstn k s)) (seq (0 + (k - step)) (k - (k - step)))).
    assert (E : pick (pair_at step (firstn k s)) (seq (0 + (k - step)) (k - (k - step))) = []).
    { rewrite (pick_ext _ (fun _ => None)); [induction (seq _ _) as [|? l IH]; [reflexivity|exact IH]|].
      intros i I. apply in_seq in I. unfold pair_at. destruct (row_of _ i); [|reflexivity]. rewrite row_firstn.
      destruct (Nat.ltb_spec (i + step) k); [lia|reflexivity]. }
    rewrite E, app_nil_r. apply pick_ext. intros i I. apply in_seq in I. unfold pair_at. rewrite row_of_firstn by lia. rewrite row_firstn.
    destruct (Nat.ltb_spec (i + step) k); [reflexivity|lia].
Qed.
(** A step below one is refused. *)
Theorem C141_step : forall step s, (step < 1)%Z -> nowcast_train step s = None.
Proof. intros step s H. unfold nowcast_train, nowcast_label. destruct (Z.leb_spec 1 step); [lia|reflexivity]. Qed.
Definition sample (n : nat) : column := map (fun i => Some (inject_Z (Z.of_nat (S i)))) (seq 0 n).
Example C141_case : exists x, inputs (sample 40) 35 x /\ target (sample 40) 35 2 38.
Proof.
  destruct (row_of (nowcast_columns (sample 40)) 35) as [x|] eqn:E; [|vm_compute in E; discriminate].
  exists x. split; [apply inputs_row; [vm_compute; lia|exact E]|reflexivity].
Qed.

Lemma last_rows_in {A} n (l : list A) x : In x (last_rows n l) -> In x l.
Proof. unfold last_rows. intros H. rewrite <- (firstn_skipn (length l - n) l). apply in_or_app. right. exact H. Qed.
Lemma last_rows_length {A} n (l : list A) : length (last_rows n l) = Nat.min n (length l).
Proof. unfold last_rows. rewrite skipn_length. lia. Qed.
Lemma last_skipn_lt {A} n : forall (l : list A) d, n < length l -> last (skipn n l) d = last l d.
Proof.
  induction n as [|n IH]; intros [|a l] d H; cbn [skipn]; try reflexivity. cbn [length] in H.
  rewrite IH by lia. destruct l; [cbn in H; lia|reflexivity].
Qed.
Lemma last_rows_last {A} n (l : list A) d : 1 <= n -> l <> [] -> last (last_rows n l) d = last l d.
Proof. intros N H. unfold last_rows. apply last_skipn_lt. destruct l; [contradiction|]. cbn [length]. lia. Qed.
Lemma filter_last f : forall n, f n = true -> last (filter f (seq 0 (S n))) 0 = n.
Proof. intros n H. rewrite seq_S, filter_app. cbn. rewrite H. apply last_last. Qed.
Lemma forall2_last {A B} (R : A -> B -> Prop) : forall l x a b, Forall2 R l x -> l <> [] -> R (last l a) (last x b).
Proof.
  intros l x a b F. induction F as [|p q l x H F IH]; intros N; [contradiction|].
  destruct F as [|p' q' l' x' H' F']; [exact H|]. apply (IH ltac:(discriminate)).
Qed.
(** If the last row has its inputs, the last value returned is what the regressor, fitted on the training pairs, says about
    them; all values returned are such forecasts, for the last rows with inputs. *)
Theorem C142_predict_partial : forall learn step s t x, 1 <= step ->
  nowcast_train (Z.of_nat step) s = Some t -> t <> [] -> inputs s (length s - 1) x ->
  exists p usable rows before, nowcast_predict learn (Z.of_nat step) s = Some p /\ last p 0%Q = learn t x /\
    StronglySorted lt usable /\ (forall i, In i usable <-> exists z, inputs s i z) /\
    usable = before ++ rows /\ length rows = Nat.min step (length usable) /\ last rows 0 = length s - 1 /\
    Forall2 (fun i v => exists z, inputs s i z /\ v = learn t z) rows p.
Proof.
  intros learn step s t x H T NE I. unfold nowcast_predict. rewrite T. destruct t as [|t0 t]; [contradiction|]. rewrite Nat2Z.id.
  set (K := kept (nowcast_columns s) s). destruct (inputs_value _ _ _ I) as [v V]. pose proof (row_lt _ _ _ V) as L.
  assert (IK : In (length s - 1) K). { apply in_kept. split; [exists v; exact V|]. exists x. apply inputs_row; assumption. }
  assert (KN : K <> []) by (intros E; rewrite E in IK; destruct IK).
  assert (LK : last K 0 = length s - 1).
  { unfold K, kept. replace (length s) with (S (length s - 1)) at 1 by lia. apply filter_last. unfold row in V. rewrite V.
    rewrite (proj2 (inputs_row s (length s - 1) x L) I). reflexivity. }
  assert (RN : last_rows step K <> []).
  { intros E. apply (f_equal (@length nat)) in E. rewrite last_rows_length in E. destruct K; [contradiction|]. cbn in E. lia. }
  assert (A : exists p, all_some (map (fun i => option_map (learn (t0 :: t)) (row_of (nowcast_columns s) i)) (last_rows step K)) = Some p).
  { assert (G : forall l, (forall i, In i l -> In i K) -> exists p, all_some (map (fun i => option_map (learn (t0 :: t)) (row_of (nowcast_columns s) i)) l) = Some p).
    { induction l as [|i l IH]; intros J; [exists []; reflexivity|]. destruct (IH (fun j U => J j (or_intror U))) as [p P]. cbn [map].
      destruct (proj1 (in_kept _ _ _) (J i (or_introl eq_refl))) as [_ [z Z]]. rewrite Z. cbn [option_map all_some]. rewrite P. eexists. reflexivity. }
    apply G. intros i U. apply last_rows_in in U. exact U. }
  destruct A as [p P]. exists p, K, (last_rows step K), (firstn (length K - step) K). pose proof (proj1 (all_some_forall2 _ _ _) P) as F.
  split. { destruct (last_rows step K) eqn:E; [contradiction|exact P]. }
  assert (LL : last (last_rows step K) 0 = length s - 1) by (rewrite last_rows_last by assumption; exact LK).
  split. { pose proof (forall2_last _ _ _ 0 0%Q F RN) as Q0. cbn beta in Q0. rewrite LL, (proj2 (inputs_row s _ x L) I) in Q0. cbn in Q0. congruence. }
  split; [apply sorted_filter, sorted_seq|].
  split.
  { intros i. unfold K. rewrite in_kept. split.
    - intros [[w W] [z Z]]. exists z. apply inputs_row; [apply row_lt in W; exact W|exact Z].
    - intros [z Z]. destruct (inputs_value _ _ _ Z) as [w W]. split; [exists w; exact W|]. exists z. apply inputs_row; [apply row_lt in W; exact W|exact Z]. }
  split; [symmetry; apply firstn_skipn|]. split; [apply last_rows_length|]. split; [exact LL|].
  { assert (G : forall l q, (forall i, In i l -> i < length s) -> Forall2 (fun i v => option_map (learn (t0 :: t)) (row_of (nowcast_columns s) i) = Some v) l q -> Forall2 (fun i v => exists z, inputs s i z /\ v = learn (t0 :: t) z) l q).
    { intros l q J U. induction U as [|i w l q E U IH]; constructor.
      - destruct (row_of (nowcast_columns s) i) as [z|] eqn:Z; [|discriminate]. injection E as <-. exists z. split; [|reflexivity].
        apply inputs_row; [apply J; left; reflexivity|exact Z].
      - apply IH. intros j X. apply J. right. exact X. }
    apply G; [|exact F]. intros i J. apply last_rows_in in J. apply in_kept in J as [[w W] _]. apply row_lt in W. exact W. }
Qed.

(** A series without missing values and zeros: from row 30 on every row has its inputs. *)
Lemma forall2_exists {A B} (R : A -> B -> Prop) : forall l, (forall a, In a l -> exists b, R a b) -> exists x, Forall2 R l x.
Proof.
  induction l as [|a l IH]; intros H; [exists []; constructor|]. destruct (H a (or_introl eq_refl)) as [b Hb].
  destruct IH as [x X]; [intros; apply H; right; assumption|]. exists (b :: x). constructor; assumption.
Qed.
Lemma complete_inputs s i : complete s -> 30 <= i < length s -> exists x, inputs s i x.
Proof.
  intros C L. destruct (forall2_exists (change_from s i) [9; 14; 19; 24; 29]) as [c F1].
  - intros k K. destruct (C (i - k)) as (a & A & NZ); [lia|]. destruct (C i) as (b & B & _); [lia|]. exists ((b - a) / a)%Q.
    split; [cbn in K; lia|]. exists a, b. repeat split; assumption.
  - destruct (forall2_exists (value_before s i) [10; 15; 20; 25; 30]) as [l F2].
    + intros k K. destruct (C (i - k)) as (a & A & NZ); [lia|]. exists a. split; [cbn in K; lia|exact A].
    + exists (c ++ l), c, l. repeat split; assumption.
Qed.
(** predict is documented to return one number, the forecast [step] rows ahead; it returns [step] of them. *)
Theorem C142_count_refuted : forall learn step s, 2 <= step -> complete s -> 30 + step < length s ->
  exists p, nowcast_predict learn (Z.of_nat step) s = Some p /\ length p = step /\ length p <> 1.
Proof.
  intros learn step s H C L. destruct (complete_inputs s (length s - 1) C) as [x X]; [lia|].
  destruct (C141_training step s ltac:(lia)) as (t & rows & T & _ & R & F).
  assert (NE : t <> []).
  { intros ->. assert (I : In 30 rows).
    { apply R. destruct (complete_inputs s 30 C) as [z Z]; [lia|]. destruct (C (30 + step)) as (y & Y & _); [lia|]. exists z, y. split; [exact Z|exact Y]. }
    inversion F; subst. destruct I. }
  destruct (C142_predict_partial learn step s t x ltac:(lia) T NE X) as (p & usable & rs & before & P & _ & S & U & E & LR & _ & FF).
  exists p. split; [exact P|]. assert (LP : length rs = length p) by (clear - FF; induction FF; cbn; congruence).
  assert (step <= length usable); [|lia].
  assert (IN : incl (seq 30 step) usable). { intros i I. apply in_seq in I. apply U. apply complete_inputs; [exact C|lia]. }
  rewrite <- (seq_length step 30). apply NoDup_incl_length; [apply seq_NoDup|exact IN].
Qed.
Example C142_count_case : complete (sample 33) /\ 30 + 2 < length (sample 33).
Proof.
  split; [|vm_compute; lia]. intros i L. unfold sample in *. rewrite map_length, seq_length in L. exists (inject_Z (Z.of_nat (S i))). split.
  - unfold row. rewrite (nth_indep _ None ((fun i => Some (inject_Z (Z.of_nat (S i)))) 0)) by (rewrite map_length, seq_length; exact L).
    rewrite (map_nth (fun i => Some (inject_Z (Z.of_nat (S i))))), seq_nth by exact L. reflexivity.
  - unfold inject_Z, Qeq. cbn [Qnum Qden]. lia.
Qed.
(** If the last value is missing (or was zero some rows before), an older row is used without notice: the forecast is not for
    [step] rows after the end of the series. *)
Theorem C142_stale_refuted : forall learn, exists s p, (forall x, ~ inputs s (length s - 1) x) /\
  nowcast_predict learn 1 s = Some p /\ exists t x, nowcast_train 1 s = Some t /\ inputs s (length s - 2) x /\ p = [learn t x].
Proof.
  intros learn. set (s := sample 40 ++ [None]).
  destruct (row_of (nowcast_columns s) 39) as [x|] eqn:X; [|vm_compute in X; discriminate].
  destruct (nowcast_train 1 s) as [t|] eqn:T; [|discriminate].
  assert (NE : exists t0 t', t = t0 :: t'). { destruct t as [|t0 t']; [vm_compute in T; discriminate|exists t0, t'; reflexivity]. }
  destruct NE as (t0 & t' & ->).
  exists s, [learn (t0 :: t') x]. split; [|split].
  - intros z Z. destruct (inputs_value _ _ _ Z) as [v V]. vm_compute in V. discriminate.
  - unfold nowcast_predict. rewrite T. replace (last_rows (Z.to_nat 1) (kept (nowcast_columns s) s)) with [39] by (vm_compute; reflexivity).
    cbn [map]. rewrite X. reflexivity.
  - exists (t0 :: t'), x. split; [exact T|]. split; [|reflexivity]. apply inputs_row; [vm_compute; lia|exact X].
Qed.

Print Assumptions C141_training.
Print Assumptions C141_no_leak.
Print Assumptions C141_step.
Print Assumptions C142_predict_partial.
Print Assumptions C142_count_refuted.
Print Assumptions C142_stale_refuted.
