(** Theorems about injected level shifts, trend shifts and spikes (C150, C151, C152). *)
From Coq Require Import Reals Lra List Bool Arith Lia.
From Verif Require Import SimModel.
Import ListNotations.
Open Scope R_scope.

(** change points in order and inside the series *)
Definition in_order (cps : list nat) : Prop := forall i j, (i <= j < length cps)%nat -> (nth i cps 0 <= nth j cps 0)%nat.

Lemma nth_tab {A} (f : nat -> A) n k d : (k < n)%nat -> nth k (map f (seq 0 n)) d = f k.
Proof. intros H. rewrite (nth_indep _ d (f 0%nat)) by (rewrite map_length, seq_length; exact H). rewrite map_nth, seq_nth by exact H. reflexivity. Qed.
Lemma add_slice_len b e f y : length (add_slice b e f y) = length y.
Proof. unfold add_slice. now rewrite map_length, seq_length. Qed.
Lemma set_slice_len b e f y : length (set_slice b e f y) = length y.
Proof. unfold set_slice. now rewrite map_length, seq_length. Qed.
Lemma add_slice_nth b e f y k : (k < length y)%nat -> nth k (add_slice b e f y) 0 = if (b <=? k)%nat && (k <? e)%nat then nth k y 0 + f k else nth k y 0.
Proof. intros H. unfold add_slice. now rewrite nth_tab. Qed.
Lemma set_slice_nth b e f y k : (k < length y)%nat -> nth k (set_slice b e f y) 0 = if (b <=? k)%nat && (k <? e)%nat then f k else nth k y 0.
Proof. intros H. unfold set_slice. now rewrite nth_tab. Qed.
Lemma sortedb_order : forall l, sortedb l = true <-> in_order l.
Proof.
  induction l as [|x l IH]; [split; [intros _ i j H; cbn in H; lia|reflexivity]|]. destruct l as [|y l].
  - split; [|reflexivity]. intros _ i j H. cbn in H. replace i with 0%nat by lia. replace j with 0%nat by lia. lia.
  - change (sortedb (x :: y :: l)) with ((x <=? y)%nat && sortedb (y :: l)). rewrite andb_true_iff, IH, Nat.leb_le. split.
    + intros [H1 H2] i j H. destruct j as [|j]; [replace i with 0%nat by lia; lia|]. destruct i as [|i].
      * cbn [nth]. specialize (H2 0%nat j). cbn [nth] in H2. specialize (H2 ltac:(cbn in *; lia)). lia.
      * cbn [nth]. apply (H2 i j). cbn in *; lia.
    + intros H. split; [exact (H 0%nat 1%nat ltac:(cbn; lia))|]. intros i j I. exact (H (S i) (S j) ltac:(cbn in *; lia)).
Qed.
Lemma last_nth' {A} (l : list A) d : last l d = nth (length l - 1) l d.
Proof. induction l as [|x l IH]; [reflexivity|]. destruct l as [|y l]; [reflexivity|]. change (last (x :: y :: l) d) with (last (y :: l) d). rewrite IH. cbn [length]. replace (S (S (length l)) - 1)%nat with (S (S (length l) - 1)) by lia. reflexivity. Qed.
Lemma check_ok len loc (par : list R) diff : check_arr len loc par diff = true <->
  (0 < length loc)%nat /\ (0 < length par)%nat /\ in_order loc /\ (nth (length loc - 1) loc 0 < len)%nat /\ (length loc = length par + diff)%nat.
Proof.
  unfold check_arr. rewrite !andb_true_iff, !negb_true_iff, !Nat.eqb_neq, Nat.eqb_eq, Nat.ltb_lt, sortedb_order, last_nth'. intuition lia.
Qed.

(** sums *)
Lemma total_app a b : total (a ++ b) = total a + total b.
Proof. induction a as [|x a IH]; cbn; [lra|]. rewrite IH. lra. Qed.
(** a loop of passes, each of which adds a function *)
Lemma passes_sum (pass : nat -> list R -> list R) (g : nat -> nat -> R) (m : nat) y :
  (forall i y, length (pass i y) = length y) ->
  (forall i y k, (i < m)%nat -> (k < length y)%nat -> nth k (pass i y) 0 = nth k y 0 + g i k) ->
  length (fold_left (fun y i => pass i y) (seq 0 m) y) = length y /\
  forall k, (k < length y)%nat -> nth k (fold_left (fun y i => pass i y) (seq 0 m) y) 0 = nth k y 0 + total (map (fun i => g i k) (seq 0 m)).
Proof.
  intros L G. revert G. induction m as [|m IH]; intros G; [split; [reflexivity|intros; cbn; lra]|].
  destruct IH as [I1 I2]; [intros; apply G; lia|]. rewrite seq_S, fold_left_app. cbn [fold_left Nat.add]. split; [now rewrite L|].
  intros k K. rewrite G by lia. rewrite I2 by lia. rewrite map_app, total_app. cbn. lra.
Qed.
Lemma total_zero {A} (f : A -> R) l : (forall x, In x l -> f x = 0) -> total (map f l) = 0.
Proof. induction l as [|x l IH]; intros H; cbn; [reflexivity|]. rewrite H by (left; reflexivity). rewrite IH by (intros; apply H; right; assumption). lra. Qed.
Lemma total_one (f : nat -> R) n i : (i < n)%nat -> (forall j, (j < n)%nat -> j <> i -> f j = 0) -> total (map f (seq 0 n)) = f i.
Proof.
  revert i. induction n as [|n IH]; intros i I H; [lia|]. rewrite seq_S, map_app, total_app. cbn. destruct (Nat.eq_dec i n) as [->|N].
  - rewrite total_zero; [lra|]. intros j J. apply in_seq in J. apply H; lia.
  - rewrite (IH i) by (try lia; intros; apply H; lia). rewrite (H n) by lia. lra.
Qed.
Lemma total_ext {A} (f g : A -> R) l : (forall x, In x l -> f x = g x) -> total (map f l) = total (map g l).
Proof. intros H. f_equal. apply map_ext_in. exact H. Qed.

(** The documented call: one level more than change points.  It always raises. *)
Theorem C150_documented_refuted : forall ts cps levels, (length levels = length cps + 1)%nat ->
  inject_level_shift ts cps levels = None /\ inject_trend_shift ts cps levels = None.
Proof.
  intros ts cps levels H. unfold inject_level_shift, inject_trend_shift. destruct (check_arr _ _ _ _) eqn:E; [|split; reflexivity].
  apply check_ok in E. lia.
Qed.
(** With one level less: exactly the ordered change points inside the series are accepted, rows from one change point up to the
    next are raised by the level between them, the other rows are unchanged. *)
Theorem C150_rows_partial : forall ts cps levels,
  ((exists out, inject_level_shift ts cps levels = Some out) <->
   (1 < length cps)%nat /\ in_order cps /\ (nth (length cps - 1) cps 0 < length ts)%nat /\ (length cps = length levels + 1)%nat) /\
  forall out, inject_level_shift ts cps levels = Some out ->
  length out = length ts /\
  (forall i k, (i < length levels)%nat -> (nth i cps 0 <= k < nth (S i) cps 0)%nat -> nth k out 0 = nth k ts 0 + nth i levels 0) /\
  (forall k, (k < length ts)%nat -> (k < nth 0 cps 0)%nat \/ (nth (length levels) cps 0 <= k)%nat -> nth k out 0 = nth k ts 0).
Proof.
  intros ts cps levels. unfold inject_level_shift. destruct (check_arr (length ts) cps levels 1) eqn:E.
  2: { split; [|discriminate]. split; [intros [out H]; discriminate|]. intros H. exfalso.
       assert (check_arr (length ts) cps levels 1 = true) by (apply check_ok; intuition lia). congruence. }
  apply check_ok in E. destruct E as (E1 & E2 & E3 & E4 & E5). split; [split; [intros _; repeat split; try assumption; lia|intros _; eexists; reflexivity]|].
  intros out H. injection H as <-. replace (length cps - 1)%nat with (length levels) in * by lia.
  set (g := fun i k : nat => if (nth i cps 0%nat <=? k)%nat && (k <? nth (S i) cps 0%nat)%nat then nth i levels 0 else 0).
  destruct (passes_sum (fun i y => add_slice (nth i cps 0%nat) (nth (S i) cps 0%nat) (fun _ => nth i levels 0) y) g (length levels) ts) as [L V].
  { intros; apply add_slice_len. }
  { intros i y k _ K. rewrite add_slice_nth by exact K. unfold g. destruct (_ && _); lra. }
  split; [exact L|]. split.
  - intros i k I K. assert (k < length ts)%nat by (pose proof (E3 (S i) (length levels)); lia). rewrite V by lia. f_equal.
    rewrite (total_one _ _ i I). { unfold g. destruct (Nat.leb_spec (nth i cps 0%nat) k), (Nat.ltb_spec k (nth (S i) cps 0%nat)); try lia. reflexivity. }
    intros j J N. unfold g. destruct (Nat.leb_spec (nth j cps 0%nat) k), (Nat.ltb_spec k (nth (S j) cps 0%nat)); try reflexivity. exfalso.
    destruct (Nat.lt_ge_cases j i) as [X|X]; [pose proof (E3 (S j) i); lia|pose proof (E3 (S i) j); lia].
  - intros k K O. rewrite V by exact K. rewrite total_zero; [lra|]. intros j J. apply in_seq in J. unfold g.
    destruct (Nat.leb_spec (nth j cps 0%nat) k), (Nat.ltb_spec k (nth (S j) cps 0%nat)); try reflexivity. exfalso.
    destruct O; [pose proof (E3 0%nat j); lia|pose proof (E3 (S j) (length levels)); lia].
Qed.
Example C150_case : inject_level_shift [1; 1; 1; 1; 1] [1; 2; 4]%nat [5; 7] = Some [1; 6; 8; 8; 1].
Proof. cbn. f_equal. repeat (f_equal; try lra). Qed.

(** The part added by a trend shift: zero up to the first change point, rising by the trend between the rows of a segment, and
    constant after the last; but not rising on the step to the first row of the next segment.  Accepted with distinct change
    points only. *)
Theorem C151_rows_partial : forall ts cps trends,
  ((exists out, inject_trend_shift ts cps trends = Some out) <->
   (1 < length cps)%nat /\ (forall i, (S i < length cps)%nat -> (nth i cps 0 < nth (S i) cps 0)%nat) /\
   (nth (length cps - 1) cps 0 < length ts)%nat /\ (length cps = length trends + 1)%nat) /\
  forall out, inject_trend_shift ts cps trends = Some out ->
  length out = length ts /\
  let added k := nth k out 0 - nth k ts 0 in
  (forall k, (k < length ts)%nat -> (k <= nth 0 cps 0)%nat -> added k = 0) /\
  (forall i k, (i < length trends)%nat -> (nth i cps 0 <= k)%nat -> (S k < nth (S i) cps 0)%nat -> added (S k) - added k = nth i trends 0) /\
  (forall i, (i < length trends)%nat -> added (nth (S i) cps 0%nat) = added (nth (S i) cps 0 - 1)%nat) /\
  (forall k, (nth (length trends) cps 0 <= k < length ts)%nat -> added k = added (nth (length trends) cps 0%nat)).
Proof.
  intros ts cps trends. unfold inject_trend_shift.
  assert (ORD : (forall i, (S i < length cps)%nat -> (nth i cps 0 < nth (S i) cps 0)%nat) -> forall i j, (i < j < length cps)%nat -> (nth i cps 0 < nth j cps 0)%nat).
  { intros H i j. induction j as [|j IH]; intros J; [lia|]. destruct (Nat.eq_dec i j) as [->|]; [apply H; lia|]. specialize (IH ltac:(lia)). specialize (H j ltac:(lia)). lia. }
  set (g := fun i k : nat => if (k <? nth i cps 0%nat)%nat then 0 else if (k <? nth (S i) cps 0%nat)%nat then nth i trends 0 * INR (k - nth i cps 0%nat)
      else nth i trends 0 * INR (nth (S i) cps 0 - 1 - nth i cps 0)%nat).
  assert (ST : forall i y, trend_step cps trends (Some y) i = if (nth i cps 0 <? nth (S i) cps 0)%nat then Some (add_slice (nth (S i) cps 0%nat) (length y) (fun _ => nth i trends 0 * INR (nth (S i) cps 0 - 1 - nth i cps 0)%nat) (add_slice (nth i cps 0%nat) (nth (S i) cps 0%nat) (fun k => nth i trends 0 * INR (k - nth i cps 0%nat)) y)) else None).
  { intros i y. unfold trend_step. rewrite add_slice_len. reflexivity. }
  assert (NN : forall l, fold_left (trend_step cps trends) l None = None) by (induction l; [reflexivity|assumption]).
  assert (FOLD : forall m, (m < length cps)%nat ->
    ((exists out, fold_left (trend_step cps trends) (seq 0 m) (Some ts) = Some out) <-> (forall i, (i < m)%nat -> (nth i cps 0 < nth (S i) cps 0)%nat)) /\
    forall out, fold_left (trend_step cps trends) (seq 0 m) (Some ts) = Some out -> length out = length ts /\ forall k, (k < length ts)%nat -> nth k out 0 = nth k ts 0 + total (map (fun i => g i k) (seq 0 m))).
  { induction m as [|m IH]; intros M.
    - split; [split; [intros; lia|intros _; exists ts; reflexivity]|]. cbn. intros out H. injection H as <-. split; [reflexivity|]. intros; lra.
    - destruct IH as [I1 I2]; [lia|]. rewrite seq_S, fold_left_app. cbn [fold_left Nat.add].
      destruct (fold_left (trend_step cps trends) (seq 0 m) (Some ts)) as [y|] eqn:F.
      + destruct (I2 y eq_refl) as [L V]. rewrite ST. destruct (Nat.ltb_spec (nth m cps 0%nat) (nth (S m) cps 0%nat)) as [X|X].
        * split; [split; [intros _ i I|intros _; eexists; reflexivity]|].
          { destruct (Nat.eq_dec i m) as [->|]; [exact X|]. apply I1; [eexists; reflexivity|lia]. }
          intros out H. injection H as <-. split; [now rewrite !add_slice_len|]. intros k K. rewrite !add_slice_nth by (rewrite ?add_slice_len; lia).
          rewrite map_app, total_app. cbn [map total]. rewrite V by exact K. unfold g at 2 4 6. rewrite L.
          destruct (Nat.leb_spec (nth (S m) cps 0%nat) k), (Nat.ltb_spec k (length ts)), (Nat.leb_spec (nth m cps 0%nat) k), (Nat.ltb_spec k (nth (S m) cps 0%nat)), (Nat.ltb_spec k (nth m cps 0%nat)); try lia; cbn [andb]; unfold g; try lra;
          destruct (Nat.ltb_spec k (nth m cps 0%nat)); destruct (Nat.ltb_spec k (nth (S m) cps 0%nat)); try lia; lra.
        * split; [|discriminate]. split; [intros [out H]; discriminate|]. intros H. specialize (H m ltac:(lia)). lia.
      + split; [|discriminate]. split; [intros [out H]; discriminate|]. intros H. exfalso. destruct I1 as [_ I1]. destruct I1 as [out I1]; [intros; apply H; lia|discriminate]. }
  destruct (check_arr (length ts) cps trends 1) eqn:E.
  2: { split; [|discriminate]. split; [intros [out H]; discriminate|]. intros (H1 & H2 & H3 & H4). exfalso.
       assert (check_arr (length ts) cps trends 1 = true).
       { apply check_ok. split; [lia|]. split; [lia|]. split; [|split; [exact H3|lia]]. intros i j I. destruct (Nat.eq_dec i j) as [->|]; [lia|]. pose proof (ORD H2 i j). lia. }
       congruence. }
  apply check_ok in E. destruct E as (E1 & E2 & E3 & E4 & E5). replace (length cps - 1)%nat with (length trends) in * by lia.
  destruct (FOLD (length trends)) as [F1 F2]; [lia|]. split.
  { rewrite F1. split; [intros H; split; [lia|]; split; [intros i I; apply H; lia|]; split; [exact E4|exact E5]|]. intros (_ & H & _) i I. apply H. lia. }
  intros out H. destruct (F2 out H) as [L V]. split; [exact L|]. assert (SI : forall i, (S i < length cps)%nat -> (nth i cps 0 < nth (S i) cps 0)%nat).
  { intros i I. apply (proj1 F1); [exists out; exact H|lia]. }
  specialize (ORD SI). cbv zeta.
  assert (INB : forall j, (j <= length trends)%nat -> (nth j cps 0 < length ts)%nat) by (intros j J; pose proof (E3 j (length trends)); lia).
  assert (AD : forall k, (k < length ts)%nat -> nth k out 0 - nth k ts 0 = total (map (fun i => g i k) (seq 0 (length trends)))) by (intros k K; rewrite V by exact K; lra).
  split; [|split; [|split]].
  - intros k K K0. rewrite AD by exact K. apply total_zero. intros j J. apply in_seq in J. unfold g.
    destruct (Nat.ltb_spec k (nth j cps 0%nat)); [reflexivity|]. destruct (Nat.eq_dec j 0) as [->|]; [|pose proof (ORD 0%nat j); lia].
    replace k with (nth 0 cps 0%nat) by lia. pose proof (ORD 0%nat 1%nat). destruct (Nat.ltb_spec (nth 0 cps 0%nat) (nth 1 cps 0%nat)); [|lia]. rewrite Nat.sub_diag. cbn. lra.
  - intros i k I K1 K2. pose proof (INB (S i) ltac:(lia)). rewrite !AD by lia.
    assert (D : total (map (fun j => g j (S k)) (seq 0 (length trends))) = total (map (fun j => g j k + (if (j =? i)%nat then nth i trends 0 else 0)) (seq 0 (length trends)))).
    { apply total_ext. intros j J. apply in_seq in J. unfold g. destruct (Nat.eqb_spec j i) as [->|N].
      - destruct (Nat.ltb_spec (S k) (nth i cps 0%nat)), (Nat.ltb_spec k (nth i cps 0%nat)), (Nat.ltb_spec (S k) (nth (S i) cps 0%nat)), (Nat.ltb_spec k (nth (S i) cps 0%nat)); try lia.
        replace (S k - nth i cps 0)%nat with (S (k - nth i cps 0)%nat) by lia. rewrite S_INR. lra.
      - destruct (Nat.lt_ge_cases j i) as [X|X].
        + pose proof (E3 (S j) i). destruct (Nat.ltb_spec (S k) (nth j cps 0%nat)), (Nat.ltb_spec k (nth j cps 0%nat)), (Nat.ltb_spec (S k) (nth (S j) cps 0%nat)), (Nat.ltb_spec k (nth (S j) cps 0%nat)); try lia; try lra.
          all: pose proof (SI j); lia.
        + pose proof (E3 (S i) j). destruct (Nat.ltb_spec (S k) (nth j cps 0%nat)), (Nat.ltb_spec k (nth j cps 0%nat)); try lia; lra. }
    rewrite D. clear D. assert (S2 : forall (f h : nat -> R) l, total (map (fun j => f j + h j) l) = total (map f l) + total (map h l)) by (intros f h; induction l as [|x l IH]; cbn; [lra|rewrite IH; lra]).
    rewrite (S2 (fun j => g j k)). rewrite (total_one (fun j => if (j =? i)%nat then nth i trends 0 else 0) _ i I); [rewrite Nat.eqb_refl; lra|]. intros j _ N. apply Nat.eqb_neq in N. now rewrite N.
  - intros i I. pose proof (INB (S i) ltac:(lia)). pose proof (SI i ltac:(lia)). rewrite !AD by lia. apply total_ext. intros j J. apply in_seq in J. unfold g.
    set (c := nth (S i) cps 0%nat) in *. destruct (Nat.lt_trichotomy j i) as [X|[->|X]].
    + pose proof (E3 (S j) i). pose proof (SI j). destruct (Nat.ltb_spec c (nth j cps 0%nat)), (Nat.ltb_spec (c - 1) (nth j cps 0%nat)), (Nat.ltb_spec c (nth (S j) cps 0%nat)), (Nat.ltb_spec (c - 1) (nth (S j) cps 0%nat)); try lia; reflexivity.
    + fold c. destruct (Nat.ltb_spec c (nth i cps 0%nat)), (Nat.ltb_spec (c - 1) (nth i cps 0%nat)), (Nat.ltb_spec c c), (Nat.ltb_spec (c - 1) c); try lia. reflexivity.
    + pose proof (E3 (S i) j). pose proof (SI j). fold c in H2. destruct (Nat.ltb_spec c (nth j cps 0%nat)), (Nat.ltb_spec (c - 1) (nth j cps 0%nat)); try lia; try reflexivity.
      destruct (Nat.ltb_spec c (nth (S j) cps 0%nat)); [|lia]. replace (c - nth j cps 0)%nat with 0%nat by lia. cbn. lra.
  - intros k K. rewrite !AD by lia. apply total_ext. intros j J. apply in_seq in J. unfold g. pose proof (SI j ltac:(lia)). pose proof (E3 (S j) (length trends)).
    destruct (Nat.ltb_spec k (nth j cps 0%nat)), (Nat.ltb_spec (nth (length trends) cps 0%nat) (nth j cps 0%nat)), (Nat.ltb_spec k (nth (S j) cps 0%nat)), (Nat.ltb_spec (nth (length trends) cps 0%nat) (nth (S j) cps 0%nat)); try lia; reflexivity.
Qed.
(** Refuted: that the series rises by the trend on every step up to the next change point: on the last step of each segment, to
    the change point itself, it does not. *)
Theorem C151_step_refuted : forall ts cps trends out i, inject_trend_shift ts cps trends = Some out -> (i < length trends)%nat -> nth i trends 0 <> 0 ->
  (nth (nth (S i) cps 0%nat) out 0 - nth (nth (S i) cps 0%nat) ts 0) - (nth (nth (S i) cps 0 - 1)%nat out 0 - nth (nth (S i) cps 0 - 1)%nat ts 0) <> nth i trends 0.
Proof.
  intros ts cps trends out i E I N. destruct (proj2 (C151_rows_partial ts cps trends) out E) as (_ & _ & _ & H & _). cbv zeta in H. rewrite (H i I), Rminus_diag_eq by reflexivity. congruence.
Qed.
(** A trend shift of 2 from row 1 to row 3 and 10 from row 3 on: the step from row 2 to row 3 is not raised. *)
Example C151_case : inject_trend_shift [0; 0; 0; 0; 0; 0] [1; 3; 5]%nat [2; 10] = Some [0; 0; 2; 2; 12; 12].
Proof. cbn. f_equal. repeat (f_equal; try lra). Qed.

(** moving_average: entry i is the mean of the n values from i on *)
Theorem C152_moving_average : forall a n, (0 < n)%nat ->
  length (moving_average a n) = (length a + 1 - n)%nat /\
  forall i, (i + n <= length a)%nat -> nth i (moving_average a n) 0 = total (firstn n (skipn i a)) / INR n.
Proof.
  intros a n N. unfold moving_average.
  assert (LC : length (cumsum a) = length a) by (unfold cumsum; now rewrite map_length, seq_length).
  split; [rewrite map_length, skipn_length, map_length, seq_length, LC; lia|]. intros i I.
  rewrite LC. set (r := map _ (seq 0 (length a))).
  assert (NS : forall (l : list R) b j, nth j (skipn b l) 0 = nth (b + j) l 0).
  { induction l as [|x l IH]; intros b j; [rewrite skipn_nil, !nth_overflow by (cbn; lia); reflexivity|]. destruct b as [|b]; [reflexivity|]. cbn. apply IH. }
  assert (LR : length r = length a) by (unfold r; now rewrite map_length, seq_length).
  replace 0 with (0 / INR n) at 1 by (unfold Rdiv; lra).
  rewrite (map_nth (fun x => x / INR n)). rewrite NS. f_equal. unfold r. rewrite nth_tab by lia.
  assert (CN : forall k, (k < length a)%nat -> nth k (cumsum a) 0 = total (firstn (S k) a)) by (intros k K; unfold cumsum; now rewrite nth_tab).
  assert (TS : total (firstn (n - 1 + i + 1) a) = total (firstn i a) + total (firstn n (skipn i a))).
  { rewrite <- total_app. f_equal. replace (n - 1 + i + 1)%nat with (i + n)%nat by lia. clear. revert i. induction a as [|x a IH]; intros i; [rewrite skipn_nil, !firstn_nil; reflexivity|].
    destruct i as [|i]; [reflexivity|]. cbn. f_equal. apply IH. }
  rewrite Nat.add_1_r in TS.
  destruct (Nat.leb_spec n (n - 1 + i)) as [X|X].
  - rewrite !CN by lia. rewrite TS. replace (S (n - 1 + i - n)) with i by lia. lra.
  - rewrite CN by lia. rewrite TS. replace i with 0%nat by lia. cbn [firstn total]. lra.
Qed.
(** the deviation used for spikes: standard deviation of value minus mean of it and the two before *)
Definition local_deviation (ts : list R) (sd : R) : Prop :=
  exists m, let d k := nth (k + 2) ts 0 - (nth k ts 0 + nth (k + 1) ts 0 + nth (k + 2) ts 0) / 3 in
  let ks := seq 0 (length ts - 2) in
  INR (length ks) * m = total (map d ks) /\ 0 <= sd /\ INR (length ks) * (sd * sd) = total (map (fun k => (d k - m) * (d k - m)) ks).
Lemma minus_nth : forall a b k, (k < length a)%nat -> (k < length b)%nat -> nth k (minus a b) 0 = nth k a 0 - nth k b 0.
Proof. induction a as [|x a IH]; intros [|y b] [|k] H1 H2; cbn in *; try lia; [reflexivity|]. apply IH; lia. Qed.
Lemma minus_len : forall a b, length (minus a b) = Nat.min (length a) (length b).
Proof. induction a as [|x a IH]; intros [|y b]; cbn; try reflexivity. now rewrite IH. Qed.
Lemma nth_tab_all (l : list R) : l = map (fun k => nth k l 0) (seq 0 (length l)).
Proof. apply (nth_ext _ _ 0 0); [now rewrite map_length, seq_length|]. intros k K. now rewrite nth_tab. Qed.
Theorem C152_spikes : forall ts locs zs eps,
  ((exists out, inject_spikes ts locs zs eps = Some out) <->
   (3 <= length ts)%nat /\ (0 < length locs)%nat /\ length locs = length zs /\ in_order locs /\ (nth (length locs - 1) locs 0 < length ts)%nat) /\
  forall out, inject_spikes ts locs zs eps = Some out -> length out = length ts /\
  exists sd, local_deviation ts sd /\
  forall k, (k < length ts)%nat -> nth k out 0 = nth k ts 0 + (sd + eps) * total (map snd (filter (fun az => (fst az =? k)%nat) (combine locs zs))).
Proof.
  intros ts locs zs eps. unfold inject_spikes.
  destruct (C152_moving_average ts 3 ltac:(lia)) as [ML MV].
  set (ds := minus (skipn 2 ts) (moving_average ts 3)).
  assert (LD : length ds = (length ts - 2)%nat) by (unfold ds; rewrite minus_len, skipn_length, ML; lia).
  assert (DV : forall k, (k < length ts - 2)%nat -> nth k ds 0 = nth (k + 2) ts 0 - (nth k ts 0 + nth (k + 1) ts 0 + nth (k + 2) ts 0) / 3).
  { intros k K. unfold ds. rewrite minus_nth by (rewrite ?skipn_length, ?ML; lia). rewrite MV by lia.
    assert (NS : forall (l : list R) b j, nth j (skipn b l) 0 = nth (j + b) l 0).
    { induction l as [|x l IH]; intros b j; [rewrite skipn_nil, !nth_overflow by (cbn; lia); reflexivity|]. destruct b as [|b]; [rewrite Nat.add_0_r; reflexivity|]. rewrite Nat.add_succ_r. cbn. apply IH. }
    rewrite NS. f_equal. replace (INR 3) with 3 by (cbn; lra). f_equal.
    assert (LS : (3 <= length (skipn k ts))%nat) by (rewrite skipn_length; lia). pose proof (NS ts k 0%nat) as P0. pose proof (NS ts k 1%nat) as P1. pose proof (NS ts k 2%nat) as P2.
    cbn [Nat.add] in P0. rewrite (Nat.add_comm k 1), (Nat.add_comm k 2), <- P0, <- P1, <- P2.
    destruct (skipn k ts) as [|x0 [|x1 [|x2 r]]]; cbn in LS; try lia. cbn. lra. }
  assert (FOLD : forall sd l y, Forall (fun az => (fst az < length y)%nat) l ->
     let out := fold_left (fun y az => add_slice (fst az) (S (fst az)) (fun _ => snd az * (sd + eps)) y) l y in
     length out = length y /\ forall k, (k < length y)%nat -> nth k out 0 = nth k y 0 + (sd + eps) * total (map snd (filter (fun az => (fst az =? k)%nat) l))).
  { intros sd. induction l as [|[a z] l IH]; intros y F; cbv zeta; [split; [reflexivity|intros; cbn; lra]|]. apply Forall_cons_iff in F. destruct F as [F1 F2].
    cbn [fold_left fst snd] in *. destruct (IH (add_slice a (S a) (fun _ => z * (sd + eps)) y)) as [L V]; [rewrite add_slice_len; exact F2|].
    rewrite add_slice_len in *. split; [exact L|]. intros k K. rewrite V by exact K. rewrite add_slice_nth by exact K. cbn [filter fst].
    destruct (Nat.eqb_spec a k) as [->|N].
    - destruct (Nat.leb_spec k k), (Nat.ltb_spec k (S k)); try lia. cbn [andb map total snd]. lra.
    - destruct (Nat.leb_spec a k), (Nat.ltb_spec k (S a)); try lia; cbn [andb]; lra. }
  destruct (check_arr (length ts) locs zs 0) eqn:E.
  2: { split; [|discriminate]. split; [intros [out H]; discriminate|]. intros (H0 & H1 & H2 & H3 & H4). exfalso.
       assert (check_arr (length ts) locs zs 0 = true) by (apply check_ok; split; [lia|]; split; [lia|]; split; [exact H3|]; split; [exact H4|lia]). congruence. }
  apply check_ok in E. destruct E as (E1 & E2 & E3 & E4 & E5).
  assert (IN : Forall (fun az : nat * R => (fst az < length ts)%nat) (combine locs zs)).
  { apply Forall_forall. intros [a z] IN. apply in_combine_l in IN. cbn. apply (In_nth _ _ 0%nat) in IN. destruct IN as (i & I & <-). pose proof (E3 i (length locs - 1)%nat). lia. }
  unfold np_std. destruct ds as [|d0 dr] eqn:DS.
  - split; [|discriminate]. split; [intros [out H]; discriminate|]. cbn in LD. intros (H0 & _). lia.
  - rewrite <- DS in *. set (m := total ds / INR (length ds)). set (v := total (map (fun x => (x - m) * (x - m)) ds) / INR (length ds)).
    assert (LP : (0 < length ds)%nat) by (rewrite DS; cbn; lia). assert (RP : 0 < INR (length ds)) by (apply lt_0_INR; exact LP).
    split; [split; [intros _; split; [lia|]; split; [exact E1|]; split; [lia|]; split; [exact E3|exact E4]|intros _; eexists; reflexivity]|].
    intros out H. injection H as <-. destruct (FOLD (sqrt v) (combine locs zs) ts IN) as [L V]. split; [exact L|]. exists (sqrt v). split; [|exact V].
    exists m. cbv zeta. rewrite seq_length, <- LD.
    set (dd := fun k => nth (k + 2) ts 0 - (nth k ts 0 + nth (k + 1) ts 0 + nth (k + 2) ts 0) / 3).
    assert (DM : ds = map dd (seq 0 (length ds))) by (rewrite (nth_tab_all ds) at 1; apply map_ext_in; intros k K; apply in_seq in K; apply DV; lia).
    assert (SQ : forall c l, 0 <= total (map (fun x => (x - c) * (x - c)) l)).
    { intros c. induction l as [|x l IH]; cbn; [lra|]. pose proof (Rle_0_sqr (x - c)) as Q. unfold Rsqr in Q. lra. }
    pose proof (SQ m ds) as V0.
    split; [rewrite <- DM; unfold m; field; lra|]. split; [apply sqrt_pos|].
    rewrite sqrt_sqrt by (unfold v; apply Rmult_le_pos; [exact V0|left; apply Rinv_0_lt_compat; exact RP]).
    match goal with |- _ = ?r => change r with (total (map (fun k => (dd k - m) * (dd k - m)) (seq 0 (length ds)))) end.
    replace (map (fun k => (dd k - m) * (dd k - m)) (seq 0 (length ds))) with (map (fun x => (x - m) * (x - m)) ds); [unfold v; field; lra|]. rewrite DM at 1. now rewrite map_map.
Qed.
(** A series with deviation zero: only epsilon counts. *)
Example C152_case : inject_spikes [4; 4; 4; 4] [1; 3]%nat [2; -1] (1/2) = Some [4; 5; 4; 4 - 1/2].
Proof.
  unfold inject_spikes. replace (check_arr _ _ _ _) with true by reflexivity.
  replace (np_std _) with (Some 0); [cbn; f_equal; repeat (f_equal; try lra)|].
  unfold np_std. set (l := minus _ _). assert (L : l = [0; 0]) by (unfold l; cbn; repeat (f_equal; try lra)). rewrite L. f_equal.
  replace (total _ / INR (length [0; 0])) with 0 by (cbn; lra). symmetry. apply sqrt_0.
Qed.

Print Assumptions C150_documented_refuted.
Print Assumptions C150_rows_partial.
Print Assumptions C151_rows_partial.
Print Assumptions C152_moving_average.
Print Assumptions C152_spikes.

Print Assumptions C151_step_refuted.
