(** The two paths of the CUSUM model on evenly spaced series. *)
From Verif Require Import Common PySlice CusumModel CusumDetModel CusumSpec CusumProofs CusumStateProofs
  CusumDetProps CusumMagProps CusumVecProps CusumRunModel CusumShiftProofs.
Require Import Reals.
Require Import String List.
Require Import Sorted.
Open Scope Z_scope.

Definition grid (t0 f : Z) (a k : nat) : list Z := map (fun i => t0 + Z.of_nat i * f) (seq a k).
Definition cut {A} (a k : nat) (l : list A) : list A := firstn k (skipn a l).

Lemma cut_seq a k n : (a + k <= n)%nat -> cut a k (seq 0 n) = seq a k.
Proof.
  intros H. unfold cut. replace n with (a + (k + (n - a - k)))%nat by lia. rewrite seq_app, seq_app.
  rewrite skipn_app, skipn_all2 by (rewrite seq_length; lia). rewrite seq_length, Nat.sub_diag. cbn [app skipn].
  rewrite firstn_app, seq_length, Nat.sub_diag. cbn [firstn]. rewrite app_nil_r.
  apply firstn_all2. rewrite seq_length. lia.
Qed.
Lemma cut_map {A B} (f : A -> B) a k l : cut a k (map f l) = map f (cut a k l).
Proof. unfold cut. rewrite skipn_map, firstn_map. reflexivity. Qed.
Lemma cut_grid t0 f a k n : (a + k <= n)%nat -> cut a k (grid t0 f 0 n) = grid t0 f a k.
Proof. intros H. unfold grid. rewrite cut_map, cut_seq by exact H. reflexivity. Qed.
Lemma cut_length {A} a k (l : list A) : (a + k <= length l)%nat -> length (cut a k l) = k.
Proof. intros H. unfold cut. rewrite firstn_length, skipn_length. lia. Qed.
Lemma cut_cut {A} a k b j (l : list A) : (b + j <= k)%nat -> cut b j (cut a k l) = cut (a + b) j l.
Proof.
  intros H. unfold cut. rewrite skipn_firstn_comm, firstn_firstn, skipn_skipn_add. f_equal. lia.
Qed.
Lemma cut_app {A} a k j (l : list A) : cut a k l ++ cut (a + k) j l = cut a (k + j) l.
Proof.
  unfold cut. rewrite <- skipn_skipn_add.
  set (m := skipn a l). clearbody m. revert m. induction k as [|k IH]; intros m; [reflexivity|].
  destruct m as [|x m]; [cbn; rewrite firstn_nil; reflexivity|]. cbn [firstn skipn app Nat.add]. rewrite IH. reflexivity.
Qed.
Lemma slice_cut {A} (l : list A) a b : (a <= b <= length l)%nat ->
  py_slice l (Some (Z.of_nat a)) (Some (Z.of_nat b)) = cut a (b - a) l.
Proof. intros H. rewrite py_slice_in by lia. unfold cut. f_equal; [lia|]. f_equal. lia. Qed.
Lemma slice_first_cut {A} (l : list A) b : (b <= length l)%nat ->
  py_slice l None (Some (Z.of_nat b)) = cut 0 b l.
Proof.
  intros H. unfold py_slice, cut. rewrite norm_idx_in by lia. cbn [skipn Z.to_nat].
  f_equal. lia.
Qed.
Lemma slice_last_cut {A} (l : list A) b : (b <= length l)%nat -> (1 <= b)%nat ->
  py_slice l (Some (- Z.of_nat b)) None = cut (length l - b) b l.
Proof.
  intros H P. unfold py_slice, cut, norm_idx. destruct (Z.ltb_spec (- Z.of_nat b) 0); [|lia].
  f_equal; [lia|]. f_equal. lia.
Qed.
Lemma grid_later t0 f a d k : grid t0 f (a + d) k = map (Z.add (Z.of_nat d * f)) (grid t0 f a k).
Proof.
  unfold grid. rewrite map_map. revert a. induction k as [|k IH]; intros a; [reflexivity|].
  cbn [seq map]. f_equal; [lia|]. change (Datatypes.S (a + d)) with (Datatypes.S a + d)%nat. apply IH.
Qed.
Lemma grid_length t0 f a k : length (grid t0 f a k) = k.
Proof. unfold grid. now rewrite map_length, seq_length. Qed.
Lemma grid_nth t0 f a k i d : (i < k)%nat -> nth i (grid t0 f a k) d = t0 + Z.of_nat (a + i) * f.
Proof.
  intros H. unfold grid. rewrite (nth_indep _ d (t0 + Z.of_nat 0 * f)) by (rewrite map_length, seq_length; lia).
  rewrite (map_nth (fun i => t0 + Z.of_nat i * f)). rewrite seq_nth by lia. reflexivity.
Qed.
Lemma grid_last t0 f a k d : last (grid t0 f a (Datatypes.S k)) d = t0 + Z.of_nat (a + k) * f.
Proof. unfold grid. rewrite seq_S, map_app. cbn [map]. apply last_last. Qed.
Lemma grid_in t0 f a k t : In t (grid t0 f a k) <-> exists i, (a <= i < a + k)%nat /\ t = t0 + Z.of_nat i * f.
Proof.
  unfold grid. rewrite in_map_iff. split.
  - intros (i & <- & I). apply in_seq in I. eauto.
  - intros (i & I & ->). exists i. split; [reflexivity|]. apply in_seq. lia.
Qed.
Lemma grid_sorted t0 f : 0 < f -> forall k a, StronglySorted Z.lt (grid t0 f a k).
Proof.
  intros F. induction k as [|k IH]; intros a; [constructor|]. unfold grid. cbn [seq map]. constructor; [apply IH|].
  apply Forall_forall. intros t I. apply (grid_in t0 f (Datatypes.S a) k) in I as (i & I & ->). nia.
Qed.
Lemma grid_count t0 f n j : 0 < f -> (j <= n)%nat -> cnt_lt (grid t0 f 0 n) (t0 + Z.of_nat j * f) = Z.of_nat j.
Proof.
  intros F H. destruct (Nat.eq_dec j n) as [->|N].
  - unfold cnt_lt. f_equal. transitivity (length (grid t0 f 0 n)); [|apply grid_length].
    assert (A : forall x, In x (grid t0 f 0 n) -> (x <? t0 + Z.of_nat n * f) = true).
    { intros x I. apply grid_in in I as (i & I & ->). apply Z.ltb_lt. nia. }
    revert A. generalize (grid t0 f 0 n) as l. induction l as [|x l IH]; intros A; [reflexivity|].
    cbn [filter]. rewrite (A x) by (left; reflexivity). cbn [length]. f_equal. apply IH. intros y Y. apply A. right; exact Y.
  - pose proof (cnt_lt_nth (grid t0 f 0 n) (grid_sorted t0 f F n 0) j) as C. rewrite grid_length in C.
    specialize (C ltac:(lia)). rewrite grid_nth in C by lia. exact C.
Qed.
Lemma grid_right t0 f n j : 0 < f -> (j < n)%nat -> time2idx_right (grid t0 f 0 n) (t0 + Z.of_nat j * f) = Some (Z.of_nat j).
Proof.
  intros F H. rewrite time2idx_right_spec; rewrite ?grid_count, ?grid_length; try reflexivity; try lia.
  now apply grid_sorted.
Qed.
Lemma grid_left t0 f n j : 0 < f -> (1 <= j <= n)%nat -> time2idx_left (grid t0 f 0 n) (t0 + Z.of_nat j * f) = Some (Z.of_nat j - 1).
Proof.
  intros F H. rewrite time2idx_left_spec; rewrite ?grid_count; try reflexivity; try lia.
  now apply grid_sorted.
Qed.
Lemma grid_whole t0 f a k : 0 < f -> second <= t0 -> (second | t0) -> (second | f) -> whole_seconds (grid t0 f a k).
Proof.
  intros F A B C t I. apply grid_in in I as (i & _ & ->). split; [nia|].
  apply Z.divide_add_r; [exact B|]. apply Z.divide_mul_r. exact C.
Qed.
(** the scan window has at least three points. *)
Lemma grid_scan g t0 f a k : 0 < f -> (3 <= k)%nat -> 2 * f <= g_scan g ->
  exists i, scan_index g (grid t0 f a k) = Some i /\ 0 <= i /\ i + 3 <= Z.of_nat k.
Proof.
  intros F K SC. assert (S := grid_sorted t0 f F k a). unfold scan_index.
  replace (last (grid t0 f a k) 0) with (t0 + Z.of_nat (a + (k - 1)) * f)
    by (replace k with (Datatypes.S (k - 1)) at 2 by lia; rewrite grid_last; reflexivity).
  set (t := t0 + Z.of_nat (a + (k - 1)) * f - g_scan g).
  assert (C : cnt_lt (grid t0 f a k) t <= Z.of_nat (k - 3)).
  { rewrite <- (cnt_lt_nth _ S (k - 3)) by (rewrite grid_length; lia). apply cnt_lt_mono.
    rewrite grid_nth by lia. unfold t. nia. }
  exists (cnt_lt (grid t0 f a k) t). pose proof (cnt_lt_le (grid t0 f a k) t).
  rewrite time2idx_right_spec by (auto; rewrite grid_length; lia). repeat split; lia.
Qed.

Lemma paths_same g std t0 f n vals smooth p h s i :
  0 < f -> second <= t0 -> (second | t0) -> (second | f) -> length vals = n -> length smooth = n ->
  g_hist g = Z.of_nat h * f -> (1 <= s)%nat -> (h <= p)%nat ->
  scan_index g (grid t0 f (p - h) (h + s)) = Some i -> 1 < Z.of_nat (h + s) - i ->
  forall m j founds st, (p + (j + m) * s <= n)%nat -> length founds = m ->
  (forall q, (q < m)%nat -> exists v pp, nth_error founds q = Some (first_of v) /\
     detector (det_args g (i, Z.of_nat (h + s))) (det_dirs g) (grid t0 f (p - h) (h + s))
        (cut (p - h + (j + q) * s) (h + s) vals) = Some pp /\ Forall2 same_but_stable v pp) ->
  inv st -> (alert_fired st = true -> last (cps st) 0 * second < t0 + Z.of_nat (p + j * s) * f) ->
  loop_path g std (grid t0 f 0 n) vals smooth (Z.of_nat s * f)
    (map (fun k => t0 + Z.of_nat p * f + Z.of_nat k * (Z.of_nat s * f)) (seq j m)) st
  = vec_rows g std (Z.of_nat s * f) (grid t0 f (p - h) (h + s)) (grid t0 f p s) (Z.of_nat j)
      (map (fun k => cut (p - h + k * s) (h + s) vals) (seq j m))
      (map (fun k => cut (p + k * s) s smooth) (seq j m)) founds st.
Proof.
  intros F P0 W0 WF LV LS HH S1 HP SI EN. induction m as [|m IH]; intros j founds st BND LF FND IV OLD; [reflexivity|].
  destruct founds as [|fd founds]; [discriminate|]. cbn [seq map loop_path vec_rows].
  destruct (FND 0%nat ltac:(lia)) as (v & pp & E0 & DT & F2). rewrite Nat.add_0_r in DT.
  cbn [nth_error] in E0. injection E0 as ->.
  rewrite HH.
  replace (t0 + Z.of_nat p * f + Z.of_nat j * (Z.of_nat s * f) - Z.of_nat h * f)
    with (t0 + Z.of_nat (p - h + j * s) * f) by nia.
  replace (t0 + Z.of_nat p * f + Z.of_nat j * (Z.of_nat s * f)) with (t0 + Z.of_nat (p + j * s) * f) by nia.
  replace (t0 + Z.of_nat (p + j * s) * f + Z.of_nat s * f) with (t0 + Z.of_nat (p + (j + 1) * s) * f) by nia.
  rewrite (grid_right t0 f n (p - h + j * s)) by nia. rewrite (grid_right t0 f n (p + j * s)) by nia.
  rewrite (grid_left t0 f n (p + (j + 1) * s)) by nia. rewrite Z.sub_add.
  destruct (Z.leb_spec (Z.of_nat (p + (j + 1) * s)) (Z.of_nat (p + j * s))); [nia|].
  assert (CUT : forall A (l : list A), length l = n ->
    py_slice l (Some (Z.of_nat (p - h + j * s))) (Some (Z.of_nat (p + j * s)))
    ++ py_slice l (Some (Z.of_nat (p + j * s))) (Some (Z.of_nat (p + (j + 1) * s))) = cut (p - h + j * s) (h + s) l
    /\ py_slice l (Some (Z.of_nat (p + j * s))) (Some (Z.of_nat (p + (j + 1) * s))) = cut (p + j * s) s l).
  { intros A l L. rewrite !slice_cut by nia.
    replace (p + (j + 1) * s - (p + j * s))%nat with s by nia.
    replace (p + j * s - (p - h + j * s))%nat with h by nia.
    split; [|reflexivity].
    replace (cut (p + j * s) s l) with (cut (p - h + j * s + h) s l) by (f_equal; lia). apply cut_app. }
  unfold one_step.
  destruct (CUT _ (grid t0 f 0 n) (grid_length _ _ _ _)) as (-> & ->).
  destruct (CUT _ vals LV) as (-> & _). destruct (CUT _ smooth LS) as (_ & ->).
  rewrite !cut_grid by nia.
  rewrite (grid_later t0 f (p - h) (j * s) (h + s)), (grid_later t0 f p (j * s) s).
  replace (Z.of_nat (j * s) * f) with (Z.of_nat j * (Z.of_nat s * f)) by nia.
  set (k := Z.of_nat j * (Z.of_nat s * f)).
  set (col := cut (p - h + j * s) (h + s) vals). set (pcol := cut (p + j * s) s smooth).
  assert (LC : length col = (h + s)%nat) by (apply cut_length; nia).
  destruct (step_same g std st (grid t0 f (p - h) (h + s)) (grid t0 f p s) col pcol k v pp i) as (EQ & NEXT); auto.
  - now apply grid_whole.
  - unfold k. nia.
  - unfold k. apply Z.divide_mul_r, Z.divide_mul_r. exact WF.
  - intros E. apply (f_equal (@length Z)) in E. rewrite grid_length in E. cbn in E. lia.
  - intros t I. apply grid_in in I as (x & I & ->). apply grid_in. exists x. split; [lia|reflexivity].
  - rewrite LC. exact EN.
  - rewrite LC. exact DT.
  - intros FI. specialize (OLD FI). rewrite grid_nth by lia. unfold k. rewrite Nat.add_0_r. nia.
  - destruct (fit_scan g std st (map (Z.add k) (grid t0 f (p - h) (h + s))) col) as [s1|] eqn:FS.
    2:{ destruct (fit_vec_row g std st (grid t0 f (p - h) (h + s)) col (first_of v) k) as [(s2, res)|]; [|reflexivity].
        destruct (predict_col _ _ _ _ _ _ _); [discriminate|reflexivity]. }
    destruct (fit_vec_row g std st (grid t0 f (p - h) (h + s)) col (first_of v) k) as [(s2, res)|] eqn:FV.
    2:{ rewrite EQ. reflexivity. }
    rewrite EQ. destruct (predict_col _ _ _ _ _ _ _) as [w|]; [|reflexivity]. cbn [option_map].
    destruct (NEXT s2 res eq_refl) as (IV2 & OLD2).
    replace (Z.of_nat j + 1) with (Z.of_nat (Datatypes.S j)) by lia.
    rewrite (IH (Datatypes.S j) founds s2).
    + destruct (vec_rows _ _ _ _ _ _ _ _ _ _) as [(a, b)|]; reflexivity.
    + nia.
    + cbn in LF. lia.
    + intros q Q. destruct (FND (Datatypes.S q) ltac:(lia)) as (v' & pp' & N & D & F').
      exists v', pp'. split; [exact N|]. split; [|exact F'].
      replace (Datatypes.S j + q)%nat with (j + Datatypes.S q)%nat by lia. exact D.
    + exact IV2.
    + intros FI. destruct (OLD2 FI) as [(FI0 & ->)|(t & I & ->)].
      * specialize (OLD FI0). nia.
      * apply grid_in in I as (x & I & ->). unfold k. nia.
Qed.
