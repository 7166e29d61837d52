(** C24-C28: [TimeSeriesData]. *)
From Verif Require Import Common PySlice TSDataModel TSDataSpec TSDataProofs.
Open Scope Z_scope.

(** *** C24 *)
Theorem C24_sorted_permutation : forall {A} (l : list (Z * A)),
  in_time_order (rows (of_rows true false l)) /\ Permutation l (rows (of_rows true false l)).
Proof. exact @c24_sorted. Qed.
Theorem C24_drop_duplicates : forall {A} (l : list (Z * A)),
  let s := rows (of_rows true true l) in
  strictly_in_time_order s
  /\ (forall r, In r s <-> first_of_its_time r l)
  /\ (forall t, In t (map fst s) <-> In t (map fst l)).
Proof. exact @c24_dedup. Qed.
Theorem C24_unsorted : forall {A} (l : list (Z * A)),
  rows (of_rows false false l) = l
  /\ subsequence (rows (of_rows false true l)) l
  /\ (forall r, In r (rows (of_rows false true l)) <-> first_of_its_time r l)
  /\ NoDup (map fst (rows (of_rows false true l))).
Proof. exact @c24_unsorted. Qed.
Theorem C24_columns : forall {A} sort drop (t : list Z) (v : list A),
  (length t = length v ->
   exists s, of_columns sort drop t v = Some s
     /\ (drop = false -> length (rows s) = length t)
     /\ (forall i dz dv, (i < length t)%nat -> drop = false -> In (nth i t dz, nth i v dv) (rows s)))
  /\ (length t <> length v -> of_columns sort drop t v = None).
Proof. exact @c24_columns. Qed.
Example C24_case :
  rows (of_rows true true [(3, 30); (1, 10); (3, 31); (2, 20); (1, 11)]) = [(1, 10); (2, 20); (3, 30)].
Proof. reflexivity. Qed.

(** *** C25 *)
Theorem C25_extend_keeps_everything : forall infer self other validate,
  let f := snd (extend infer self other validate) in
  length (frows f) = (length (frows self) + length (frows other))%nat
  /\ (forall c, In c (fcols f) <-> In c (fcols self) \/ In c (fcols other))
  /\ (forall i d, (i < length (frows self))%nat ->
        fst (nth i (frows f) d) = fst (nth i (frows self) d)
        /\ forall c, In c (fcols f) ->
             column_value (fcols f) (snd (nth i (frows f) d)) c
             = column_value (fcols self) (snd (nth i (frows self) d)) c)
  /\ (forall i d, (i < length (frows other))%nat ->
        fst (nth (length (frows self) + i) (frows f) d) = fst (nth i (frows other) d)
        /\ forall c, In c (fcols f) ->
             column_value (fcols f) (snd (nth (length (frows self) + i) (frows f) d)) c
             = column_value (fcols other) (snd (nth i (frows other) d)) c).
Proof. exact c25_concat. Qed.
Theorem C25_same_columns_append : forall infer self other validate,
  wf_frame self -> wf_frame other -> fcols other = fcols self ->
  snd (extend infer self other validate) = MkFrame (fcols self) (frows self ++ frows other).
Proof. exact c25_same_columns. Qed.
Theorem C25_validation : forall infer self other,
  (fst (extend infer self other true) = true
   <-> infer (map fst (frows self) ++ map fst (frows other)) = true)
  /\ fst (extend infer self other false) = true.
Proof. exact c25_validation. Qed.
(** A rejected extension does not leave the receiver as it was. *)
Theorem C25_rejected_unchanged_refuted : forall infer self other,
  frows other <> [] -> infer (map fst (frows self) ++ map fst (frows other)) = false ->
  fst (extend infer self other true) = false /\ snd (extend infer self other true) <> self.
Proof.
  intros infer self other H R. split; [|apply c25_rejected_changes, H].
  destruct (fst (extend infer self other true)) eqn:E; [|reflexivity].
  apply (proj1 (c25_validation infer self other)) in E. congruence.
Qed.
Definition regular (l : list Z) : bool :=
  Nat.leb 3 (length l) && forallb (fun g => (0 <? g) && (g =? nth 1 l 0 - nth 0 l 0)) (diffs l).
Example C25_case :
  let a := MkFrame [0%nat] [(0, [Some 1%Q]); (1, [Some 2%Q])] in
  let b := MkFrame [0%nat] [(2, [None])] in
  let c := MkFrame [1%nat] [(5, [Some 3%Q])] in
  extend regular a b true = (true, MkFrame [0%nat] [(0, [Some 1%Q]); (1, [Some 2%Q]); (2, [None])])
  /\ extend regular a c true
     = (false, MkFrame [0; 1]%nat [(0, [Some 1%Q; None]); (1, [Some 2%Q; None]); (5, [None; Some 3%Q])]).
Proof. split; reflexivity. Qed.

(** *** C26 *)
Theorem C26_slice_positions_partial : forall {A} (s : series A) a b,
  in_time_order (rows s) -> 0 <= a -> a <= b -> b <= Z.of_nat (length (rows s)) ->
  rows (getitem s (Some a) (Some b)) = firstn (Z.to_nat (b - a)) (skipn (Z.to_nat a) (rows s)).
Proof. exact @c26_slice. Qed.
Theorem C26_slice_last_partial : forall {A} (s : series A) n,
  in_time_order (rows s) -> 0 < n <= Z.of_nat (length (rows s)) ->
  rows (getitem s (Some (- n)) None) = skipn (length (rows s) - Z.to_nat n) (rows s).
Proof. exact @c26_last. Qed.
Theorem C26_slices_rejoin_partial : forall {A} (s : series A) k,
  in_time_order (rows s) ->
  rows (getitem s None (Some k)) ++ rows (getitem s (Some k) None) = rows s.
Proof. exact @c26_split. Qed.
(** Without the ordering hypothesis the slice has the right rows, but re-ordered. *)
Theorem C26_slice_rows : forall {A} (s : series A) a b,
  Permutation (py_slice (rows s) a b) (rows (getitem s a b)) /\ in_time_order (rows (getitem s a b)).
Proof. exact @c26_any_slice. Qed.
Theorem C26_slices_rejoin_unsorted_refuted : exists (s : series nat) k,
  s = of_rows false false (rows s) /\
  rows (getitem s None (Some k)) ++ rows (getitem s (Some k) None) <> rows s.
Proof. exists (of_rows false false [(2, 0%nat); (1, 1%nat); (3, 2%nat)]), 2. split; [reflexivity|discriminate]. Qed.
Theorem C26_exclude : forall {A} (s : series A) start stop,
  (sort_flag s = true -> in_time_order (rows s)) ->
  rows (exclude s start stop)
  = filter (fun r => negb ((start <=? fst r) && (fst r <=? stop))) (rows s).
Proof. exact @c26_exclude. Qed.
Theorem C26_exclude_rows : forall {A} (s : series A) start stop r,
  In r (rows (exclude s start stop)) <-> In r (rows s) /\ ~ (start <= fst r <= stop).
Proof. exact @c26_exclude_rows. Qed.
Example C26_case :
  let s := of_rows true false [(4, 40); (1, 10); (2, 20); (3, 30); (5, 50)] in
  rows (getitem s (Some 1) (Some 3)) = [(2, 20); (3, 30)]
  /\ rows (getitem s (Some (-2)) None) = [(4, 40); (5, 50)]
  /\ rows (exclude s 2 4) = [(1, 10); (5, 50)].
Proof. repeat split; reflexivity. Qed.

(** *** C27 *)
Theorem C27_series_partial : forall o s1 s2,
  strictly_in_time_order (urows s1) -> map fst (urows s1) = map fst (urows s2) -> uname s1 = uname s2 ->
  exists f, perform_op o s1 (Series s2) = Some f
    /\ fcols f = [uname s1]
    /\ map fst (frows f) = map fst (urows s1)
    /\ forall i d1 d2 d, (i < length (urows s1))%nat ->
        snd (nth i (frows f) d)
        = [expected_cell o (snd (nth i (urows s1) d1)) (snd (nth i (urows s2) d2))].
Proof. exact c27_series. Qed.
Theorem C27_constant_partial : forall o s c,
  strictly_in_time_order (urows s) ->
  exists f, perform_op o s (Const c) = Some f
    /\ fcols f = [uname s]
    /\ map fst (frows f) = map fst (urows s)
    /\ forall i d1 d, (i < length (urows s))%nat ->
        snd (nth i (frows f) d) = [expected_cell o (snd (nth i (urows s) d1)) (Some c)].
Proof. exact c27_constant. Qed.
Theorem C27_different_times_rejected : forall o s1 s2,
  map fst (urows s1) <> map fst (urows s2) -> perform_op o s1 (Series s2) = None.
Proof. exact c27_rejects. Qed.
Theorem C27_other_name_loses_values_refuted : forall o s1 s2 f,
  uname s1 <> uname s2 -> perform_op o s1 (Series s2) = Some f ->
  fcols f = [uname s1; uname s2] /\ forall r, In r (frows f) -> snd r = [None; None].
Proof. exact c27_other_name. Qed.
(** Repeated time stamps multiply rows: adding zero to a two-row series gives four rows. *)
Theorem C27_repeated_times_refuted : exists s f,
  in_time_order (urows s) /\ length (urows s) = 2%nat
  /\ perform_op Add s (Const 0) = Some f /\ length (frows f) = 4%nat.
Proof.
  exists (MkU 0 [(0, Some 1%Q); (0, Some 2%Q)]). eexists. split; [|split; [reflexivity|split; reflexivity]].
  unfold in_time_order. simpl. repeat constructor; lia.
Qed.
Example C27_case :
  let s1 := MkU 0 [(0, Some 6%Q); (1, None); (2, Some 3%Q)] in
  let s2 := MkU 0 [(0, Some 2%Q); (1, Some 1%Q); (2, Some 0%Q)] in
  strictly_in_time_order (urows s1)
  /\ perform_op Sub s1 (Series s2)
     = Some (MkFrame [0%nat] [(0, [Some (6 - 2)%Q]); (1, [None]); (2, [Some (3 - 0)%Q])])
  /\ perform_op Div s1 (Series s2)
     = Some (MkFrame [0%nat] [(0, [Some (6 / 2)%Q]); (1, [None]); (2, [None])]).
Proof. split; [|split; reflexivity]. unfold strictly_in_time_order. simpl. repeat constructor; lia. Qed.

(** *** C28 *)
Theorem C28_most_common_gap_partial : forall {A} (s : series A) (sorted : list Z),
  (sort_flag s = true -> in_time_order (rows s)) ->
  Permutation (map fst (rows s)) sorted -> StronglySorted Z.le sorted ->
  match infer_freq_robust s with
  | None => (length (rows s) <= 1)%nat
  | Some g => neighbour_gap g sorted /\
      (forall h, (gap_count h sorted < gap_count g sorted)%nat
                 \/ (gap_count h sorted = gap_count g sorted /\ g <= h))
  end.
Proof. exact @c28_robust. Qed.
Theorem C28_majority_partial : forall {A} (s : series A) (sorted : list Z) g,
  (sort_flag s = true -> in_time_order (rows s)) ->
  Permutation (map fst (rows s)) sorted -> StronglySorted Z.le sorted ->
  (length sorted - 1 < 2 * gap_count g sorted)%nat ->
  infer_freq_robust s = Some g.
Proof. exact @c28_majority. Qed.
(** After an extension with earlier points the reported frequency can be negative:
    the stored rows are no longer in order although the flag says so. *)
Theorem C28_after_extend_refuted : exists (a b c : series nat) g,
  a = of_rows true false (rows a) /\ b = of_rows true false (rows b) /\ c = of_rows true false (rows c)
  /\ infer_freq_robust (append_rows (append_rows a b) c) = Some g /\ g < 0.
Proof.
  exists (of_rows true false [(5, 0%nat)]), (of_rows true false [(3, 0%nat)]),
         (of_rows true false [(1, 0%nat)]), (-2). repeat split; reflexivity.
Qed.
Example C28_case :
  infer_freq_robust (of_rows true false [(7, 0%nat); (1, 0%nat); (2, 0%nat); (3, 0%nat); (5, 0%nat)]) = Some 1
  /\ infer_freq_robust (of_rows false false [(7, 0%nat); (1, 0%nat); (2, 0%nat); (3, 0%nat); (5, 0%nat)]) = Some 1
  /\ infer_freq_robust (of_rows true false [(7, 0%nat)]) = None.
Proof. repeat split; reflexivity. Qed.

Print Assumptions C24_sorted_permutation.
Print Assumptions C24_drop_duplicates.
Print Assumptions C25_extend_keeps_everything.
Print Assumptions C25_same_columns_append.
Print Assumptions C26_slices_rejoin_partial.
Print Assumptions C26_exclude.
Print Assumptions C27_series_partial.
Print Assumptions C27_constant_partial.
Print Assumptions C28_most_common_gap_partial.
Print Assumptions C28_majority_partial.

Print Assumptions C24_unsorted.
Print Assumptions C24_columns.
Print Assumptions C25_validation.
Print Assumptions C25_rejected_unchanged_refuted.
Print Assumptions C26_slice_positions_partial.
Print Assumptions C26_slice_last_partial.
Print Assumptions C26_slice_rows.
Print Assumptions C26_slices_rejoin_unsorted_refuted.
Print Assumptions C26_exclude_rows.
Print Assumptions C27_different_times_rejected.
Print Assumptions C27_other_name_loses_values_refuted.
Print Assumptions C27_repeated_times_refuted.
Print Assumptions C28_after_extend_refuted.
