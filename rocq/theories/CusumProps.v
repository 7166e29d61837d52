(** Property theorems C12, C13, C14, C65, C66, C67 (kats/detectors/cusum_detection.py, cusum_model.py). *)
From Verif Require Import Common PySlice CusumModel CusumSpec CusumProofs CusumStateProofs.
From Coq Require Import Sorted.
Open Scope Z_scope.

(** C12. The change point leaves at least one point on each side and the reported means are the means
    of the two sides: the search over the whole series, and the search in an interest window. *)
Theorem C12_splits_partial d ts max_iter start cp :
  3 <= Z.of_nat (length ts) -> (1 <= max_iter)%nat ->
  get_change_point d ts None max_iter start = Some cp ->
  1 <= cp_index cp <= Z.of_nat (length ts) - 2 /\
  exists before after m0 m1, ts = before ++ after /\ Z.of_nat (length before) = cp_index cp + 1 /\ after <> [] /\
    cp_mu0 cp = Some m0 /\ cp_mu1 cp = Some m1 /\ is_mean m0 before /\ is_mean m1 after.
Proof. exact (search_splits d ts max_iter start cp). Qed.
Theorem C12_window_partial d ts a b max_iter start cp :
  0 <= a -> a + 3 <= b -> b <= Z.of_nat (length ts) -> (1 <= max_iter)%nat ->
  get_change_point d ts (Some (a, b)) max_iter start = Some cp ->
  a + 1 <= cp_index cp <= b - 2 /\
  exists before after m0 m1, ts = before ++ after /\ Z.of_nat (length before) = cp_index cp + 1 /\ after <> [] /\
    cp_mu0 cp = Some m0 /\ cp_mu1 cp = Some m1 /\ is_mean m0 before /\ is_mean m1 after.
Proof. exact (search_window d ts a b max_iter start cp). Qed.
Theorem C12_defined d ts window max_iter start :
  (match window with Some (a, b) => py_slice ts (Some a) (Some b) | None => ts end) <> [] \/ start <> None ->
  exists cp, get_change_point d ts window max_iter start = Some cp.
Proof. exact (search_defined d ts window max_iter start). Qed.
Theorem C12_stable_is_fixed_point d ts max_iter start cp :
  get_change_point d ts None max_iter start = Some cp -> cp_stable cp = true ->
  cp_update d ts (cp_index cp) = cp_index cp.
Proof. exact (search_stable d ts max_iter start cp). Qed.
(** The full statement (at least two points) fails: with two points the change point is the last
    point and the mean after it is NaN. *)
Theorem C12_two_points_refuted d x y max_iter : (2 <= max_iter)%nat ->
  exists cp, get_change_point d [x; y] None max_iter None = Some cp /\ cp_index cp = 1 /\ cp_mu1 cp = None.
Proof. exact (two_points d x y max_iter). Qed.
(** The same with a two-point scan window at the end of any series; no change is then ever reported. *)
Theorem C12_two_point_window_refuted d ts max_iter : (2 <= length ts)%nat -> (2 <= max_iter)%nat ->
  let n := Z.of_nat (length ts) in
  exists cp, get_change_point d ts (Some (n - 2, n)) max_iter None = Some cp /\ cp_index cp = n - 1 /\ cp_mu1 cp = None /\
    forall sig sig_int mag min_abs std ratio, regression_detected d cp sig sig_int mag min_abs std ratio = false.
Proof. exact (two_point_window d ts max_iter). Qed.
Example C12_case : exists cp, get_change_point Increase [1; 2; 1; 9; 8; 9]%Q None 10 None = Some cp /\
  cp_index cp = 2 /\ cp_stable cp = true.
Proof. eexists. split; [vm_compute; reflexivity|]. split; reflexivity. Qed.
Example C12_window_case : exists cp, get_change_point Decrease [5; 5; 5; 5; 1; 1]%Q (Some (2, 6)) 10 None = Some cp /\
  cp_index cp = 3.
Proof. eexists. split; [vm_compute; reflexivity|]. reflexivity. Qed.

(** C65. A stable change point strictly inside the search range is the best two-level split for its
    own means, and its means are ordered in the searched direction. *)
Theorem C65_best_split d ts max_iter start cp m0 m1 :
  get_change_point d ts None max_iter start = Some cp -> cp_stable cp = true ->
  1 < cp_index cp < Z.of_nat (length ts) - 2 ->
  cp_mu0 cp = Some m0 -> cp_mu1 cp = Some m1 ->
  (match d with Increase => m0 <= m1 | Decrease => m1 <= m0 end)%Q /\
  forall k, (k < length ts)%nat ->
    (two_level_error ts (Z.to_nat (cp_index cp)) m0 m1 <= two_level_error ts k m0 m1)%Q.
Proof. exact (stable_best d ts max_iter start cp m0 m1). Qed.
Theorem C65_regression_direction d cp sig sig_int mag min_abs std ratio :
  regression_detected d cp sig sig_int mag min_abs std ratio = true ->
  exists m0 m1, cp_mu0 cp = Some m0 /\ cp_mu1 cp = Some m1 /\
    (match d with Increase => min_abs < m1 - m0 | Decrease => min_abs < m0 - m1 end)%Q /\
    (std * ratio < Qabs (m1 - m0))%Q /\ sig = true /\ sig_int = true /\ mag = true.
Proof. exact (regression_direction d cp sig sig_int mag min_abs std ratio). Qed.
Example C65_case : exists cp, get_change_point Increase [1; 2; 1; 9; 8; 9]%Q None 10 None = Some cp /\
  cp_stable cp = true /\ 1 < cp_index cp < 4 /\ cp_mu0 cp <> None /\ cp_mu1 cp <> None /\
  regression_detected Increase cp true true true 0 1 1 = true.
Proof. eexists. split; [vm_compute; reflexivity|]. cbn. repeat split; try lia; discriminate. Qed.

(** C13. Every history of scans from a fresh model runs without exception, and in every reachable state
    at most ten change points are kept, a firing alert has a change point and a direction, and the
    counter of normal scans is zero. *)
Theorem C13_reachable dirs ratio adapted l :
  exists s, run dirs ratio adapted init l = Some s /\
    (length (cps s) <= 10)%nat /\ (alert_fired s = true -> cps s <> [] /\ alert_direction s <> None) /\
    number_of_normal_scan s = 0.
Proof. exact (run_from_init dirs ratio adapted l). Qed.
(** The transition of any reachable state on one more scan. *)
Theorem C13_step dirs ratio adapted l sc :
  exists s s', run dirs ratio adapted init l = Some s /\ run dirs ratio adapted init (l ++ [sc]) = Some s' /\
  (alert_fired s = false ->
     (s_enough sc = true /\ s_found sc <> [] ->
        exists f, In f (s_found sc) /\ (forall g, In g (s_found sc) -> f_time f <= f_time g) /\
          alert_fired s' = true /\ cps s' = last_n 10 (cps s ++ [f_time f]) /\
          alert_direction s' = Some (f_dir f) /\ pre_mean s' = f_mean f /\ pre_std s' = f_std f) /\
     (s_enough sc = false \/ s_found sc = [] -> s' = s)) /\
  (alert_fired s = true ->
     cps s' = cps s /\ alert_direction s' = alert_direction s /\
     exists normal, if_normal (baseline adapted s sc) (s_cur_mean sc) dirs ratio = Some normal /\
       (alert_fired s' = false <-> normal = true \/ 3600 * 24 * 7 < s_time sc - last (cps s) 0)).
Proof. exact (reachable_step dirs ratio adapted l sc). Qed.
(** Stored change points are among those the scans reported. *)
Theorem C13_change_points_were_found dirs ratio adapted l s t :
  run dirs ratio adapted init l = Some s -> In t (cps s) ->
  exists sc f, In sc l /\ In f (s_found sc) /\ f_time f = t.
Proof.
  intros H Ht. destruct (cps_from_scans dirs ratio adapted l init s init_inv H t Ht) as [[]|]; auto.
Qed.
(** What back to normal means when both directions are watched. *)
Theorem C13_normal s c m sd d ratio :
  alert_direction s = Some d -> pre_mean s = Some m -> pre_std s = Some sd ->
  if_normal s (Some c) None ratio = Some true <->
  match d with Increase => (m - ratio * sd <= c /\ c <= m)%Q | Decrease => (m <= c /\ c <= m + ratio * sd)%Q end.
Proof. exact (normal_meaning s c m sd d ratio). Qed.
Definition ex_found t := {| f_time := t; f_dir := Increase; f_mean := Some 1%Q; f_std := Some 1%Q |}.
Definition ex_scan t fs c := {| s_enough := true; s_found := fs; s_cur_mean := Some c;
  s_hist_mean := Some 1%Q; s_hist_std := Some 1%Q; s_time := t |}.
Example C13_case : option_map (fun s => (alert_fired s, cps s))
   (run None 1%Q false init [ex_scan 10 [ex_found 7; ex_found 4] 5%Q; ex_scan 20 [ex_found 15] 5%Q]) = Some (true, [4]) /\
  option_map (fun s => (alert_fired s, cps s))
   (run None 1%Q false init [ex_scan 10 [ex_found 7; ex_found 4] 5%Q; ex_scan 20 [] 1%Q; ex_scan 30 [ex_found 29] 1%Q]) = Some (true, [4; 29]).
Proof. vm_compute. auto. Qed.

(** C67. The alert ends when the scan mean is back at the baseline mean. Refuted for one watched
    direction and a constant history: the band is inf * 0 = NaN and no scan is ever normal. *)
Theorem C67_clears_partial s c d ratio m sd dirs :
  alert_direction s = Some d -> pre_mean s = Some m -> pre_std s = Some sd ->
  (c == m)%Q -> (0 <= ratio)%Q -> (0 <= sd)%Q -> (dirs = None \/ (dirs = Some [d] /\ ~ (sd == 0)%Q)) ->
  if_normal s (Some c) dirs ratio = Some true.
Proof. exact (normal_at_baseline s c d ratio m sd dirs). Qed.
Theorem C67_one_direction s c m sd d ratio :
  alert_direction s = Some d -> pre_mean s = Some m -> pre_std s = Some sd -> ~ (sd == 0)%Q ->
  if_normal s (Some c) (Some [d]) ratio = Some true <->
  match d with Increase => (c <= m)%Q | Decrease => (m <= c)%Q end.
Proof. exact (normal_one_sided s c m sd d ratio). Qed.
Theorem C67_constant_history_refuted s c d ratio sd :
  alert_direction s = Some d -> pre_std s = Some sd -> (sd == 0)%Q ->
  if_normal s c (Some [d]) ratio = Some false.
Proof. exact (normal_zero_std s c d ratio sd). Qed.
Example C67_case :
  let f := {| f_time := 4; f_dir := Increase; f_mean := Some 1%Q; f_std := Some 0%Q |} in
  option_map alert_fired (run (Some [Increase]) 1%Q false init [ex_scan 10 [f] 5%Q; ex_scan 20 [] 1%Q]) = Some true /\
  option_map alert_fired (run None 1%Q false init [ex_scan 10 [f] 5%Q; ex_scan 20 [] 1%Q]) = Some false.
Proof. vm_compute. auto. Qed.

(** C14. Cutting into overlapping columns and flattening the last rows of each column gives every scored
    row once and in order. *)
Theorem C14_round_trip (A : Type) (org : list A) L s d : 0 < s -> s <= L -> 0 <= d ->
  Z.of_nat (length org) = L + d * s ->
  length (reorganize_big_data org L s) = S (Z.to_nat d) /\
  (forall c, In c (reorganize_big_data org L s) -> Z.of_nat (length c) = L) /\
  reorganize_back (last_rows s (reorganize_big_data org L s)) = skipn (Z.to_nat (L - s)) org.
Proof. exact (block_roundtrip org L s d). Qed.
(** Within the whole call: the rows from the first scored row p on are those scored by the vectorised
    path followed by fewer than one step of remaining rows. *)
Theorem C14_vectorised_path (A : Type) (vals : list A) p n_hist n_step :
  0 <= n_hist <= p -> 0 < n_step -> p + 2 * n_step <= Z.of_nat (length vals) ->
  let '(scored, rest) := vectorised_rows vals p n_hist n_step in
  scored ++ rest = skipn (Z.to_nat p) vals /\ Z.of_nat (length rest) < n_step /\
  Z.of_nat (length scored) = vec_dim vals p n_step * n_step.
Proof. exact (vectorised_covers vals p n_hist n_step). Qed.
(** Points per step: positive, and the step window in sampling intervals. *)
Theorem C14_step_points hw sw f : 0 < f -> f <= sw ->
  1 <= multi_ts_len hw sw f - n_hist_win_pts hw f /\
  ((f | hw) -> (f | sw) -> multi_ts_len hw sw f - n_hist_win_pts hw f = sw / f).
Proof. intros Hf Hs. split; [exact (step_points_positive hw sw f Hf Hs)|exact (step_points_exact hw sw f Hf)]. Qed.
Example C14_case : vectorised_rows [0; 1; 2; 3; 4; 5; 6; 7; 8; 9] 3 2 3 = ([3; 4; 5; 6; 7; 8], [9]) /\
  reorganize_big_data [1; 2; 3; 4; 5; 6; 7; 8] 5 3 = [[1; 2; 3; 4; 5]; [4; 5; 6; 7; 8]].
Proof. vm_compute. auto. Qed.

(** C66. Without the vectorised path: when the call returns, the rows scored (leading zeros, the ranges
    of the step loop, the remaining rows) tile the given data. It raises only when the loop is empty and
    the data reach exactly the end of the historical window. *)
Theorem C66_tiles_partial times org hw scan_w step freq a rs :
  StronglySorted Z.lt times -> 0 <= org < Z.of_nat (length times) -> 0 < step -> 0 <= hw ->
  scored_rows times org hw scan_w step freq = Some (a, rs) ->
  0 <= a /\ tiles (org + a) (Z.of_nat (length times)) rs.
Proof.
  intros Hs Ho Hst Hhw H.
  destruct (scored_rows_cases times org hw scan_w step freq Hs Ho Hst Hhw) as [[_ E]|[_ [_ [a' [s1 [Ha [_ [_ [_ [_ [[E _]|[rs' [E [T _]]]]]]]]]]]]]].
  - rewrite E in H. injection H as <- <-. split; [lia|]. cbn [tiles]. split; [lia|]. split; [lia|reflexivity].
  - congruence.
  - rewrite E in H. injection H as <- <-. auto.
Qed.
(** The rows scored zero are those before the end of the historical window. *)
Theorem C66_zero_rows_partial times org hw scan_w step freq a rs :
  StronglySorted Z.lt times -> 0 <= org < Z.of_nat (length times) -> 0 < step -> 0 <= hw ->
  scored_rows times org hw scan_w step freq = Some (a, rs) ->
  forall j, 0 <= j < a -> nth (Z.to_nat (org + j)) times 0 < nth 0 times 0 + hw.
Proof.
  intros Hs Ho Hst Hhw H j Hj.
  destruct (scored_rows_cases times org hw scan_w step freq Hs Ho Hst Hhw) as [[_ E]|[_ [_ [a' [s1 [Ha [Ha2 [_ [_ [Hb [[E _]|[rs' [E [T _]]]]]]]]]]]]]].
  - rewrite E in H. injection H as <- <-. lia.
  - congruence.
  - rewrite E in H. injection H as <- <-. specialize (Hb j Hj).
    assert (nth (Z.to_nat org) times 0 <= nth (Z.to_nat (org + j)) times 0) by (apply sorted_nth_le; auto; lia).
    lia.
Qed.
(** When it raises. *)
Theorem C66_raises_only_partial times org hw scan_w step freq :
  StronglySorted Z.lt times -> 0 <= org < Z.of_nat (length times) -> 0 < step -> 0 <= hw ->
  scored_rows times org hw scan_w step freq = None ->
  nth (length times - 1) times 0 + freq - step < nth 0 times 0 + hw /\ In (nth 0 times 0 + hw) times.
Proof.
  intros Hs Ho Hst Hhw H.
  destruct (scored_rows_cases times org hw scan_w step freq Hs Ho Hst Hhw) as [[_ E]|[_ [_ [a' [s1 [Ha [Ha2 [Es [_ [Hb [[E [H1 H2]]|[rs' [E [T _]]]]]]]]]]]]]]; try congruence.
  split; [lia|]. rewrite <- H2, Es. apply nth_In. lia.
Qed.
(** Hourly data, a 48 h historical window and a 6 h step: 50 points make the call fail. *)
Theorem C66_crash_refuted :
  scored_rows (map Z.of_nat (seq 0 50)) 0 48 24 6 1 = None.
Proof. vm_compute. reflexivity. Qed.
Example C66_case : scored_rows (map Z.of_nat (seq 0 20)) 0 8 4 3 1
  = Some (8, [(8, 11); (11, 14); (14, 17); (17, 20)]) /\
  scored_rows (map Z.of_nat (seq 0 21)) 2 8 4 3 1
  = Some (6, [(8, 11); (11, 14); (14, 17); (17, 20); (20, 21)]).
Proof. vm_compute. auto. Qed.

Print Assumptions C12_splits_partial.
Print Assumptions C65_best_split.
Print Assumptions C13_step.
Print Assumptions C14_vectorised_path.
Print Assumptions C66_tiles_partial.
Print Assumptions C67_constant_history_refuted.

Print Assumptions C12_window_partial.
Print Assumptions C12_defined.
Print Assumptions C12_stable_is_fixed_point.
Print Assumptions C12_two_points_refuted.
Print Assumptions C12_two_point_window_refuted.
Print Assumptions C65_regression_direction.
Print Assumptions C13_reachable.
Print Assumptions C13_change_points_were_found.
Print Assumptions C13_normal.
Print Assumptions C67_clears_partial.
Print Assumptions C67_one_direction.
Print Assumptions C14_round_trip.
Print Assumptions C14_step_points.
Print Assumptions C66_zero_rows_partial.
Print Assumptions C66_raises_only_partial.
Print Assumptions C66_crash_refuted.
