(** Property theorems C07-C11, C62, C64 (kats/utils/backtesters.py, kats/utils/datapartition.py). *)
From Verif Require Import Common PySlice BacktestModel BacktestSpec BacktestProofs PartitionProofs.
From Coq Require Import Sorted.
Open Scope Z_scope.

(** C07. Fold geometry of the three window backtesters. *)
Theorem C07_simple size a b trs tes : simple_splits size a b = Some (trs, tes) ->
  exists train test,
    is_percent_of size a train /\ is_percent_of size b test /\
    trs = [(0, train)] /\ tes = [(train, train + test)] /\
    causal_fold size 0 test (0, train) (train, train + test).
Proof. exact (simple_folds size a b trs tes). Qed.

Theorem C07_fixed_window size a b w trs tes : 0 <= size -> fixed_window_ctor a b w = true ->
  fixed_window_splits size a b w = Some (trs, tes) ->
  exists train test gap,
    is_percent_of size a train /\ is_percent_of size b test /\ is_percent_of size w gap /\
    trs = [(0, train)] /\ tes = [(train + gap, train + gap + test)] /\
    causal_fold size gap test (0, train) (train + gap, train + gap + test).
Proof. exact (fixed_folds size a b w trs tes). Qed.

Theorem C07_rolling_origin size a b steps const trs tes :
  rolling_splits size a b steps const = Some (trs, tes) ->
  exists train test,
    is_percent_of size a train /\ is_percent_of size b test /\
    length trs = Z.to_nat steps /\ length tes = Z.to_nat steps /\
    forall i, (i < Z.to_nat steps)%nat ->
      causal_fold size 0 test (nth i trs (0, 0)) (nth i tes (0, 0)) /\
      (if const then snd (nth i trs (0, 0)) - fst (nth i trs (0, 0)) = train
       else fst (nth i trs (0, 0)) = 0) /\
      (i = 0%nat -> snd (nth i trs (0, 0)) = train) /\
      (2 <= steps -> S i = Z.to_nat steps -> snd (nth i tes (0, 0)) = size).
Proof. exact (rolling_folds size a b steps const trs tes). Qed.

(** The rows a model is trained on and compared with, not only their bounds. *)
Theorem C07_rolling_rows forecast data off a b steps const trs tes rs :
  rolling_splits (Z.of_nat (length data)) a b steps const = Some (trs, tes) ->
  create_models forecast data off trs tes = Some rs ->
  exists train test,
    is_percent_of (Z.of_nat (length data)) a train /\ is_percent_of (Z.of_nat (length data)) b test /\
    length rs = Z.to_nat steps /\
    forall r, In r rs -> exists before after,
      data = before ++ fr_train r ++ fr_truth r ++ after /\ fr_train r <> [] /\
      Z.of_nat (length (fr_truth r)) = test /\
      (if const then Z.of_nat (length (fr_train r)) = train else before = []).
Proof. exact (rolling_rows forecast data off a b steps const trs tes rs). Qed.

(** The splits exist whenever the percentages leave at least one training and one test row. *)
Theorem C07_simple_defined size a b : 0 <= size ->
  simple_ctor a b = true -> (a + b <= 100)%Q ->
  (100 <= inject_Z size * a)%Q -> (100 <= inject_Z size * b)%Q ->
  exists sp, simple_splits size a b = Some sp.
Proof. exact (simple_succeeds size a b). Qed.
Theorem C07_rolling_defined size a b steps const : 0 <= size ->
  rolling_ctor a b steps = true -> 1 <= steps ->
  (100 <= inject_Z size * a)%Q -> (100 <= inject_Z size * b)%Q ->
  exists sp, rolling_splits size a b steps const = Some sp.
Proof. exact (rolling_succeeds size a b steps const). Qed.
Theorem C07_fixed_defined size a b w : 0 <= size ->
  fixed_window_ctor a b w = true -> (a + b + w <= 100)%Q ->
  (100 <= inject_Z size * a)%Q -> (100 <= inject_Z size * b)%Q ->
  exists sp, fixed_window_splits size a b w = Some sp.
Proof. exact (fixed_succeeds size a b w). Qed.

Example C07_example : rolling_splits 144 60 20 4 true
  = Some ([(0, 86); (10, 96); (20, 106); (30, 116)], [(86, 114); (96, 124); (106, 134); (116, 144)]).
Proof. reflexivity. Qed.
Example C07_example_rows :
  create_models (fun tr k => Some (repeat (last tr 0%Q) (Z.to_nat k))) [1; 2; 3; 4; 5]%Q 0
    [(0, 3); (1, 4)] [(3, 4); (4, 5)]
  = Some [{| fr_train := [1; 2; 3]; fr_truth := [4]; fr_pred := [3] |};
          {| fr_train := [2; 3; 4]; fr_truth := [5]; fr_pred := [4] |}]%Q.
Proof. reflexivity. Qed.

(** C08. *)
Theorem C08_backtester_offsets L k l : 0 <= L -> fold_offsets 0 L k = Some l ->
  Z.of_nat (length l) = k /\ evenly_spread L l.
Proof. exact (fold_offsets_spread L k l). Qed.
Theorem C08_offsets_defined start stop k : fold_offsets start stop k = None <-> k <= 1.
Proof. exact (fold_offsets_none start stop k). Qed.
Theorem C08_partition_offsets L k l : 0 <= L -> 2 <= k -> linspace_int L k = Some l ->
  Z.of_nat (length l) = k /\ evenly_spread L l.
Proof. exact (linspace_spread L k l). Qed.
Theorem C08_partition_folds n ftr fte fwi steps const bs :
  0 <= n -> 2 <= steps -> rolling_dp_ctor ftr fte fwi steps = true ->
  rolling_dp_bounds n ftr fte fwi steps const = Some bs ->
  Z.of_nat (length bs) = steps /\
  exists offs, evenly_spread (n - frac_size n ftr - frac_size n fte - frac_size n fwi) offs /\ length offs = length bs /\
  forall i, (i < length bs)%nat ->
    let b := nth i bs ((0,0),(0,0)) in let o := nth i offs 0 in
    snd (fst b) = o + frac_size n ftr /\ fst (fst b) = (if const then o else 0) /\
    fst (snd b) = snd (fst b) + frac_size n fwi /\ snd (snd b) = fst (snd b) + frac_size n fte /\
    0 <= fst (fst b) /\ fst (fst b) <= snd (fst b) /\ snd (fst b) <= fst (snd b) /\
    fst (snd b) <= snd (snd b) /\ snd (snd b) <= n.
Proof. exact (rolling_dp_folds n ftr fte fwi steps const bs). Qed.
Example C08_example : fold_offsets 0 11 4 = Some [0; 4; 8; 11] /\ linspace_int 11 4 = Some [0; 3; 7; 11].
Proof. split; reflexivity. Qed.

(** C09. One score vector per fold; failing folds get the error score, the others keep theirs. *)
Theorem C09_one_score_per_fold_partial es w rs folds summary : summarize es w rs = Some (folds, summary) ->
  length folds = length rs /\
  exists k, length summary = k /\ (exists n s, In (Some (n, s)) rs /\ length s = k) /\
  forall i, (i < length rs)%nat ->
    nth i folds [] = match nth i rs None with Some (_, s) => s | None => repeat es k end.
Proof. exact (summarize_folds es w rs folds summary). Qed.
Theorem C09_all_failing_raises es w rs : (forall r, In r rs -> r = None) -> summarize es w rs = None.
Proof. exact (summarize_all_failed es w rs). Qed.
(** Average summary: defined as soon as one fold succeeds, and the NaN-aware mean of the column. *)
Theorem C09_average_partial es rs k :
  (exists n s, In (Some (n, s)) rs) -> (forall n s, In (Some (n, s)) rs -> length s = k) ->
  exists folds summary, summarize es false rs = Some (folds, summary) /\
    (forall m, (m < k)%nat -> is_nan_mean (nth m summary None) (map (fun f => nth m f None) folds)).
Proof. exact (summarize_average_total es rs k). Qed.
(** Weighted summary: refuted with any failing fold (the whole call raises), proved when every
    fold succeeds with numeric scores. *)
Theorem C09_weighted_refuted es rs : In None rs -> summarize es true rs = None.
Proof. exact (summarize_weighted_fails es rs). Qed.
Theorem C09_weighted_partial es ps k : ps <> [] ->
  (forall p, In p ps -> length (snd p) = k) -> (0 < qsum (map (fun n => inject_Z (Z.of_nat n)) (map fst ps)))%Q ->
  exists summary,
    summarize es true (map (fun p => Some (fst p, map Some (snd p))) ps) = Some (map (fun p => map Some (snd p)) ps, summary) /\
    length summary = k /\
    forall m, (m < k)%nat -> exists v, nth m summary None = Some v /\
      is_weighted_mean v (map fst ps) (map (fun p => nth m (snd p) 0%Q) ps).
Proof. exact (summarize_weighted es ps k). Qed.
(** Weighted summary with a NaN score: the only valid score is 1, the reported summary is 1/2. *)
Theorem C09_weighted_nan_refuted :
  exists rs folds v, summarize None true rs = Some (folds, [Some v]) /\
    (forall n s, In (Some (n, s)) rs -> s = [None] \/ s = [Some 1%Q]) /\ (v == 1 # 2)%Q.
Proof.
  exists [Some (1%nat, [Some 1%Q]); Some (3%nat, [None])]. do 2 eexists. split; [reflexivity|].
  split; [|reflexivity]. intros n s [H|[H|[]]]; injection H as <- <-; auto.
Qed.
Example C09_example :
  summarize None false [Some (2%nat, [Some 4%Q]); None; Some (2%nat, [Some 2%Q])]
  = Some ([[Some 4%Q]; [None]; [Some 2%Q]], [Some ((4 * 1 + (2 * 1 + 0)) / inject_Z 2)%Q]).
Proof. reflexivity. Qed.

(** C10. *)
Theorem C10_train_frac_partial {A} (data : list A) f tr te : ~ (f == 0)%Q ->
  simple_dp_split data (Some f) None None None = Some (tr, te) -> tr ++ te = data.
Proof. exact (simple_partition data f tr te). Qed.
Theorem C10_train_size {A} (data : list A) z tr te :
  simple_dp_split data None None (Some z) None = Some (tr, te) -> tr ++ te = data.
Proof. exact (simple_partition_size data z tr te). Qed.
Theorem C10_train_length {A} (data : list A) f tr te : (0 < f)%Q -> (f <= 1)%Q ->
  simple_dp_split data (Some f) None None None = Some (tr, te) ->
  Z.of_nat (length tr) = frac_size (Z.of_nat (length data)) f.
Proof. exact (simple_partition_len data f tr te). Qed.
Theorem C10_frac_size n f : 0 <= n -> (0 <= f)%Q -> (f <= 1)%Q ->
  0 <= frac_size n f <= n /\ (inject_Z (frac_size n f) <= inject_Z n * f)%Q /\
  (inject_Z n * f < inject_Z (frac_size n f + 1))%Q.
Proof. exact (frac_size_bounds n f). Qed.
Theorem C10_explicit_test {A} (data : list A) tf te_f ts te_s tr te :
  simple_dp_ctor tf te_f ts te_s = true ->
  (forall f, tf = Some f -> 0 < f /\ f <= 1)%Q -> (forall z, ts = Some z -> 0 < z) ->
  (forall f, te_f = Some f -> 0 < f /\ f <= 1)%Q -> (forall z, te_s = Some z -> 0 < z) ->
  simple_dp_split data tf te_f ts te_s = Some (tr, te) ->
  exists rest, tr ++ te ++ rest = data.
Proof. exact (simple_partition_test_size data tf te_f ts te_s tr te). Qed.
(** A training fraction of 0.0 is accepted and both parts are the whole series. *)
Theorem C10_zero_frac_refuted {A} (data : list A) :
  simple_dp_ctor (Some 0%Q) None None None = true /\
  simple_dp_split data (Some 0%Q) None None None = Some (data, data).
Proof. exact (simple_partition_zero data). Qed.
Theorem C10_rolling_rows {A} (data : list A) ftr fte fwi steps const folds :
  2 <= steps -> rolling_dp_ctor ftr fte fwi steps = true ->
  rolling_dp_split data ftr fte fwi steps const = Some folds ->
  Z.of_nat (length folds) = steps /\
  forall i, (i < length folds)%nat ->
    exists before gap after,
      data = before ++ fst (nth i folds ([], [])) ++ gap ++ snd (nth i folds ([], [])) ++ after /\
      Z.of_nat (length gap) = frac_size (Z.of_nat (length data)) fwi /\
      Z.of_nat (length (snd (nth i folds ([], [])))) = frac_size (Z.of_nat (length data)) fte /\
      (if const then Z.of_nat (length (fst (nth i folds ([], [])))) = frac_size (Z.of_nat (length data)) ftr
       else before = []).
Proof. exact (rolling_dp_content data ftr fte fwi steps const folds). Qed.
Example C10_example : simple_dp_split [1; 2; 3; 4; 5] (Some (3 # 5)%Q) None None None = Some ([1; 2; 3], [4; 5]).
Proof. reflexivity. Qed.
Example C10_example_rolling : rolling_dp_split [1; 2; 3; 4; 5; 6; 7; 8; 9; 10] (1 # 2) (1 # 5) (1 # 10) 3 true
  = Some [([1; 2; 3; 4; 5], [7; 8]); ([2; 3; 4; 5; 6], [8; 9]); ([3; 4; 5; 6; 7], [9; 10])].
Proof. reflexivity. Qed.

(** C11. Refuted: a second run doubles every error. The first run from a fresh object is the
    row-count weighted mean of the fold errors. *)
Theorem C11_second_run_refuted forecast methods data off multi sp st :
  run_backtest forecast methods data off multi sp (bt_init (length methods)) = Some st ->
  exists st2, run_backtest forecast methods data off multi sp st = Some st2 /\
    forall i, (i < length methods)%nat -> (nth i (bt_errors st2) 0 == 2 * nth i (bt_errors st) 0)%Q.
Proof. exact (second_run_doubles forecast methods data off multi sp st). Qed.
Theorem C11_first_run_partial forecast methods data off multi sp st :
  run_backtest forecast methods data off multi sp (bt_init (length methods)) = Some st ->
  bt_results st <> [] /\ length (bt_errors st) = length methods /\
  forall i, (i < length methods)%nat ->
    is_weighted_mean (nth i (bt_errors st) 0%Q) (map (fun r => length (fr_truth r)) (bt_results st))
      (map (fun r => nth i methods (fun _ _ => 0%Q) (fr_truth r) (fr_pred r)) (bt_results st)).
Proof. exact (first_run_mean forecast methods data off multi sp st). Qed.
Definition abs_err (t p : list Q) : Q := qsum (map (fun x => Qabs (fst x - snd x)) (combine t p)).
Example C11_example :
  exists st st2,
    run_backtest (fun tr k => Some (repeat (last tr 0%Q) (Z.to_nat k))) [abs_err] [1; 2; 3; 4; 5]%Q 0 false
      ([(0, 3)], [(3, 5)]) (bt_init 1) = Some st /\
    run_backtest (fun tr k => Some (repeat (last tr 0%Q) (Z.to_nat k))) [abs_err] [1; 2; 3; 4; 5]%Q 0 false
      ([(0, 3)], [(3, 5)]) st = Some st2 /\
    (nth 0 (bt_errors st) 0 == 3)%Q /\ (nth 0 (bt_errors st2) 0 == 6)%Q.
Proof. do 2 eexists. split; [reflexivity|]. split; [reflexivity|]. split; reflexivity. Qed.

(** C62. With the gap as offset (fixed window; gap 0 for the others) the j-th truth is row
    train_end + gap + j and is compared with the forecast for step gap + j after the training end. *)
Theorem C62_alignment_partial forecast data gap n_test te r f j :
  create_model forecast data gap (0, te) (te + gap, te + gap + n_test) = Some r ->
  forecast (fr_train r) (n_test + gap) = Some f -> Z.of_nat (length f) = n_test + gap ->
  0 <= gap -> 0 <= j < n_test ->
  nth (Z.to_nat j) (fr_truth r) 0%Q = nth (Z.to_nat (te + gap + j)) data 0%Q /\
  nth (Z.to_nat j) (fr_pred r) 0%Q = nth (Z.to_nat (gap + j)) f 0%Q.
Proof. exact (alignment forecast data gap n_test te r f j). Qed.
(** Refuted for simple/rolling backtests given an offset: truth j (step j after the training end)
    is compared with the forecast for step off + j. *)
Theorem C62_offset_refuted forecast data off n_test te r f j :
  create_model forecast data off (0, te) (te, te + n_test) = Some r ->
  forecast (fr_train r) (n_test + off) = Some f -> Z.of_nat (length f) = n_test + off ->
  0 < off -> 0 <= j < n_test ->
  nth (Z.to_nat j) (fr_truth r) 0%Q = nth (Z.to_nat (te + j)) data 0%Q /\
  nth (Z.to_nat j) (fr_pred r) 0%Q = nth (Z.to_nat (off + j)) f 0%Q.
Proof. exact (misalignment forecast data off n_test te r f j). Qed.
(** A forecaster that is exactly right still gets a nonzero error. *)
Example C62_example :
  let fc := fun (tr : list Q) k => Some (map (fun i => inject_Z (Z.of_nat (length tr + i + 1))) (seq 0 (Z.to_nat k))) in
  option_map fr_truth (create_model fc [1; 2; 3; 4; 5; 6]%Q 2 (0, 3) (3, 5)) = Some [4; 5]%Q /\
  option_map fr_pred (create_model fc [1; 2; 3; 4; 5; 6]%Q 2 (0, 3) (3, 5)) = Some [6; 7]%Q /\
  option_map fr_truth (create_model fc [1; 2; 3; 4; 5; 6]%Q 1 (0, 3) (4, 6)) = Some [5; 6]%Q /\
  option_map fr_pred (create_model fc [1; 2; 3; 4; 5; 6]%Q 1 (0, 3) (4, 6)) = Some [5; 6]%Q.
Proof. repeat split; reflexivity. Qed.

(** C64. Timestamp partition of a sorted series. *)
Theorem C64_timestamp_partition {A} (data : list (Z * A)) tstart tend vstart vend :
  StronglySorted (fun a b => fst a <= fst b) data ->
  timestamp_split data tstart tend vstart vend
  = (filter (fun r => (match tstart with Some t => t <=? fst r | None => true end) && (fst r <=? tend)) data,
     filter (fun r => (vstart <=? fst r) && (match vend with Some t => fst r <=? t | None => true end)) data).
Proof. exact (timestamp_split_spec data tstart tend vstart vend). Qed.
Example C64_example :
  timestamp_split [(1, 10); (2, 20); (2, 21); (4, 40); (5, 50)] (Some 2) 3 4 None
  = ([(2, 20); (2, 21)], [(4, 40); (5, 50)]) /\
  StronglySorted (fun a b : Z * Z => fst a <= fst b) [(1, 10); (2, 20); (2, 21); (4, 40); (5, 50)].
Proof. split; [reflexivity|]. repeat constructor; simpl; lia. Qed.

Print Assumptions C07_rolling_origin.
Print Assumptions C07_rolling_rows.
Print Assumptions C08_backtester_offsets.
Print Assumptions C08_partition_folds.
Print Assumptions C09_average_partial.
Print Assumptions C09_weighted_partial.
Print Assumptions C10_rolling_rows.
Print Assumptions C11_second_run_refuted.
Print Assumptions C11_first_run_partial.
Print Assumptions C62_alignment_partial.
Print Assumptions C64_timestamp_partition.

Print Assumptions C07_simple.
Print Assumptions C07_fixed_window.
Print Assumptions C07_simple_defined.
Print Assumptions C07_rolling_defined.
Print Assumptions C07_fixed_defined.
Print Assumptions C08_offsets_defined.
Print Assumptions C08_partition_offsets.
Print Assumptions C09_one_score_per_fold_partial.
Print Assumptions C09_all_failing_raises.
Print Assumptions C09_weighted_refuted.
Print Assumptions C09_weighted_nan_refuted.
Print Assumptions C10_train_frac_partial.
Print Assumptions C10_train_size.
Print Assumptions C10_train_length.
Print Assumptions C10_frac_size.
Print Assumptions C10_explicit_test.
Print Assumptions C10_zero_frac_refuted.
Print Assumptions C62_offset_refuted.
