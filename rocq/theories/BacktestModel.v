(** Model of the backtesters (kats/utils/backtesters.py) and data partitions
    (kats/utils/datapartition.py): index computations, fold construction, error accumulation. *)
From Verif Require Import Common PySlice.
Open Scope Z_scope.

(** backtesters.py:1332-1337 _get_absolute_size: int(np.floor(size * percent / 100)).
    Percentages are exact rationals. *)
Definition absolute_size (size : Z) (percent : Q) : Z := Qfloor (inject_Z size * percent / 100).

(** np.array_split(range(n), k): sizes of the k pieces; k <= 0 raises ValueError.
    The first n mod k pieces have one element more. *)
Definition array_split_sizes (n k : Z) : option (list Z) :=
  if k <=? 0 then None
  else Some (map (fun i => if Z.of_nat i <? n mod k then n / k + 1 else n / k)
                 (seq 0 (Z.to_nat k))).

(** backtesters.py:1340-1349 _return_fold_offsets: [0] followed by running totals. *)
Fixpoint running_totals (acc : Z) (l : list Z) : list Z :=
  match l with [] => [] | x :: t => (x + acc) :: running_totals (x + acc) t end.
Definition fold_offsets (start stop num_folds : Z) : option (list Z) :=
  (* range of a negative length is empty *)
  match array_split_sizes (Z.max 0 (stop - start)) (num_folds - 1) with
  | None => None
  | Some sizes => Some (0 :: running_totals 0 sizes)
  end.

Definition splits := (list (Z * Z) * list (Z * Z))%type.

(** constructor checks on one percentage (backtesters.py:712-725): 0 < p <= 100 *)
Definition pct_ok (p : Q) : bool := negb (Qle_bool p 0) && Qle_bool p 100.

(** backtesters.py:701-762 BackTesterSimple: constructor and _create_train_test_splits. *)
Definition simple_ctor (train_pct test_pct : Q) : bool := pct_ok train_pct && pct_ok test_pct.
Definition simple_splits (size : Z) (train_pct test_pct : Q) : option splits :=
  let train_size := absolute_size size train_pct in
  let test_size := absolute_size size test_pct in
  if (train_size <=? 0) || (size <=? train_size) then None
  else if (test_size <=? 0) || (size <=? test_size) then None
  else if size <? train_size + test_size then None
  else Some ([(0, train_size)], [(train_size, train_size + test_size)]).

(** backtesters.py:828-884 BackTesterRollingOrigin constructor checks. *)
Definition rolling_ctor (train_pct test_pct : Q) (steps : Z) : bool :=
  pct_ok train_pct && pct_ok test_pct && Qle_bool (train_pct + test_pct) 100 &&
  negb (Qeq_bool (train_pct + test_pct) 100 && (1 <? steps)) && (0 <=? steps).

(** backtesters.py:886-963 BackTesterRollingOrigin._create_train_test_splits *)
Definition rolling_splits (size : Z) (train_pct test_pct : Q) (steps : Z) (constant_train : bool)
  : option splits :=
  let start_train := absolute_size size train_pct in
  let test_size := absolute_size size test_pct in
  if (start_train <=? 0) || (size <=? start_train) then None
  else if (test_size <=? 0) || (size <=? test_size) then None
  else if size <? start_train + test_size then None
  else if (start_train + test_size =? size) && (1 <? steps) then None
  else if steps =? 1 then Some ([(0, start_train)], [(start_train, start_train + test_size)])
  else match fold_offsets 0 (size - start_train - test_size) steps with
       | None => None
       | Some offs =>
           Some (map (fun o => ((if constant_train then o else 0), start_train + o)) offs,
                 map (fun o => (start_train + o, start_train + o + test_size)) offs)
       end.

(** backtesters.py:1105-1190 BackTesterFixedWindow: constructor (window may be 0) and splits. *)
Definition fixed_window_ctor (train_pct test_pct window_pct : Q) : bool :=
  pct_ok train_pct && pct_ok test_pct && Qle_bool 0 window_pct && Qle_bool window_pct 100.
Definition fixed_window_splits (size : Z) (train_pct test_pct window_pct : Q) : option splits :=
  let train_size := absolute_size size train_pct in
  let test_size := absolute_size size test_pct in
  let window_size := absolute_size size window_pct in
  if (train_size <=? 0) || (size <=? train_size) then None
  else if (test_size <=? 0) || (size <=? test_size) then None
  else if size <? train_size + test_size + window_size then None
  else Some ([(0, train_size)], [(train_size + window_size, train_size + window_size + test_size)]).

(** One backtest fold result: training values, truth, predictions (backtesters.py:590-593).
    The trained model object itself is dropped. *)
Record fold_result := { fr_train : list Q; fr_truth : list Q; fr_pred : list Q }.

(** backtesters.py:519-594 _create_model. [forecast train steps] is the model class' fit and
    predict(steps)["fcst"]; None is an exception of the model. *)
Definition create_model (forecast : list Q -> Z -> option (list Q)) (data : list Q) (offset : Z)
    (tr te : Z * Z) : option fold_result :=
  let size := Z.of_nat (length data) in
  let bad i := (i <? 0) || (size <? i) in
  if bad (fst tr) || bad (snd tr) then None
  else if bad (fst te) || bad (snd te) then None
  else
    let train := py_slice data (Some (fst tr)) (Some (snd tr)) in
    let test := py_slice data (Some (fst te)) (Some (snd te)) in
    match train, test with
    | [], _ => None
    | _, [] => None
    | _, _ =>
        match forecast train (Z.of_nat (length test) + offset) with
        | None => None
        | Some f =>
            Some {| fr_train := train; fr_truth := test;
                    fr_pred := if offset =? 0 then f else py_slice f (Some offset) None |}
        end
    end.

Fixpoint create_models forecast data offset (trs tes : list (Z * Z)) : option (list fold_result) :=
  match trs, tes with
  | tr :: trs', te :: tes' =>
      match create_model forecast data offset tr te with
      | None => None
      | Some r => match create_models forecast data offset trs' tes' with
                  | None => None
                  | Some rs => Some (r :: rs)
                  end
      end
  | _, _ => Some []
  end.

(** Mutable state of a backtester: results, accumulated errors (one per error method, in order),
    raw errors (backtesters.py:427-453). *)
Record bt_state := { bt_results : list fold_result; bt_errors : list Q; bt_raw : list (list Q) }.
Definition bt_init (n_methods : nat) : bt_state :=
  {| bt_results := []; bt_errors := repeat 0%Q n_methods; bt_raw := [] |}.

Definition sub_lists (a b : list Q) : list Q := map (fun p => (fst p - snd p)%Q) (combine a b).

(** backtesters.py:466-517 calc_error. An unequal prediction length raises. *)
Definition fold_ok (r : fold_result) : bool :=
  match fr_train r, fr_pred r, fr_truth r with
  | _ :: _, _ :: _, _ :: _ => Nat.eqb (length (fr_pred r)) (length (fr_truth r))
  | _, _, _ => false
  end.
Definition total_length (rs : list fold_result) : Q :=
  qsum (map (fun r => inject_Z (Z.of_nat (length (fr_truth r)))) rs).
Definition add_fold (methods : list (list Q -> list Q -> Q)) (total : Q) (errors : list Q)
    (r : fold_result) : list Q :=
  map (fun p => snd p + (inject_Z (Z.of_nat (length (fr_truth r))) / total)
                        * fst p (fr_truth r) (fr_pred r))%Q (combine methods errors).
Definition calc_error (methods : list (list Q -> list Q -> Q)) (st : bt_state) : option bt_state :=
  match bt_results st with
  | [] => None
  | rs =>
      if forallb fold_ok rs then
        Some {| bt_results := rs;
                bt_errors := fold_left (add_fold methods (total_length rs)) rs (bt_errors st);
                bt_raw := bt_raw st ++ map (fun r => sub_lists (fr_truth r) (fr_pred r)) rs |}
      else None
  end.

(** backtesters.py:596-634 _build_and_train_models and run_backtest. With multi the result list is
    replaced, otherwise new results are appended. *)
Definition run_backtest forecast methods data offset (multi : bool) (sp : splits) (st : bt_state)
  : option bt_state :=
  match create_models forecast data offset (fst sp) (snd sp) with
  | None => None
  | Some rs =>
      calc_error methods
        {| bt_results := if multi then rs else bt_results st ++ rs;
           bt_errors := bt_errors st; bt_raw := bt_raw st |}
  end.

(** ** Generic backtester *)

(** A fold's outcome: forecaster and scorer succeeded with a table of the given number of rows and
    a list of metric scores, or an exception anywhere (backtesters.py:228-239). NaN is None. *)
Notation score := (option Q).
Notation outcome := (option (nat * list (option Q))).

(** backtesters.py:241-258 _get_fold_errors. All folds failing: _log_error only builds the
    exception, and valid_fold_errors[0] then raises IndexError. The metric names are the keys of
    the first valid fold: here its number of scores. *)
Definition get_fold_errors (error_score : score) (rs : list outcome) : option (nat * list (list score)) :=
  match filter (fun r => match r with Some _ => true | None => false end) rs with
  | Some (_, sc) :: _ =>
      let k := length sc in
      Some (k, map (fun r => match r with Some (_, s) => s | None => repeat error_score k end) rs)
  | _ => None
  end.

(** np.nanmean: mean of the non-NaN entries, NaN if there are none. *)
Definition non_nan (l : list score) : list Q :=
  flat_map (fun x => match x with Some q => [q] | None => [] end) l.
Definition nanmean (l : list score) : score :=
  match non_nan l with
  | [] => None
  | v => Some (qsum v / inject_Z (Z.of_nat (length v)))%Q
  end.

Definition scale (w : Q) (s : score) : score := match s with Some q => Some (q * w)%Q | None => None end.

(** backtesters.py:273-276 weights: len(None) for a failed fold raises TypeError. *)
Fixpoint lengths (rs : list outcome) : option (list Q) :=
  match rs with
  | [] => Some []
  | None :: _ => None
  | Some (n, _) :: t =>
      match lengths t with None => None | Some l => Some (inject_Z (Z.of_nat n) :: l) end
  end.
Definition fold_weights (weighted : bool) (rs : list outcome) : option (list Q) :=
  if weighted then
    match lengths rs with
    | None => None
    | Some l => Some (map (fun x => x / qsum l * inject_Z (Z.of_nat (length rs)))%Q l)
    end
  else Some (repeat 1%Q (length rs)).

(** backtesters.py:260-292 _summarize: (fold errors, summary per metric). A fold with fewer
    metrics than the first valid one raises KeyError. *)
Definition summarize (error_score : score) (weighted : bool) (rs : list outcome)
  : option (list (list score) * list score) :=
  match get_fold_errors error_score rs with
  | None => None
  | Some (k, folds) =>
      match fold_weights weighted rs with
      | None => None
      | Some w =>
          if forallb (fun f => Nat.leb k (length f)) folds then
            Some (folds,
                  map (fun m => nanmean (map (fun p => scale (fst p) (nth m (snd p) None)) (combine w folds)))
                      (seq 0 k))
          else None
      end
  end.

(** ** Data partitions *)

(** datapartition.py:47-48 _get_absolute_size: int(size * frac), truncation toward zero. *)
Definition Qtrunc (q : Q) : Z := if Qle_bool 0 q then Qfloor q else - Qfloor (- q).
Definition frac_size (size : Z) (frac : Q) : Z := Qtrunc (inject_Z size * frac).

(** A falsy number: None or zero, as tested by "if self.train_frac". *)
Definition truthyQ (o : option Q) : option Q :=
  match o with Some q => if Qeq_bool q 0 then None else Some q | None => None end.
Definition truthyZ (o : option Z) : option Z :=
  match o with Some z => if z =? 0 then None else Some z | None => None end.

(** datapartition.py:181-205 SimpleDataPartition constructor: both None, or both given, raises.
    The range checks only build a message and never raise, so they are absent. *)
Definition simple_dp_ctor (train_frac test_frac : option Q) (train_size test_size : option Z) : bool :=
  match train_frac, train_size with
  | None, None => false | Some _, Some _ => false | _, _ => true
  end &&
  match test_frac, test_size with Some _, Some _ => false | _, _ => true end.

(** datapartition.py:220-239 SimpleDataPartition._single_train_test_split.
    train_size may be Python None (train_frac = 0): then adding it raises TypeError. *)
Definition simple_dp_split {A} (data : list A) (train_frac test_frac : option Q)
    (train_size test_size : option Z) : option (list A * list A) :=
  let size := Z.of_nat (length data) in
  let ts := match truthyQ train_frac with Some f => Some (frac_size size f) | None => train_size end in
  let end_idx :=
    match truthyQ test_frac, truthyZ test_size, ts with
    | Some f, _, Some t => Some (frac_size size f + t)
    | None, Some z, Some t => Some (z + t)
    | None, None, _ => Some size
    | _, _, None => None
    end in
  match end_idx with
  | None => None
  | Some e => Some (py_slice data None ts, py_slice data ts (Some e))
  end.

(** np.linspace(0, L, k, dtype=int): floor of i*L/(k-1); a single value 0 for k = 1; negative k
    raises ValueError. *)
Definition linspace_int (L k : Z) : option (list Z) :=
  if k <? 0 then None
  else if k =? 1 then Some [0]
  else Some (map (fun i => Qfloor (inject_Z (Z.of_nat i * L) / inject_Z (k - 1))) (seq 0 (Z.to_nat k))).

(** datapartition.py:371-399 RollingOriginDataParition._param_check *)
Definition rolling_dp_ctor (train_frac test_frac window_frac : Q) (steps : Z) : bool :=
  Qle_bool 0 train_frac && Qle_bool train_frac 1 && Qle_bool 0 test_frac && Qle_bool test_frac 1 &&
  Qle_bool 0 window_frac && Qle_bool window_frac 1 &&
  Qle_bool (train_frac + test_frac + window_frac) 1 &&
  negb (Qeq_bool (train_frac + test_frac + window_frac) 1 && (1 <? steps)).

(** datapartition.py:401-445 RollingOriginDataParition._single_train_test_split: the slice bounds
    of every fold, and the folds themselves. *)
Definition rolling_dp_bounds (n : Z) (train_frac test_frac window_frac : Q) (steps : Z)
    (constant_train : bool) : option (list ((Z * Z) * (Z * Z))) :=
  let st := frac_size n train_frac in
  let te := frac_size n test_frac in
  let wi := frac_size n window_frac in
  match linspace_int (n - st - te - wi) steps with
  | None => None
  | Some offs =>
      Some (map (fun o => (((if constant_train then o else 0), o + st),
                           (o + st + wi, o + st + te + wi))) offs)
  end.
Definition rolling_dp_split {A} (data : list A) train_frac test_frac window_frac steps constant_train
  : option (list (list A * list A)) :=
  match rolling_dp_bounds (Z.of_nat (length data)) train_frac test_frac window_frac steps constant_train with
  | None => None
  | Some bs =>
      Some (map (fun b => (py_slice data (Some (fst (fst b))) (Some (snd (fst b))),
                           py_slice data (Some (fst (snd b))) (Some (snd (snd b))))) bs)
  end.

(** np.searchsorted on a sorted array, side "left" / "right" (datapartition.py:313-326):
    number of entries < v, number of entries <= v. *)
Definition searchsorted_left (times : list Z) (v : Z) : Z :=
  Z.of_nat (length (filter (fun t => t <? v) times)).
Definition searchsorted_right (times : list Z) (v : Z) : Z :=
  Z.of_nat (length (filter (fun t => t <=? v) times)).

(** datapartition.py:303-337 SimpleTimestampDataPartition._single_train_test_split; a missing
    start or end is pd.Timestamp.min / max, here simply no constraint. The data are
    (time, value) pairs. *)
Definition timestamp_split {A} (data : list (Z * A)) (train_start : option Z) (train_end test_start : Z)
    (test_end : option Z) : list (Z * A) * list (Z * A) :=
  let times := map fst data in
  let lo v := match v with None => 0 | Some t => searchsorted_left times t end in
  let hi v := match v with None => Z.of_nat (length data) | Some t => searchsorted_right times t end in
  (py_slice data (Some (lo train_start)) (Some (hi (Some train_end))),
   py_slice data (Some (lo (Some test_start))) (Some (hi test_end))).
