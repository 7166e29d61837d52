(** Model of the ensemble forecasters: kats/models/ensemble/{ensemble, median_ensemble,
    weighted_avg_ensemble, kats_ensemble}.py.

    Simplifications, for the whole file.
    - Numbers are exact rationals, [None] is NaN (or an infinity).
    - A data set is its list of values; time stamps only matter for the forecast dates.
    - Base learners are parameters of the model: [train] (constructor followed by fit) and
      [predict] of a fitted learner, [backtest] (BackTesterSimple with an 80/20 split), the
      seasonality test and the seasonal component of a decomposition.  Each may fail.
    - The process pool is a list of independent jobs: [apply_async] of a pure job and a later
      [get] is the job's result.  Submitting never fails and [get] re-raises the job's exception.
    - An exception is [None].
    - Names are ASCII strings. *)
From Verif Require Import Common.
From Verif Require MetricsModel.
From Coq Require Import String Ascii.
Open Scope nat_scope.

Notation oQ := (option Q).

(** ** Python dictionaries with string keys: insertion ordered, reassigning a key keeps its place *)
Definition dict (A : Type) := list (string * A).
Fixpoint dset {A} (k : string) (v : A) (d : dict A) : dict A :=
  match d with
  | [] => [(k, v)]
  | (k', v') :: r => if String.eqb k k' then (k', v) :: r else (k', v') :: dset k v r
  end.
Fixpoint dget {A} (k : string) (d : dict A) : option A :=
  match d with
  | [] => None
  | (k', v) :: r => if String.eqb k k' then Some v else dget k r
  end.
Definition keys {A} (d : dict A) : list string := map fst d.
Definition values {A} (d : dict A) : list A := map snd d.
(** dict.update *)
Fixpoint dupdate {A} (d e : dict A) : dict A :=
  match e with [] => d | (k, v) :: r => dupdate (dset k v d) r end.
(** a dict comprehension over [d.items()] whose values may raise *)
Fixpoint dmap {A B} (f : A -> option B) (d : dict A) : option (dict B) :=
  match d with
  | [] => Some []
  | (k, v) :: r => match f v with
                   | None => None
                   | Some y => option_map (cons (k, y)) (dmap f r)
                   end
  end.

(** ** str.lower, str.split("_")[0] and [in] on ASCII strings *)
Definition lower1 (c : ascii) : ascii :=
  let n := nat_of_ascii c in if (65 <=? n) && (n <=? 90) then ascii_of_nat (n + 32) else c.
Fixpoint lower (s : string) : string :=
  match s with EmptyString => EmptyString | String c r => String (lower1 c) (lower r) end.
Fixpoint until_underscore (s : string) : string :=
  match s with
  | EmptyString => EmptyString
  | String c r => if Ascii.eqb c "_" then EmptyString else String c (until_underscore r)
  end.
Fixpoint contains (p s : string) : bool :=
  String.prefix p s || match s with EmptyString => false | String _ r => contains p r end.

(** Keys of BASE_MODELS — ensemble.py:31-38; of MODELS and SMODELS — kats_ensemble.py:53-68. *)
Definition base_models : list string :=
  ["arima"; "holtwinters"; "sarima"; "prophet"; "linear"; "quadratic"]%string.
Definition kats_models : list string :=
  ["arima"; "holtwinters"; "sarima"; "prophet"; "linear"; "quadratic"; "theta"]%string.
Definition s_models : list string := ["prophet"; "theta"]%string.
Definition mem (s : string) (l : list string) : bool := existsb (String.eqb s) l.

(** The forecast table of one learner after [set_index("time")]: the point forecasts and, when
    the learner has them, both interval columns (a learner with only one of the two interval
    columns is not modelled). *)
Record frame := Frame { fc : list oQ; ci : option (list oQ * list oQ) }.

Definition map2 {A B C} (f : A -> B -> C) (x : list A) (y : list B) : list C :=
  map (fun p => f (fst p) (snd p)) (combine x y).
Definition op (mult : bool) (x y : oQ) : oQ :=
  match x, y with Some a, Some b => Some (if mult then a * b else a + b)%Q | _, _ => None end.
Definition inv_op (mult : bool) (x y : oQ) : oQ :=
  match x, y with
  | Some a, Some b => if mult then (if Qeq_bool b 0 then None else Some (a / b)%Q) else Some (a - b)%Q
  | _, _ => None
  end.

(** pd.concat([column.reset_index(drop=True), ...], axis=1): one row per position of the longest
    column, NaN where a column is shorter; an empty list of columns raises. *)
Definition rows (cols : list (list oQ)) : option (list (list oQ)) :=
  match cols with
  | [] => None
  | _ => Some (map (fun i => map (fun c => nth i c None) cols)
                   (seq 0 (fold_right Nat.max 0 (map (@List.length oQ) cols))))
  end.
(** DataFrame.median(axis=1) skips NaN; all-NaN rows give NaN *)
Definition row_median (r : list oQ) : oQ := MetricsModel.nanmedian r.
(** one row of DataFrame.dot(weights) *)
Fixpoint row_dot (r : list oQ) (w : list Q) : oQ :=
  match r, w with
  | x :: r', a :: w' => op false (option_map (fun v => v * a)%Q x) (row_dot r' w')
  | _, _ => Some 0%Q
  end.
(** DataFrame.dot raises when the number of columns and of weights differ *)
Definition dot (cols : list (list oQ)) (w : list Q) : option (list oQ) :=
  if List.length cols =? List.length w then option_map (map (fun r => row_dot r w)) (rows cols) else None.

(** sys.float_info.epsilon *)
Definition eps : Q := 1 # 4503599627370496.

(** weights from errors — weighted_avg_ensemble.py:119-126, kats_ensemble.py:575-583 and 853-859.
    A division by zero is an exception. *)
Definition weights_of (errors : dict Q) : option (dict Q) :=
  match dmap (fun e => if Qeq_bool (e + eps) 0 then None else Some (1 / (e + eps))%Q) errors with
  | None => None
  | Some o => let s := qsum (values o) in
              dmap (fun w => if Qeq_bool s 0 then None else Some (w / s)%Q) o
  end.

(** A pandas offset: where a date rolls forward to, and the next date on the offset. *)
Record offset := Offset { roll : Z -> Z; next : Z -> Z }.
Fixpoint iterate (f : Z -> Z) (d : Z) (n : nat) : list Z :=
  match n with O => [] | S k => d :: iterate f (f d) k end.
(** pd.date_range(start, periods=n, freq) *)
Definition date_range (start : Z) (periods : nat) (freq : option offset) : option (list Z) :=
  match freq with None => None | Some o => Some (iterate (next o) (roll o start) periods) end.
(** forecast dates — median_ensemble.py:80-84, weighted_avg_ensemble.py:157-161,
    kats_ensemble.py:663-666; [self.freq] of KatsEnsemble is pd.infer_freq, None when it fails. *)
Definition future (last : Z) (steps : nat) (freq : option offset) : option (list Z) :=
  option_map (filter (fun d => negb (Z.eqb d last))) (date_range last (S steps) freq).
(** pd.DataFrame({"time": dates, ...: series}) raises when the lengths differ *)
Definition table {A} (dates : list Z) (vals : list A) : option (list (Z * A)) :=
  if List.length dates =? List.length vals then Some (combine dates vals) else None.

Section Learners.
Variables (P F M : Type).   (* learner parameters, fitted learners, error metrics *)
Variable train : string -> P -> list oQ -> option F.       (* _fit_single *)
Variable predict : F -> nat -> option frame.               (* fitted.predict(steps) *)
Variable backtest : string -> P -> list oQ -> M -> option Q. (* _backtester_single *)
Variable detect : list oQ -> bool.                          (* ACFDetector *)
Variable seasonal : bool -> list oQ -> list oQ.             (* decomposition's seasonal component *)

(** BaseModelParams — ensemble.py:41-65 *)
Record spec := Spec { sname : string; sparams : P }.

(** the loop that submits one job per learner under the learner's name; [cls] is the table lookup
    (KeyError aborts) — ensemble.py:118-124, kats_ensemble.py:319-329, 622-632, 842-851 *)
Definition job := (string * P)%type.
Fixpoint submit (cls : string -> option string) (ms : list spec) (d : dict job) : option (dict job) :=
  match ms with
  | [] => Some d
  | m :: r => match cls (sname m) with
              | None => None
              | Some c => submit cls r (dset (sname m) (c, sparams m) d)
              end
  end.
Definition base_class (n : string) : option string :=
  if mem (lower n) base_models then Some (lower n) else None.
Definition kats_class (n : string) : option string :=
  let c := lower (until_underscore n) in if mem c kats_models then Some c else None.

(** run the jobs and collect *)
Definition fit_all (cls : string -> option string) (ms : list spec) (data : list oQ) : option (dict F) :=
  match submit cls ms [] with None => None | Some js => dmap (fun j => train (fst j) (snd j) data) js end.
Definition errors_all (cls : string -> option string) (ms : list spec) (data : list oQ) (m : M) : option (dict Q) :=
  match submit cls ms [] with None => None | Some js => dmap (fun j => backtest (fst j) (snd j) data m) js end.
(** BaseEnsemble._predict_all — ensemble.py:147-164 *)
Definition predict_all (fitted : dict F) (steps : nat) : option (dict frame) :=
  dmap (fun f => predict f steps) fitted.

(** *** BaseEnsemble.fit — ensemble.py:105-127 *)
Definition base_fit (ms : list spec) (data : list oQ) : option (dict F) := fit_all base_class ms data.

(** *** MedianEnsembleModel.predict — median_ensemble.py:51-93 *)
Definition median_predict (fitted : dict F) (steps : nat) (last : Z) (freq : option offset)
  : option (list (Z * oQ)) :=
  match predict_all fitted steps with
  | None => None
  | Some p =>
      match rows (map fc (values p)), future last steps freq with
      | Some r, Some d => table d (map row_median r)
      | _, _ => None
      end
  end.

(** *** WeightedAvgEnsemble._backtester_all and predict — weighted_avg_ensemble.py:91-127, 129-170 *)
Definition wavg_weights (ms : list spec) (data : list oQ) (m : M) : option (dict Q) :=
  match errors_all base_class ms data m with None => None | Some e => weights_of e end.
Definition wavg_predict (ms : list spec) (data : list oQ) (m : M) (fitted : dict F) (steps : nat)
  (last : Z) (freq : option offset) : option (list (Z * oQ)) :=
  match wavg_weights ms data m with
  | None => None
  | Some w =>
      match predict_all fitted steps with
      | None => None
      | Some p =>
          match dot (map fc (values p)) (values w), future last steps freq with
          | Some r, Some d => table d r
          | _, _ => None
          end
      end
  end.

(** ** KatsEnsemble *)

(** validated parameters: aggregation is "median" or "weightedavg", a decomposition method other
    than "multiplicative" becomes "additive", seasonality_length at most half the length
    — kats_ensemble.py:108-146 *)
Record kparams := KParams { k_median : bool; k_mult : bool; k_len : option nat; k_models : list spec }.
Definition validate (agg decomp : string) (len : option nat) (ms : list spec) (data : list oQ) : option kparams :=
  if mem agg ["median"; "weightedavg"]%string
  then match len with
       | Some l => if List.length data / 2 <? l then None
                   else Some (KParams (String.eqb agg "median") (String.eqb decomp "multiplicative") len ms)
       | None => Some (KParams (String.eqb agg "median") (String.eqb decomp "multiplicative") len ms)
       end
  else None.

(** deseasonalize — kats_ensemble.py:165-190 *)
Definition deseasonalize (mult : bool) (data : list oQ) : list oQ * list oQ :=
  let s := seasonal mult data in (s, map2 (inv_op mult) data s).

(** [value[-l:]] for l > 0, [np.tile(u, rep)] and the cut to [steps] entries *)
Definition tile (l steps : nat) (sea : list oQ) : list oQ :=
  firstn steps (List.concat (repeat (skipn (List.length sea - l) sea) (1 + steps / l))).
(** reseasonalize — kats_ensemble.py:193-284.  A zero length divides by zero; a forecast that has
    not [steps] rows does not broadcast.  Dummy intervals: NaN (additive) or 0 (multiplicative).
    Negative lengths are not modelled. *)
Definition reseason1 (mult : bool) (unit : list oQ) (f : frame) : option frame :=
  if List.length (fc f) =? List.length unit
  then let g := map2 (op mult) in
       match ci f with
       | Some (lo, hi) => Some (Frame (g (fc f) unit) (Some (g lo unit, g hi unit)))
       | None => let dummy := map (fun _ => if mult then Some 0%Q else None) (fc f) in
                 Some (Frame (g (fc f) unit) (Some (dummy, dummy)))
       end
  else None.
Definition reseasonalize (mult : bool) (l steps : nat) (sea : list oQ) (d : dict frame) : option (dict frame) :=
  match l with
  | O => None
  | _ => dmap (reseason1 mult (tile l steps sea)) d
  end.

(** the extra seasonal learners, under a suffixed name — kats_ensemble.py:374-379, 527-532 *)
Definition is_smodel (m : spec) : bool := mem (lower (sname m)) s_models.
Definition suffixed (m : spec) : spec := Spec (sname m ++ "_smodel")%string (sparams m).
Definition extra (ms : list spec) : list spec := map suffixed (filter is_smodel ms).

(** what fit leaves in the object *)
Record fitted_state := FState {
  st_seasonal : bool; st_sea : list oQ; st_fitted : dict F; st_weights : option (dict Q) }.

(** fitExecutor, backTestExecutor and _backtester_all: the learners are fitted on the given data,
    the back test always uses the original series — kats_ensemble.py:286-335, 742-755, 816-860 *)
Definition fit_executor (orig data : list oQ) (ms : list spec) (auto : bool) (m : M)
  : option (dict F * option (dict Q)) :=
  match fit_all kats_class ms data with
  | None => None
  | Some f =>
      if auto
      then match errors_all kats_class ms orig m with
           | None => None
           | Some e => match weights_of e with None => None | Some w => Some (f, Some w) end
           end
      else Some (f, None)
  end.
(** fit — kats_ensemble.py:338-396; [mape] is the default metric of fitExecutor, which is what the
    seasonal branch uses because it does not pass err_method on *)
Definition kats_fit (mape : M) (k : kparams) (data : list oQ) (m : M) : option fitted_state :=
  let auto := negb (k_median k) in
  if detect data
  then match k_len k with
       | None => None
       | Some _ =>
           let (s, d) := deseasonalize (k_mult k) data in
           match fit_executor data d (k_models k ++ extra (k_models k)) auto mape with
           | None => None
           | Some (f, w) => Some (FState true s f w)
           end
       end
  else match fit_executor data data (k_models k) auto m with
       | None => None
       | Some (f, w) => Some (FState false [] f w)
       end.

(** the dummy interval added when a learner has none — kats_ensemble.py:443-452, 560-568 *)
Definition add_dummy (f : frame) : frame :=
  match ci f with
  | Some _ => f
  | None => let nan := map (fun _ => None) (fc f) in Frame (fc f) (Some (nan, nan))
  end.
Definition has_suffix_mark (n : string) : bool := contains "_smodel" n.
Definition dfilter {A} (p : string -> bool) (d : dict A) : dict A := filter (fun kv => p (fst kv)) d.

(** predict — kats_ensemble.py:400-459 *)
Definition kats_predict (k : kparams) (st : fitted_state) (steps : nat) : option (dict frame) :=
  if st_seasonal st
  then match predict_all (dfilter (fun n => negb (has_suffix_mark n)) (st_fitted st)) steps, k_len k with
       | Some p, Some l =>
           match reseasonalize (k_mult k) l steps (st_sea st) p,
                 predict_all (dfilter has_suffix_mark (st_fitted st)) steps with
           | Some p', Some e => Some (dupdate p' e)
           | _, _ => None
           end
       | _, _ => None
       end
  else option_map (map (fun kv => (fst kv, add_dummy (snd kv)))) (predict_all (st_fitted st) steps).

(** forecastExecutor — kats_ensemble.py:589-648: the errors are those of the original series, with
    the default metric *)
Definition forecast_executor (mape : M) (orig data : list oQ) (ms : list spec) (steps : nat) (auto : bool)
  : option (dict frame * option (dict Q)) :=
  match fit_all kats_class ms data with
  | None => None
  | Some f =>
      match predict_all f steps with
      | None => None
      | Some p => if auto
                  then match errors_all kats_class ms orig mape with None => None | Some e => Some (p, Some e) end
                  else Some (p, None)
      end
  end.
(** forecast — kats_ensemble.py:462-587 *)
Definition merge_errors (d e : option (dict Q)) : option (dict Q) :=
  match d, e with
  | None, e => e
  | Some d, Some e => Some (dupdate d e)
  | Some d, None => Some d
  end.
Definition kats_forecast (mape : M) (k : kparams) (data : list oQ) (steps : nat)
  : option (dict frame * option (dict Q)) :=
  let auto := negb (k_median k) in
  let finish (p : dict frame) (err : option (dict Q)) :=
    if auto then match err with
                 | None => None
                 | Some e => match weights_of e with None => None | Some w => Some (p, Some w) end
                 end
    else Some (p, None) in
  if detect data
  then match k_len k with
       | None => None
       | Some l =>
           let (s, d) := deseasonalize (k_mult k) data in
           match forecast_executor mape data d (k_models k) steps auto with
           | None => None
           | Some (dp, de) =>
               match reseasonalize (k_mult k) l steps s dp,
                     forecast_executor mape data data (extra (k_models k)) steps auto with
               | Some p, Some (ep, ee) => finish (dupdate p ep) (merge_errors de ee)
               | _, _ => None
               end
           end
       end
  else match forecast_executor mape data data (k_models k) steps auto with
       | None => None
       | Some (p, e) => finish (map (fun kv => (fst kv, add_dummy (snd kv))) p) e
       end.

(** [x["fcst_lower"]] raises when a table has no interval columns *)
Fixpoint columns (ps : list frame) : option (list (list oQ) * (list (list oQ) * list (list oQ))) :=
  match ps with
  | [] => Some ([], ([], []))
  | f :: r => match ci f, columns r with
              | Some (lo, hi), Some (a, (b, c)) => Some (fc f :: a, (lo :: b, hi :: c))
              | _, _ => None
              end
  end.
(** clean_dummy_CI(use_zero=False): zeros become NaN — kats_ensemble.py:716-740 *)
Definition clean (x : oQ) : oQ :=
  match x with Some v => if Qeq_bool v 0 then None else Some v | None => None end.
Definition any_nan (r : list (list oQ)) : bool :=
  existsb (existsb (fun x => match x with None => true | _ => false end)) r.

(** aggregate — kats_ensemble.py:650-713: rows (time, (fcst, (lower, upper))).  The three columns
    are assumed to have the same number of rows. *)
Definition kats_aggregate (k : kparams) (p : dict frame) (w : option (dict Q)) (steps : nat) (last : Z)
  (freq : option offset) : option (list (Z * (oQ * (oQ * oQ)))) :=
  match columns (values p), future last steps freq with
  | Some (a, (b, c)), Some d =>
      if k_median k
      then match rows a, rows b, rows c with
           | Some ra, Some rb, Some rc =>
               table d (combine (map row_median ra)
                          (combine (map (fun r => row_median (map clean r)) rb)
                                   (map (fun r => row_median (map clean r)) rc)))
           | _, _, _ => None
           end
      else match rows b, rows c, w with
           | Some rb, Some rc, Some w =>
               if any_nan rb || any_nan rc then None
               else match dot a (values w), dot b (values w), dot c (values w) with
                    | Some ra, Some rb', Some rc' => table d (combine ra (combine rb' rc'))
                    | _, _, _ => None
                    end
           | _, _, _ => None
           end
  | _, _ => None
  end.
End Learners.
