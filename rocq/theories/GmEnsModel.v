(** Ensembles of global models and their backtesting — globalmodel/ensemble.py:160-389, globalmodel/backtester.py:55-457, 587-632,
    globalmodel/stdmodel.py:182-299.

    Numbers are exact rationals, [None] is NaN; a data set is a list of keys (numbers) and series; a shuffle is given by the
    permuted keys.  Training and the forecasts of the single models are parameters. *)
From Coq Require Import List Bool Arith ZArith QArith Qround.
From Verif Require Import Common MetricsModel GmLossModel GmFillModel GmFcstModel.
Import ListNotations.
Open Scope nat_scope.

(** ** Combining the forecasts of the models *)
Inductive ensemble := Median | Mean.
(** np.median, np.mean — ensemble.py:65-71 *)
Definition pooled (e : ensemble) (l : list Q) : Q :=
  match e with Median => qmedian l | Mean => qsum l / inject_Z (Z.of_nat (length l)) end%Q.
(** the list [fcst] of _combine_fcst — ensemble.py:269-272; one list of windows per model, all of the shape of the first *)
Definition combine (e : ensemble) (members : list (list (list Q))) : list (list Q) :=
  let first := hd [] members in
  map (fun j => map (fun c => pooled e (map (fun m => GmFcstModel.cell (nth j m []) c) members)) (seq 0 (length (nth j first [])))) (seq 0 (length first)).
(** the frame — ensemble.py:276-289; first_timestamp is the last time of the series *)
Definition combine_frame (e : ensemble) (fw nq steps : nat) (last freq : Z) (members : list (list (list Q))) : option (list (Z * list Q)) :=
  format_fcst fw nq steps (last + freq)%Z freq (combine e members).

(** ** Which series a model is trained on *)
Section Train.
Context {V : Type}.
Local Notation dict := (list (nat * V)%type).
(** the held out and the other series — ensemble.py:182-208 (the message for test_size speaks of [0,1)); [None] if it raises *)
Definition hold_out (test_size : Q) (keys : list nat) (data : dict) : option (dict * dict) :=
  if negb (Qle_bool 0 test_size) || negb (Qle_bool test_size 1) then None
  else if Qle_bool test_size 0 then Some ([], data)
  else let n := length data in
       let m := Nat.max 1 (Z.to_nat (Qfloor (inject_Z (Z.of_nat n) * test_size))) in
       if n <? m then None
       else match pick data (firstn m keys), pick data (skipn m keys) with Some a, Some b => Some (a, b) | _, _ => None end.
(** the data of the i-th model: in parallel — ensemble.py:215-225, backtester.py:374-382 *)
Definition parallel (splits replicate : nat) (parts : list (dict * option dict)) : list (option (dict * option dict)) :=
  map (fun i => nth_error parts (i mod splits)) (seq 0 (replicate * splits)).
(** and one after the other — ensemble.py:237-250, backtester.py:359-366 *)
Fixpoint sequential (replicate : nat) (parts : list (dict * option dict)) : list (option (dict * option dict)) :=
  match replicate with 0 => [] | S r => map Some parts ++ sequential r parts end.
End Train.

(** ** GMBackTester *)
(** the lengths — backtester.py:78-96: min_train_length, min_valid_length, min_test_length; the longest look ahead *)
Record btlens := { bt_input : nat; bt_fcst : nat; bt_steps : nat; bt_length : nat; bt_warm : nat; bt_valid_steps : nat; bt_freq : Z }.
Definition min_train (p : btlens) : nat := bt_input p + bt_fcst p + bt_steps p * bt_length p.
Definition min_test (p : btlens) : nat := bt_warm p * bt_length p + bt_input p.
Definition look_ahead (p : btlens) : Z := (bt_freq p * Z.of_nat (bt_valid_steps p * bt_fcst p) * 3)%Z.
(** the number of test series — backtester.py:133-143 *)
Inductive size_arg := SizeInt (z : Z) | SizeFloat (q : Q).
Definition test_count (n : nat) (s : size_arg) : option nat :=
  match s with
  | SizeInt z => if (0 <? z)%Z && (z <? Z.of_nat n)%Z then Some (Z.to_nat z) else None
  | SizeFloat q => if negb (Qle_bool q 0) && negb (Qle_bool 1 q) then Some (Z.to_nat (Qfloor (inject_Z (Z.of_nat n) * q))) else None
  end.
Local Notation series := (list (Z * option Q)).
(** _filter for one series — backtester.py:269-279 *)
Definition cut1 (p : btlens) (m : gmode) (bt : Z) (ts : series) : option (series * series) :=
  let train_length := match m with Train => min_train p | Test => min_test p end in
  let valid_length := match m with Train => bt_fcst p | Test => 0 end in
  if 0 <? length ts then
    let ts := filter (fun r => fst r <=? bt + look_ahead p)%Z ts in
    if train_length + valid_length <=? length ts then
      let train := filter (fun r => fst r <? bt)%Z ts in
      let valid := filter (fun r => bt <=? fst r)%Z ts in
      if (train_length <=? length train) && (valid_length <=? length valid) then Some (train, valid) else None
    else None
  else None.
(** _filter — backtester.py:238-286; [None] if no series is left *)
Definition filter_data (p : btlens) (m : gmode) (bt : Z) (data : list (nat * series)) : option (list (nat * (series * series))) :=
  match flat_map (fun kt => match cut1 p m bt (snd kt) with Some c => [(fst kt, c)] | None => [] end) data with [] => None | l => Some l end.
(** a row of the evaluation — backtester.py:430-457: the series, the window, the model ([None]: the ensemble), the forecasts and the
    values they are compared with *)
Record row := { idx : nat; window : nat; model : option nat; predicted : list Q; actual : list (option Q) }.
Definition rows_of_series (fw : nat) (k : nat) (fcsts : list (list (list Q))) (valid : list (option Q)) : list row :=
  let steps := step_num (length valid) fw in
  let actuals := valid ++ repeat None (steps * fw - length valid) in
  flat_map (fun j =>
    let act := firstn fw (skipn (j * fw) actuals) in
    map (fun i => {| idx := k; window := j; model := Some i; predicted := nth j (nth i fcsts []) []; actual := act |}) (seq 0 (length fcsts)) ++
    [{| idx := k; window := j; model := None; predicted := map (fun c => qmedian (map (fun m => GmFcstModel.cell (nth j m []) c) fcsts)) (seq 0 (length (nth j (hd [] fcsts) []))); actual := act |}])
    (seq 0 steps).
(** _evaluate — backtester.py:419-457; [predict i train steps]: the windows model i forecasts for a series *)
Definition evaluate (fw models : nat) (predict : nat -> series -> nat -> list (list Q)) (tests : list (nat * (series * series))) : list row :=
  let steps := fold_right Nat.max 0 (map (fun kt => length (snd (snd kt))) tests) in
  flat_map (fun kt => rows_of_series fw (fst kt) (map (fun i => predict i (fst (snd kt)) steps) (seq 0 models)) (map snd (snd (snd kt)))) tests.
(** run_backtest for one time, as far as the choice of the series goes — backtester.py:326-400: the keys every model has been trained
    on so far, [seen], and the test series.  Models are built when the tester is made (157-160) and keep their weights. *)
Definition run_keys (splits replicate : nat) (overlap : bool) (count : nat) (keys : list nat) (p : btlens) (bt : Z) (data : list (nat * series))
    (seen : list (list nat)) : option (list (list nat) * list nat) :=
  match pick data (firstn count keys), pick data (skipn count keys) with
  | Some test, Some train =>
      match filter_data p Train bt train, filter_data p Test bt test with
      | Some tr, Some te =>
          match split splits overlap (map (fun kc => (fst kc, fst (snd kc))) tr) (Some (map (fun kc => (fst kc, snd (snd kc))) tr)) with
          | Some parts => Some (zip_with (fun s o => match o with Some d => s ++ map fst (fst d) | None => s end) seen (sequential replicate parts), map fst te)
          | None => None
          end
      | _, _ => None
      end
  | _, _ => None
  end.

(** ** GMBackTesterExpandingWindow: what the error measures are given — backtester.py:612-627 *)
Definition known {A} (l : list (option A)) : list A := flat_map (fun o => match o with Some v => [v] | None => [] end) l.
Definition fold_result (train truth : list (option Q)) (fcst : list Q) : list Q * list Q * list Q :=
  let f := firstn (length truth) fcst in
  (known train, known truth, keep (map (fun o => match o with Some _ => true | None => false end) truth) f).

(** ** STDGlobalModel *)
Inductive decomposition := Additive | Multiplicative.
Inductive fit_mode := Trend | Original | Deseasoned.
(** the operators — stdmodel.py:90-100 *)
Definition deseason (d : decomposition) (x s : Q) : Q := match d with Additive => x - s | Multiplicative => x / s end%Q.
Definition reseason (d : decomposition) (x s : Q) : Q := match d with Additive => x + s | Multiplicative => x * s end%Q.
(** _deseasonal — stdmodel.py:182-193; the decomposition is given; fit_trend comes before fit_original *)
Definition fitted (d : decomposition) (f : fit_mode) (ts seasonal trend : list Q) : list Q :=
  match f with Trend => trend | Original => ts | Deseasoned => zip_with (deseason d) ts seasonal end.
(** _predict_seasonality for stl and seasonal_decompose — stdmodel.py:216-222 *)
Definition last_period (period : nat) (l : list Q) : list Q := skipn (length l - period) l.
Fixpoint tiled (rep : nat) (l : list Q) : list Q := match rep with 0 => [] | S r => l ++ tiled r l end.
Definition season_ahead (period steps : nat) (seasonal : list Q) : list Q := firstn steps (tiled (1 + steps / period) (last_period period seasonal)).
(** _reseasonal — stdmodel.py:234-241, on one column; [None]: the shapes differ *)
Definition with_season (d : decomposition) (fcst season : list Q) : option (list Q) :=
  if length fcst =? length season then Some (zip_with (reseason d) fcst season) else None.
(** predict for one series and column — stdmodel.py:243-299; [gm]: the forecasts of the global model for what is fitted *)
Definition std_predict (d : decomposition) (f : fit_mode) (period steps : nat) (decompose : list Q -> list Q * list Q) (gm : list Q -> list Q) (ts : list Q) : option (list Q) :=
  let (trend, seasonal) := decompose ts in
  with_season d (gm (fitted d f ts seasonal trend)) (season_ahead period steps seasonal).
