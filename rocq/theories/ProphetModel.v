(** The prophet forecasting model — models/prophet.py: its parameters, the frame it is fitted on, the rows it predicts for, the
    prediction intervals and the sampled linear trends.

    Values are exact rationals, [None] is a missing value, times are integers.  prophet itself (Stan's fit, the seasonal features) is
    not modelled; of it only what kats relies on: [make_future_dataframe] and [history] (the dates of all rows, the rows with a value),
    [percentile] (numpy's), [predict_trend] and [predict_seasonal_components] of a fit with one set of parameters. *)
From Coq Require Import List Bool Arith ZArith QArith Qround.
From Verif Require Import Common MetricsModel ResidModel.
Import ListNotations.
Open Scope nat_scope.

(** ** Parameters *)
(** cap and floor: None and False, True, a number — prophet.py:84-87, 153-160 *)
Inductive setting := Off | FromData | Const (v : Q).
Inductive growth := Linear | Flat | Logistic.
(** the keys of a custom seasonality and of a regressor; [KOther] is any other key *)
Inductive key := KName | KPeriod | KOrder | KScale | KMode | KOther (n : nat).
Definition key_eqb (a b : key) : bool :=
  match a, b with
  | KName, KName | KPeriod, KPeriod | KOrder, KOrder | KScale, KScale | KMode, KMode => true
  | KOther x, KOther y => x =? y
  | _, _ => false
  end.
(** columns of the data; [Other n] is any name but these four *)
Inductive col := Y | Ds | Cap | Floor | Other (n : nat).
Definition col_eqb (a b : col) : bool :=
  match a, b with Y, Y | Ds, Ds | Cap, Cap | Floor, Floor => true | Other x, Other y => x =? y | _, _ => false end.
Definition has (c : col) (l : list col) : bool := existsb (col_eqb c) l.
(** a regressor: its keys and, under the key name, its name *)
Record regressor := Regressor { rkeys : list key; rname : col }.
Record params := Params { pgrowth : growth; pseasons : list (list key); pregs : list regressor; pcap : setting; pfloor : setting }.
Definition off (s : setting) : bool := match s with Off => true | _ => false end.
Definition from_data (s : setting) : bool := match s with FromData => true | _ => false end.
(** validate_params — prophet.py:188-230 (regressors that are no dictionaries are not representable) *)
Definition valid_params (p : params) : bool :=
  negb (match pgrowth p with Logistic => off (pcap p) | _ => false end) &&
  forallb (fun req => forallb (fun s => existsb (key_eqb req) s) (pseasons p)) [KName; KPeriod; KOrder] &&
  forallb (fun r => existsb (key_eqb KName) (rkeys r) && forallb (fun k => existsb (key_eqb k) [KName; KScale; KMode]) (rkeys r)) (pregs p).
(** _reqd_regressor_names, _reqd_cap_floor_names — prophet.py:223-230 *)
Definition reg_names (p : params) : list col := map rname (pregs p).
Definition capfloor_names (p : params) : list col :=
  (if off (pcap p) then [] else [Cap]) ++ (if off (pfloor p) then [] else [Floor]).

(** ** Data *)
Definition column := list (option Q).
Inductive values := Uni (v : column) | Multi (cols : list (col * column)).
Record data := Data { dtimes : list Z; dvalues : values }.
Record frame := Frame { fds : list Z; fcols : list (col * column) }.
Fixpoint get (c : col) (l : list (col * column)) : option column :=
  match l with [] => None | (d, v) :: r => if col_eqb c d then Some v else get c r end.
(** df[name] = constant *)
Fixpoint put (c : col) (v : column) (l : list (col * column)) : list (col * column) :=
  match l with [] => [(c, v)] | (d, w) :: r => if col_eqb c d then (d, v) :: r else (d, w) :: put c v r end.
(** _data_params_validation — prophet.py:258-285: the columns of univariate values do not exist, asking for them raises *)
Definition valid_data (d : data) (p : params) : bool :=
  match dvalues d with
  | Uni _ => (length (pregs p) =? 0) && negb (from_data (pcap p)) && negb (from_data (pfloor p))
  | Multi cols =>
      has Y (map fst cols) && forallb (fun r => has r (map fst cols)) (reg_names p) &&
      (negb (from_data (pcap p)) || has Cap (map fst cols)) && (negb (from_data (pfloor p)) || has Floor (map fst cols))
  end.
Definition constant (n : nat) (s : setting) (c : col) (l : list (col * column)) : list (col * column) :=
  match s with Const v => put c (repeat (Some v) n) l | _ => l end.
Fixpoint select (names : list col) (l : list (col * column)) : option (list (col * column)) :=
  match names with
  | [] => Some []
  | c :: r => match get c l, select r l with Some v, Some s => Some ((c, v) :: s) | _, _ => None end
  end.
(** _ts_to_df — prophet.py:287-307 (the column ds is kept apart; value columns called ds are left out of the model) *)
Definition ts_to_df (d : data) (p : params) : option frame :=
  let n := length (dtimes d) in
  let base := match dvalues d with Uni v => [(Y, v)] | Multi cols => cols end in
  let df := constant n (pfloor p) Floor (constant n (pcap p) Cap base) in
  option_map (Frame (dtimes d)) (select (reg_names p ++ [Y] ++ capfloor_names p) df).

(** ** The rows predicted for *)
Definition missing (o : option Q) : bool := match o with None => true | Some _ => false end.
(** the missing values at the end — prophet.py:314-320; [None] if there is no value at all: iloc goes out of range *)
Fixpoint leading_nulls (v : column) : option nat :=
  match v with [] => None | None :: r => option_map S (leading_nulls r) | Some _ :: _ => Some 0 end.
Definition trailing_nulls (v : column) : option nat := leading_nulls (rev v).
(** Prophet.make_future_dataframe without the history: [periods] dates after the last of all dates, freq apart *)
Definition future_dates (last freq : Z) (periods : nat) : list Z := map (fun k => (last + Z.of_nat (S k) * freq)%Z) (seq 0 periods).
Definition zmax_list (l : list Z) : Z := fold_right Z.max (hd 0%Z l) l.
(** _future_validation — prophet.py:309-368.  Without [future] the rows are made here: with the history they are the dates of all rows
    and the outer merge with the rows of the history adds none, unless the floors differ: without logistic growth prophet's history has
    floor 0 (prophet then ignores the column floor).  Multivariate data raise (a row of nulls has no truth value).
    Times are in order and distinct. *)
Definition foreign_floor (p : params) : bool :=
  match pgrowth p, pfloor p with Logistic, _ => false | _, Const v => negb (Qeq_bool v 0) | _, _ => false end.
Definition merged_dates (p : params) (times : list Z) (v : column) : list Z :=
  if foreign_floor p then flat_map (fun r : Z * option Q => if missing (snd r) then [fst r] else [fst r; fst r]) (combine times v) else times.
Definition with_constants (p : params) (f : frame) : frame :=
  let n := length (fds f) in Frame (fds f) (constant n (pcap p) Cap (constant n (pfloor p) Floor (fcols f))).
Definition complete (p : params) (f : frame) : bool :=
  forallb (fun r => has r (map fst (fcols f))) (reg_names p) &&
  (negb (from_data (pcap p)) || has Cap (map fst (fcols f))) && (negb (from_data (pfloor p)) || has Floor (map fst (fcols f))).
Definition future_rows (d : data) (p : params) (freq : Z) (steps : nat) (history : bool) (future : option frame) : option frame :=
  match future with
  | Some f => if complete p f then Some (with_constants p f) else None
  | None =>
    match dvalues d with
    | Multi _ => None
    | Uni v =>
      match trailing_nulls v with
      | None => None
      | Some z =>
        let last := zmax_list (dtimes d) in
        let later := future_dates last freq (steps + z) in
        if complete p (Frame [] []) then
          let kept := if history then Frame (merged_dates p (dtimes d) v ++ later) [] else Frame (filter (fun t => (last <? t)%Z) later) [] in
          let reqd := steps + (if history then length (filter (fun o => negb (missing o)) v) else 0) in
          if length (fds kept) <? reqd then None else Some (with_constants p (Frame (firstn reqd (fds kept)) []))
        else None
      end
    end
  end.

(** ** Prediction intervals *)
(** predict, the combined forecast — prophet.py:770-773 *)
Definition yhat (trend mult add : Q) : Q := (trend * (1 + mult) + add)%Q.
(** the values of all draws at one row *)
Definition at_row (j : nat) (draws : list (list Q)) : list Q := map (fun d => nth j d 0%Q) draws.
(** predict_uncertainty — prophet.py:523-565; a missing or zero margin adds nothing *)
Definition half_margin (scale : Q) (margin : option Q) : Q := match margin with Some m => (scale * m / 2)%Q | None => 0%Q end.
Definition bands (width scale : Q) (margin : option Q) (draws : list (list Q)) (n : nat) : list (Q * Q) :=
  map (fun j => ((quantile ((1 - width) / 2) (at_row j draws) - half_margin scale margin)%Q,
                 (quantile ((1 + width) / 2) (at_row j draws) + half_margin scale margin)%Q)) (seq 0 n).
(** the draws of each iteration — prophet.py:826-833 *)
Definition per_iteration (samples iterations : nat) : nat :=
  Nat.max 1 (Z.to_nat (Qceiling (inject_Z (Z.of_nat samples) / inject_Z (Z.of_nat iterations)))).

(** ** Sampled linear trends *)
Definition qleb (a b : Q) : bool := Qle_bool a b.
(** _piecewise_linear_vectorize, one draw and one time — prophet.py:958-968 *)
Definition piecewise_linear (changes : list (Q * Q)) (k m t : Q) : Q :=
  let active := filter (fun c => qleb (fst c) t) changes in
  let kt := (qsum (map snd active) + k)%Q in
  let mt := (qsum (map (fun c => snd c * - fst c)%Q active) + m)%Q in
  (kt * t + mt)%Q.
(** sample_linear_predictive_trend_vectorize, one draw — prophet.py:970-1037: [count] is the draw's Poisson number, [largest] the
    greatest of all draws; every draw gets [largest] changepoints after 1, the positions in order, and of the shifts those with a
    uniform of [0, largest) below [count] stay *)
Record draw := Draw { dcount : nat; duniforms : list Q; dmask : list Q; dlaplace : list Q }.
Definition new_changes (horizon : Q) (x : draw) : list (Q * Q) :=
  combine (qsort (map (fun u => 1 + u * (horizon - 1))%Q (duniforms x)))
          (map (fun p => if negb (qleb (inject_Z (Z.of_nat (dcount x))) (fst p)) then snd p else 0%Q) (combine (dmask x) (dlaplace x))).
Definition larger (a b : Q) : Q := if Qle_bool a b then b else a.
Definition linear_draw (changes : list (Q * Q)) (k m scale : Q) (times floors : list Q) (x : draw) : list Q :=
  let horizon := fold_right larger (hd 0%Q times) times in
  map (fun p => (piecewise_linear (changes ++ new_changes horizon x) k m (fst p) * scale + snd p)%Q) (combine times floors).
(** predict_trend of a fit with one set of parameters (Prophet.piecewise_linear) *)
Definition model_trend (changes : list (Q * Q)) (k m scale t floor : Q) : Q := (piecewise_linear changes k m t * scale + floor)%Q.
(** sample_model_vectorized, one draw — prophet.py:776-808: the features' products with the coefficients are given *)
Definition sampled_yhat (scale : Q) (trends mult add noise : list Q) : list Q :=
  map (fun p => (fst (fst p) * (1 + snd (fst p)) + fst (snd p) * scale + snd (snd p) * scale)%Q) (combine (combine trends mult) (combine add noise)).

(** ** The history of a logistic trend on a grid *)
(** _make_historical_mat_time — prophet.py:877-894, one row (the rows are equal): the grid is np.arange(0, 1 + d, d), a changepoint
    belongs to the first time of the grid after it, [None] (an IndexError) if there is none; later writes win *)
Definition grid_length (d : Q) : nat := Z.to_nat (Qceiling ((1 + d) / d)).
Definition grid_time (d : Q) (i : nat) : Q := (inject_Z (Z.of_nat i) * d)%Q.
Definition cell (d c : Q) : option nat := find (fun i => negb (qleb (grid_time d i) c)) (seq 0 (grid_length d)).
Fixpoint update (i : nat) (v : Q) (l : list Q) : list Q :=
  match l, i with [], _ => [] | _ :: r, 0 => v :: r | x :: r, S i => x :: update i v r end.
Fixpoint cells (d : Q) (cs : list Q) : option (list nat) :=
  match cs with
  | [] => Some []
  | c :: r => match cell d c, cells d r with Some i, Some l => Some (i :: l) | _, _ => None end
  end.
Definition historical (d : Q) (changes : list (Q * Q)) : option (list Q) :=
  match cells d (map fst changes) with
  | None => None
  | Some idx => Some (fold_left (fun row p => update (fst p) (snd p) row) (combine idx (map snd changes)) (repeat 0%Q (grid_length d)))
  end.
