(** kats/models/ml_ar.py:688-1012, 1095-1110: the features of the time that is forecast (calendar, Fourier, future covariates), and how the
    rows of several series, targets and horizons are put into one matrix.

    Simplifications: times are integers, one step of the frequency apart; one future covariate, not normalised
    (cov_future_norm is False by default; several are embedded one by one and joined by time); a calendar or Fourier
    column is a function of the time; None is NaN.  The result None stands for an exception. *)
From Coq Require Import String List Reals Bool Arith ZArith.
From Verif Require Import MlarModel.
Import ListNotations.
Open Scope Z_scope.

(** one series after _check_single_ts (ml_ar.py:431-456): its first time, its target and its future covariate, row by row *)
Record frame := Frame { first : Z; target : list cell; future : list cell }.
Definition times_from (t : Z) (n : nat) : list Z := map (fun i => t + Z.of_nat i) (seq 0 n).
Definition times (f : frame) : list Z := times_from (first f) (List.length (future f)).
Definition last_time (f : frame) : Z := first f + Z.of_nat (List.length (future f)) - 1.
(** the times features are made for: those of the series and the horizons after their ends — ml_ar.py:493-508 *)
Definition stamps (horizons : list nat) (frames : list frame) : list Z :=
  flat_map (fun f => times f ++ map (fun h => last_time f + Z.of_nat h) horizons) frames.
(** _gen_cal_feat (ml_ar.py:775-825), then the left merge with the time forecast (ml_ar.py:894-896) *)
Definition calendar_at (columns : list (Z -> R)) (known : list Z) (t : Z) : list cell :=
  map (fun g => if existsb (Z.eqb t) known then Some (g t) else None) columns.
(** _embed_future_cov — ml_ar.py:827-860.  With the window 0 the index (the last time only) has not the length of the rows. *)
Definition future_table (c : nat) (f : frame) : option (list (Z * list cell)) :=
  if (c =? 0)%nat then None
  else match embed (future f) c c c with
       | None => None
       | Some rows => Some (combine (skipn (c - 1) (times f)) rows)
       end.
(** the left merge — ml_ar.py:898-900 *)
Definition future_at (c : nat) (table : list (Z * list cell)) (t : Z) : list cell :=
  match find (fun r => fst r =? t) table with Some r => snd r | None => repeat None (2 * c) end.
Fixpoint all_some {A} (l : list (option A)) : option (list A) :=
  match l with
  | [] => Some []
  | None :: _ => None
  | Some x :: t => match all_some t with Some t => Some (x :: t) | None => None end
  end.
(** the calendar and the future columns of the row of series s for the time t — ml_ar.py:986-1012, 888-900 *)
Definition extra (columns : list (Z -> R)) (horizons : list nat) (c : nat) (frames : list frame) (s : nat) (t : Z) : option (list cell) :=
  match all_some (map (future_table c) frames) with
  | None => None
  | Some tables => match nth_error tables s with
                   | None => None
                   | Some table => Some (calendar_at columns (stamps horizons frames) t ++ future_at c table t)
                   end
  end.
(** last_valid_index *)
Fixpoint last_valid (l : list cell) : option nat :=
  match l with
  | [] => None
  | x :: t => match last_valid t with
              | Some k => Some (S k)
              | None => match x with Some _ => Some 0%nat | None => None end
              end
  end.
(** join(how="left") on the times of the window *)
Definition at_time (start : Z) (l : list cell) (t : Z) : cell := if t <? start then None else nth (Z.to_nat (t - start)) l None.
(** the window of a forecast from the last valid target: max_lags rows up to it and the rows after it —
    ml_ar.py:1160-1162, 1194-1207 *)
Definition forecast_frame (max_lags : nat) (f : frame) : option frame :=
  match last_valid (target f) with
  | None => None
  | Some k =>
      let start := first f + Z.of_nat k - (Z.of_nat max_lags - 1) in
      let w := times_from start (Z.to_nat (last_time f - start + 1)) in
      Some (Frame start (map (at_time (first f) (target f)) w) (map (at_time (first f) (future f)) w))
  end.
Definition forecast_extra (columns : list (Z -> R)) (horizons : list nat) (max_lags c : nat) (frames : list frame) (s h : nat) : option (list cell) :=
  match all_some (map (forecast_frame max_lags) frames) with
  | None => None
  | Some ws => match nth_error ws s with
               | None => None
               | Some w => extra columns horizons c ws s (first w + Z.of_nat max_lags - 1 + Z.of_nat h)
               end
  end.

(** ** The automatic features *)
(** _generate_auto_calendar_feature — ml_ar.py:714-745 *)
Definition auto_calendar (freq : option string) : list string :=
  match freq with
  | None => []
  | Some f =>
      if String.eqb f "Q" then ["year"]
      else if String.eqb f "M" then ["year"; "quarter"]
      else if String.eqb f "W" then ["year"; "quarter"; "month"; "weekofyear"]
      else if String.eqb f "D" then ["year"; "quarter"; "month"; "day"; "weekday"]
      else if String.eqb f "H" then ["year"; "quarter"; "month"; "weekday"; "hour"]
      else if String.eqb f "min" then ["year"; "quarter"; "month"; "weekday"; "hour"; "minuteofday"]
      else if String.eqb f "S" then ["year"; "quarter"; "month"; "weekday"; "hour"; "minuteofday"]
      else []
  end%string.
(** _generate_auto_fourier_features — ml_ar.py:747-773: the periods, the orders and the length of the unit in seconds *)
Definition auto_fourier (freq : option string) : list Z * list nat * Z :=
  match freq with
  | None => ([], [], 1)
  | Some f =>
      if String.eqb f "W" then ([365], [7%nat], 60 * 60 * 24)
      else if String.eqb f "D" then ([7; 365], [3; 7]%nat, 60 * 60 * 24)
      else if String.eqb f "H" then ([24; 24 * 7; 24 * 365], [3; 5; 7]%nat, 60 * 60)
      else if String.eqb f "min" then ([60], [7%nat], 60)
      else if String.eqb f "S" then ([60], [7%nat], 1)
      else ([], [], 1)
  end.

(** ** The matrix *)
(** a row of the data that belongs to the outcomes — ml_ar.py:902-922 *)
Record meta (T : Type) := Meta { origin : Z; time : Z; variable : T; output : cell }.
Arguments Meta {T}. Arguments origin {T}. Arguments time {T}. Arguments variable {T}. Arguments output {T}.
(** full_mat[at : at + n] = rows; None if the rows do not fit *)
Definition put {A} (mat : list A) (at_ : nat) (rows : list A) : option (list A) :=
  if (List.length mat <? at_ + List.length rows)%nat then None
  else Some (firstn at_ mat ++ rows ++ skipn (at_ + List.length rows) mat).
Definition nan_rows (n : nat) : list (list cell) := repeat [] n.
(** the loops of _merge_past_and_future_reg — ml_ar.py:873-946: inputs [nin], and origins with outcomes [nout], of every
    target; [more] the columns of the time forecast *)
Definition block {T} (more : Z -> list cell) (nin : T -> list (list cell)) (nout : T -> list (Z * (nat -> cell))) (v : T) (h : nat) : list (list cell) :=
  map (fun q => fst q ++ more (fst (snd q) + Z.of_nat h) ++ [Some (INR h)]) (combine (nin v) (nout v)).
Definition metas {T} (nout : T -> list (Z * (nat -> cell))) (v : T) (h : nat) : list (meta T) :=
  map (fun q => Meta (fst q) (fst q + Z.of_nat h) v (snd q h)) (nout v).
Fixpoint fill {T} (more : Z -> list cell) nin nout (todo : list (T * nat)) (mat : list (list cell)) (at_ : nat) : option (list (list cell)) :=
  match todo with
  | [] => Some mat
  | (v, h) :: todo =>
      match put mat at_ (block more nin nout v h) with
      | None => None
      | Some mat => fill more nin nout todo mat (at_ + List.length (nin v))
      end
  end.
Definition order {T} (targets : list T) (horizons : list nat) : list (T * nat) := flat_map (fun v => map (fun h => (v, h)) horizons) targets.
Definition merge {T} (more : Z -> list cell) nin (nout : T -> list (Z * (nat -> cell))) (targets : list T) (horizons : list nat) : option (list (list cell) * list (meta T)) :=
  let n := (fold_right Nat.add 0 (map (fun v => List.length (nout v)) targets) * List.length horizons)%nat in
  match fill more nin nout (order targets horizons) (nan_rows n) 0 with
  | None => None
  | Some mat => Some (mat, flat_map (fun q => metas nout (fst q) (snd q)) (order targets horizons))
  end.
(** the one-hot columns of the target — ml_ar.py:687-689 *)
Definition one_hot (n i : nat) : list cell := map (fun j => Some (if (j =? i)%nat then 1%R else 0%R)) (seq 0 n).
(** _train: the rows with an outcome — ml_ar.py:1072-1077 *)
Definition training {T} (mat : list (list cell)) (m : list (meta T)) : list (list cell * R) :=
  flat_map (fun q => match output (snd q) with Some y => [(fst q, y)] | None => [] end) (combine mat m).
(** _post_process of one series: its rows with the last origin — ml_ar.py:1042-1056.  Groups without rows do not exist. *)
Definition post_process {T} (rows : list (nat * meta T * R)) (s : nat) : option (list (Z * T * R)) :=
  match filter (fun r => (fst (fst r) =? s)%nat) rows with
  | [] => None
  | r :: g =>
      let last := fold_right Z.max (origin (snd (fst r))) (map (fun r => origin (snd (fst r))) g) in
      Some (map (fun r => (time (snd (fst r)), variable (snd (fst r)), snd r)) (filter (fun r => origin (snd (fst r)) =? last) (r :: g)))
  end.
(** last_valid_index of the frame of all targets: the last row with any value (pandas 1.3.5) — ml_ar.py:623, 1161 *)
Definition last_valid_any (columns : list (list cell)) : option nat :=
  fold_right (fun l o => match last_valid l, o with Some a, Some b => Some (Nat.max a b) | Some a, None => Some a | None, o => o end) None columns.
(** the calendar columns that TsCalenderFeatures knows — kats/tsfeatures/tsfeatures.py:2129-2141, 2174 *)
Definition calendar_known_names : list string :=
  ["minute"; "hour"; "day"; "weekday"; "dayofyear"; "week"; "month"; "quarter"; "year"; "dayofyear"; "weekofyear"; "minuteofday"]%string.
