(** Model of the temporal hierarchical model as an object: its base models, fitting, residuals and the validation by
    medians — kats/models/reconciliation/thm.py:72-149, 177-232, 487-534 and base_models.py:57-89.

    Training is a parameter: for the name of a base model and a series it gives the residuals the library reports, if it
    does, and the forecasts of the history, if the model can make them.  Levels that are not integers are left out. *)
From Verif Require Import Common MetricsModel HeuristicModel ThmModel.
Require Import String.
Require Import List. Import ListNotations.
Open Scope nat_scope.

(** ** BaseTHModel — base_models.py:57-89 *)
Record base_model := MkBase { level : nat; name : option string; residuals : option (list Q); fcsts : option (list Q) }.
(** [BASE_MODELS] — thm.py:36-44 *)
Definition supported : list string := ["arima"; "holtwinters"; "sarima"; "prophet"; "linear"; "quadratic"; "theta"]%string.
Definition mem (x : string) (l : list string) : bool := existsb (String.eqb x) l.
(** [residuals is None or residuals.size == 0] *)
Definition missing (o : option (list Q)) : bool := match o with Some (_ :: _) => false | _ => true end.
Definition truthy (n : option string) : bool := match n with None => false | Some s => negb (String.eqb s "") end.
(** [has_params]: whether a parameter object is given; [None]: ValueError *)
Definition make_base (lv : Z) (n : option string) (has_params : bool) (res fc : option (list Q)) : option base_model :=
  if (lv <? 1)%Z then None
  else if missing res || missing fc then
    if negb (truthy n) || negb has_params then None
    else if match n with Some s => mem s supported | None => false end then Some (MkBase (Z.to_nat lv) n res fc) else None
  else Some (MkBase (Z.to_nat lv) n res fc).

(** ** TemporalHierarchicalModel *)
Record fitted := Fit { resid : option (list Q); history : option (list (Z * Q)); trained_on : list (Z * Q) }.
Record obj := Obj { data : list (Z * Q); bases : list base_model; levels : list nat; models : option (list (nat * option fitted));
                    info : list (nat * (option (list Q) * option (list Q))); cached : option (list (nat * list Q)) }.
(** sorted(levels, reverse=True) *)
Fixpoint insert (x : nat) (l : list nat) : list nat :=
  match l with [] => [x] | y :: t => if Nat.leb y x then x :: y :: t else y :: insert x t end.
Fixpoint sort_down (l : list nat) : list nat := match l with [] => [] | x :: t => insert x (sort_down t) end.
Fixpoint no_repeats (l : list nat) : bool :=
  match l with [] => true | x :: t => negb (existsb (Nat.eqb x) t) && no_repeats t end.
(** [__init__] — thm.py:72-103; the caller's series is kept, not copied *)
Definition construct (univariate : bool) (d : list (Z * Q)) (bs : list base_model) : option obj :=
  let ls := map level bs in
  if negb univariate then None
  else if negb (existsb (Nat.eqb 1) ls) then None
  else if negb (no_repeats ls) then None
  else Some (Obj d bs (sort_down ls) None [] None).
(** the training series of a level (ThmModel) *)
Definition series_of (d : list (Z * Q)) (k : nat) : option (list (Z * Q)) :=
  match agg_values k (map snd d), agg_times k (map fst d) with
  | Some v, Some t => Some (combine t v)
  | _, _ => None
  end.
Definition trainer := string -> list (Z * Q) -> option (option (list Q) * option (list (Z * Q))).
(** one base model of [fit] — thm.py:133-146; a name that is not supported is a KeyError *)
Definition fit_base (train : trainer) (d : list (Z * Q)) (b : base_model) : option (nat * option fitted) :=
  match name b with
  | None => Some (level b, None)
  | Some n =>
      if mem n supported then
        match series_of d (level b) with
        | None => None
        | Some ts => match train n ts with Some (r, h) => Some (level b, Some (Fit r h ts)) | None => None end
        end
      else None
  end.
Fixpoint all_some {A} (l : list (option A)) : option (list A) :=
  match l with
  | [] => Some []
  | Some x :: t => match all_some t with Some r => Some (x :: r) | None => None end
  | None :: _ => None
  end.
(** [fit] — thm.py:122-149: the series of all levels are made first; the residuals kept by an earlier call stay *)
Definition fit (train : trainer) (o : obj) : option obj :=
  match all_some (map (series_of (data o)) (levels o)), all_some (map (fit_base train (data o)) (bases o)) with
  | Some _, Some ms =>
      Some (Obj (data o) (bases o) (levels o) (Some ms)
                (map (fun b => (level b, (residuals b, fcsts b))) (filter (fun b => match name b with None => true | Some _ => false end) (bases o)))
                (cached o))
  | _, _ => None
  end.
(** the caller extends the series the object was made with *)
Definition extend (more : list (Z * Q)) (o : obj) : obj := Obj (data o ++ more) (bases o) (levels o) (models o) (info o) (cached o).
Fixpoint entry_of {A} (k : nat) (l : list (nat * A)) : option A :=
  match l with [] => None | (j, x) :: t => if Nat.eqb j k then Some x else entry_of k t end.
(** [_get_residuals] — thm.py:177-198: [merge] on the time, the value minus the forecast *)
Definition get_residuals (f : fitted) : option (list Q) :=
  match resid f with
  | Some r => Some r
  | None => match history f with
            | None => None
            | Some h => Some (flat_map (fun p => map (fun q => (snd q - snd p)%Q) (filter (fun q => Z.eqb (fst q) (fst p)) (trained_on f))) h)
            end
  end.
(** [_get_all_residuals] — thm.py:200-232 *)
Definition residuals_at (o : obj) (ms : list (nat * option fitted)) (k : nat) : option (nat * list Q) :=
  match entry_of k ms with
  | None => None
  | Some (Some f) => option_map (fun r => (k, r)) (get_residuals f)
  | Some None => match entry_of k (info o) with Some (Some r, _) => Some (k, r) | _ => None end
  end.
Definition get_all_residuals (o : obj) : option (list (nat * list Q) * obj) :=
  match cached o with
  | Some r => Some (r, o)
  | None => match models o with
            | None => None
            | Some ms => match all_some (map (residuals_at o ms) (levels o)) with
                         | Some r => Some (r, Obj (data o) (bases o) (levels o) (models o) (info o) (Some r))
                         | None => None
                         end
            end
  end.

(** ** median_validation — thm.py:487-534.  [metric] is the chosen metric ([None]: NaN), [mcd] the square root of the
    robust covariance estimate ([None] if it raises); a missing distance makes the bound NaN, and no level is reported. *)
Definition distance (metric : list Q -> list Q -> option Q) (is_mae : bool) (med orig : nat -> list Q) (k : nat) : option Q :=
  option_map (fun x => if is_mae then (x / inject_Z (Z.of_nat k))%Q else x) (metric (med k) (orig k)).
Definition spread_of (mcd : list Q -> option Q) (vals : list Q) : Q :=
  match mcd vals with Some s => s | None => (percentile 75 vals - percentile 25 vals)%Q end.
Definition report (mcd : list Q -> option Q) (thr : Q) (ls : list nat) (ds : list (option Q)) : list nat :=
  match all_some ds with
  | None => []
  | Some vals => let up := (qmedian vals + spread_of mcd vals * thr)%Q in
                 map fst (filter (fun p => Qle_bool up (snd p)) (combine ls vals))
  end.
Definition median_validation (metric : list Q -> list Q -> option Q) (is_mae : bool) (mcd : list Q -> option Q) (thr : Q)
    (steps : nat) (ls : list nat) (bs : nat -> base) : option (list nat) :=
  match predict_origin steps (get_m ls) false ls bs, predict (fun _ _ _ _ => None) steps ls Median bs ls with
  | Some o, Some d =>
      Some (report mcd thr ls (map (distance metric is_mae (fun k => lookup k d) (fun k => firstn (steps / k) (lookup k o))) ls))
  | _, _ => None
  end.
(** mean absolute error, NaN for no forecasts — metrics.py:411-446 *)
Definition mae (a b : list Q) : option Q :=
  match a with
  | [] => None
  | _ => Some (qsum (map (fun p => Qabs.Qabs (fst p - snd p)) (combine a b)) / inject_Z (Z.of_nat (List.length a)))%Q
  end.
