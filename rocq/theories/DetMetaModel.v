(** Metadata of the detector meta-learners — detectors/meta_learning/metalearning_detection_model.py and the reader of
    detectors/meta_learning/hpt_tuning.py:65-87.

    A dictionary is the list of its items in order; the dictionaries held by a data frame live in a heap, because
    the code changes them in place.  Numbers are rationals, [None] is NaN or, as a result, an exception.  The parameters of
    different algorithms of one row are taken to be different dictionaries.  What is left behind by an exception is not modelled. *)
From Coq Require Import List Bool Arith ZArith QArith Qround String.
From Verif Require Import Common.
Import ListNotations.
Open Scope nat_scope.

Definition dict (A : Type) := list (string * A).
Fixpoint get {A} (k : string) (d : dict A) : option A :=
  match d with [] => None | (k', v) :: r => if String.eqb k' k then Some v else get k r end.

(** a value of a hyper-parameter: a number or anything else *)
Inductive pv := Num (x : Q) | Word (s : string).
(** a value of a feature: a number ([None]: NaN) or a text, with what float() makes of it ([None]: raises) *)
Inductive fv := FNum (x : option Q) | FText (x : option (option Q)).
Definition feats := dict fv.
(** hpt_res of a row: for each algorithm the best parameters and the error *)
Definition hres := dict (dict pv * Q).

(** a cell of the data frame: a dictionary of the heap, a text with what ast.literal_eval makes of it, or something else *)
Inductive cell (A : Type) := Held (a : nat) | Written (x : option A) | Else.
Arguments Held {A}. Arguments Written {A}. Arguments Else {A}.

(** rawdata[...].map(change_str_to_dict) — metalearning_detection_model.py:50-60, 67, 69.  Simplified: a text that cannot be
    read gives None there, and the next statement raises; here the map itself raises. *)
Fixpoint open_column {A} (h : list A) (cs : list (cell A)) : option (list A * list nat) :=
  match cs with
  | [] => Some (h, [])
  | Held a :: r => match open_column h r with Some (h', l) => Some (h', a :: l) | None => None end
  | Written (Some x) :: r => match open_column (h ++ [x]) r with Some (h', l) => Some (h', List.length h :: l) | None => None end
  | Written None :: _ => None
  | Else :: _ => None
  end.

Fixpoint write {A} (h : list A) (a : nat) (x : A) : list A :=
  match h, a with [] , _ => [] | _ :: r, 0 => x :: r | y :: r, S a => y :: write r a x end.
(** change each of the dictionaries in place *)
Fixpoint update_all {A} (f : A -> option A) (h : list A) (l : list nat) : option (list A) :=
  match l with
  | [] => Some h
  | a :: r => match nth_error h a with
              | Some x => match f x with Some y => update_all f (write h a y) r | None => None end
              | None => None
              end
  end.

(** float — metalearning_detection_model.py:46 *)
Definition to_float (v : fv) : option fv := match v with FNum x => Some (FNum x) | FText (Some x) => Some (FNum x) | FText None => None end.
Fixpoint on_values {A} (f : string -> A -> option A) (d : dict A) : option (dict A) :=
  match d with
  | [] => Some []
  | (k, v) :: r => match f k v, on_values f r with Some w, Some r' => Some ((k, w) :: r') | _, _ => None end
  end.
(** change_dtype — metalearning_detection_model.py:44-47 *)
Definition change_dtype (d : feats) : option feats := on_values (fun _ => to_float) d.

Definition secs_in_day : Q := inject_Z (3600 * 24).
(** params[param] / NUM_SECS_IN_DAY — metalearning_detection_model.py:82-85; a value that is not a number raises *)
Definition scale_param (down : string -> bool) (k : string) (v : pv) : option pv :=
  if down k then match v with Num x => Some (Num (x / secs_in_day)) | Word _ => None end else Some v.
Definition scale_row (down : string -> bool) (r : hres) : option hres :=
  on_values (fun _ pe => match on_values (scale_param down) (fst pe) with Some p => Some (p, snd pe) | None => None end) r.

(** the data frame: the two heaps and the rows (features, hpt_res, best_model) *)
Record frame := { f_feats : list feats; f_hres : list hres; f_rows : list (cell feats * cell hres * string) }.

(** metadata_detect_preprocessor — metalearning_detection_model.py:63-87: the frame afterwards and the table of references *)
Definition preprocess (down : string -> bool) (fr : frame) : option (frame * list (nat * nat * string)) :=
  match open_column (f_feats fr) (map (fun r => fst (fst r)) (f_rows fr)) with
  | None => None
  | Some (hf, fa) =>
    match update_all change_dtype hf fa with
    | None => None
    | Some hf' =>
      match open_column (f_hres fr) (map (fun r => snd (fst r)) (f_rows fr)) with
      | None => None
      | Some (hh, ha) =>
        match update_all (scale_row down) hh ha with
        | None => None
        | Some hh' =>
          let table := combine (combine fa ha) (map snd (f_rows fr)) in
          Some ({| f_feats := hf'; f_hres := hh'; f_rows := map (fun t => (Held (fst (fst t)), Held (snd (fst t)), snd t)) table |}, table)
        end
      end
    end
  end.

Fixpoint all_some {A} (l : list (option A)) : option (list A) :=
  match l with [] => Some [] | Some x :: r => match all_some r with Some r' => Some (x :: r') | None => None end | None :: _ => None end.

(** metadata_detect_reader — hpt_tuning.py:65-87: the rows of data_x and of data_y; no such algorithm in a row raises.
    The columns of the two data frames are the names in the rows. *)
Definition reader (down : string -> bool) (alg : string) (fr : frame) : option (frame * list feats * list (dict pv)) :=
  match preprocess down fr with
  | None => None
  | Some (fr', table) =>
    match all_some (map (fun t => nth_error (f_feats fr') (fst (fst t))) table),
          all_some (map (fun t => match nth_error (f_hres fr') (snd (fst t)) with Some r => option_map fst (get alg r) | None => None end) table) with
    | Some xs, Some ys => Some (fr', xs, ys)
    | _, _ => None
    end
  end.

(** PARAMS_TO_SCALE_DOWN — metalearning_detection_model.py:20 *)
Definition default_down (k : string) : bool := (String.eqb k "historical_window" || String.eqb k "scan_window")%string.

(** ** MetaDetectModelSelect — metalearning_detection_model.py:115-241 *)
(** format(v, ".4f") then float — metalearning_detection_model.py:34-38, 46: the nearest multiple of 1/10000, ties to even.
    Simplified: the decimal number, without its rounding to a float. *)
Definition round_even (x : Q) : Z :=
  let f := Qfloor x in
  match Qcompare (x - inject_Z f) (1#2) with Lt => f | Gt => (f + 1)%Z | Eq => if Z.even f then f else (f + 1)%Z end.
Definition four_decimals (x : Q) : Q := (inject_Z (round_even (x * 10000)) / 10000)%Q.
(** get_ts_features followed by change_dtype: NaN stays NaN — metalearning_detection_model.py:24-41, 187-188 *)
Definition ts_features (d : dict (option Q)) : dict (option Q) := map (fun kv => (fst kv, option_map four_decimals (snd kv))) d.

(** pd.DataFrame(list of dictionaries).values — metalearning_detection_model.py:189, 209, 233: the columns are the names in the order in which
    they first occur; a missing entry is NaN *)
Definition add_name (l : list string) (k : string) : list string := if existsb (String.eqb k) l then l else l ++ [k].
Definition names {A} (rows : list (dict A)) : list string := fold_left (fun l d => fold_left add_name (map fst d) l) rows [].
Definition aligned (rows : list (dict (option Q))) : list (list (option Q)) :=
  map (fun d => map (fun k => match get k d with Some v => v | None => None end) (names rows)) rows.
(** the rows the classifier is trained on: list(features.values()) for each row under the names of the first — metalearner_modelselect.py:123-132;
    a row of another width raises *)
Definition unaligned (rows : list (dict (option Q))) : option (list (list Q)) :=
  match rows with
  | [] => None
  | d :: _ => if forallb (fun r => List.length r =? List.length d) rows
              then Some (map (fun r => map (fun kv => match snd kv with Some x => x | None => 0%Q end) r) rows) else None
  end.

(** the object: [m_clf] is the classifier and its classes, [m_results] what train returned *)
Record select := { m_frame : frame; m_down : string -> bool; m_clf : option (list (option Q) -> string); m_results : option (list Q * list Q) }.
(** the constructor — metalearning_detection_model.py:115-140; [columns] are the columns of the argument, [None] if it is not a data frame *)
Definition make_select (columns : option (list string)) (fr : frame) (down : string -> bool) : option select :=
  match columns with
  | None => None
  | Some cols => if List.length (f_rows fr) <=? 30 then None
                 else if forallb (fun c => existsb (String.eqb c) cols) ["hpt_res"; "features"; "best_model"]%string
                 then Some {| m_frame := fr; m_down := down; m_clf := None; m_results := None |} else None
  end.
(** what float() made of the features: only numbers after change_dtype *)
Definition plain (d : feats) : dict (option Q) := map (fun kv => (fst kv, match snd kv with FNum x => x | FText _ => None end)) d.
(** train — metalearning_detection_model.py:147-171; [learn] is MetaLearnModelSelect(...).train with the rows and labels, and gives the classifier
    and the errors.  A new MetaLearnModelSelect is assigned before its train is called; if it raises, what is left behind is not modelled. *)
Definition train (learn : list (list Q) -> list string -> option ((list (option Q) -> string) * (list Q * list Q))) (s : select) : option select :=
  match preprocess (m_down s) (m_frame s) with
  | None => None
  | Some (fr', table) =>
    match all_some (map (fun t => nth_error (f_feats fr') (fst (fst t))) table) with
    | None => None
    | Some xs => match unaligned (map plain xs) with
                 | None => None
                 | Some rows => match learn rows (map snd table) with
                                | None => None
                                | Some (clf, res) => Some {| m_frame := fr'; m_down := m_down s; m_clf := Some clf; m_results := Some res |}
                                end
                 end
    end
  end.
(** report_metrics — metalearning_detection_model.py:173-183: self.results is {} and never None before train, so the first branch is never taken and
    self.results["fit_error"] raises *)
Definition report_metrics (s : select) : option (list (list Q * string * string)) :=
  match m_results s with
  | None => None
  | Some (fit, pred) => Some [(fit, "fit_error", "Inverted F-score"); (pred, "pred_error", "Inverted F-score")]%string
  end.
(** predict — metalearning_detection_model.py:185-196; [d] are the features of the series *)
Definition predict (s : select) (d : dict (option Q)) : option string :=
  match m_clf s with Some clf => nth_error (map clf (aligned [ts_features d])) 0 | None => None end.
(** pred_by_feature — metalearning_detection_model.py:222-241, and fit_results — 198-220 with the rows of the frame *)
Definition pred_by_feature (s : select) (h : list feats) (cs : list (cell feats)) : option (list string) :=
  match open_column h cs with
  | None => None
  | Some (hf, l) => match update_all change_dtype hf l with
                    | None => None
                    | Some hf' => match all_some (map (nth_error hf') l), m_clf s with
                                  | Some xs, Some clf => Some (map clf (aligned (map plain xs)))
                                  | _, _ => None
                                  end
                    end
  end.
Definition fit_results (s : select) : option (list string) := pred_by_feature s (f_feats (m_frame s)) (map (fun r => fst (fst r)) (f_rows (m_frame s))).
