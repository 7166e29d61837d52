(** The reader of the detectors' training metadata — detectors/meta_learning/synth_metadata_reader.py.

    A row of the file holds the texts of two dictionaries; it is given by what eval makes of them ([None]: raises).  Dictionaries,
    features and results are those of DetMetaModel.  A table is the list of its rows, its columns the names in them; convert_dtypes
    and the index are left out.  The tables handed out are copies (86-89) of cells that are no dictionaries, that is, values. *)
From Coq Require Import List Bool Arith ZArith QArith String.
From Verif Require Import Common DetMetaModel.
Import ListNotations.
Open Scope nat_scope.

(** features and hpt_res of a row *)
Notation row := (option feats * option hres)%type.
(** PARAMS_TO_SCALE_DOWN — synth_metadata_reader.py:22-27 *)
Definition synth_down (k : string) : bool :=
  (String.eqb k "n_control" || String.eqb k "n_test" || String.eqb k "historical_window" || String.eqb k "scan_window")%string.
(** data_x — synth_metadata_reader.py:53-57 *)
Definition data_x (file : list row) : option (list feats) :=
  all_some (map (fun r => match fst r with Some d => change_dtype d | None => None end) file).
(** .map(lambda kv: list(kv.keys())).explode().unique() — synth_metadata_reader.py:58-64: an empty list explodes to NaN, here [None] *)
Definition keys (r : hres) : list (option string) := match r with [] => [None] | _ => map (fun kv => Some (fst kv)) r end.
Definition same (a b : option string) : bool :=
  match a, b with Some x, Some y => String.eqb x y | None, None => true | _, _ => false end.
Definition add_key (l : list (option string)) (k : option string) : list (option string) := if existsb (same k) l then l else l ++ [k].
Definition algorithm_names (rs : list hres) : list (option string) := fold_left (fun l r => fold_left add_key (keys r) l) rs [].
(** data_y of one algorithm — synth_metadata_reader.py:66-83: a row without it raises, and NaN is in none *)
Definition column (rs : list hres) (a : option string) : option (list (dict pv)) :=
  all_some (map (fun r => match a with
                          | Some a => match get a r with Some pe => on_values (scale_param synth_down) (fst pe) | None => None end
                          | None => None
                          end) rs).
Fixpoint columns (rs : list hres) (l : list (option string)) : option (list (option string * list (dict pv))) :=
  match l with
  | [] => Some []
  | a :: l => match column rs a, columns rs l with Some y, Some ys => Some ((a, y) :: ys) | _, _ => None end
  end.
Record metadata := { xs : list feats; ys : list (option string * list (dict pv)) }.
(** synth_metadata_reader.py:50-85; [None]: it raises *)
Definition build (file : list row) : option metadata :=
  match data_x file, all_some (map snd file) with
  | Some x, Some rs => option_map (fun y => {| xs := x; ys := y |}) (columns rs (algorithm_names rs))
  | _, _ => None
  end.
(** _rawdata and _metadata — synth_metadata_reader.py:28-29 *)
Record state := { raw : option (list row); meta : option metadata }.
Definition new_reader : state := {| raw := None; meta := None |}.
(** _get_raw_data — synth_metadata_reader.py:31-45; [disk] is the file at the time of the call *)
Definition raw_data (disk : list row) (s : state) : list row := match raw s with Some f => f | None => disk end.
(** get_metadata — synth_metadata_reader.py:47-89: the answer is None if it raises; _metadata is set when all of it has been made *)
Definition get_metadata (disk : list row) (alg : string) (s : state) : state * option (list feats * list (dict pv)) :=
  let answer m := match find (fun p => same (fst p) (Some alg)) (ys m) with Some p => Some (xs m, snd p) | None => None end in
  match meta s with
  | Some m => (s, answer m)
  | None => let f := raw_data disk s in
            match build f with
            | Some m => ({| raw := Some f; meta := Some m |}, answer m)
            | None => ({| raw := Some f; meta := None |}, None)
            end
  end.
(** the answers to a sequence of calls of one reader *)
Fixpoint answers (calls : list (list row * string)) (s : state) : list (option (list feats * list (dict pv))) :=
  match calls with
  | [] => []
  | (disk, alg) :: l => let '(s, r) := get_metadata disk alg s in r :: answers l s
  end.
