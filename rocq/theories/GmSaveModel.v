(** Saving and loading global models — globalmodel/model.py:654-673, 1262-1293, globalmodel/ensemble.py:391-448, 530-574,
    globalmodel/serialize.py:20-122.

    The weights of a network are a value of [W]; [fits p w]: they have the shapes of the network that [p] describes.  Files and JSON
    keep what they are given: numbers, strings, lists and dictionaries with keys that are strings; a data frame cannot be written
    as JSON.  *)
From Coq Require Import List Bool Arith ZArith QArith String.
From Verif Require Import GmParamModel.
Import ListNotations.
Open Scope nat_scope.

Section Save.
Variable W : Type.
Variable fits : param Z -> string -> W -> bool.

Record gm := { gm_params : param Z; rnn : option W; encoder : option W; decoder : option W }.
(** GMModel(params) — model.py:56-71 *)
Definition fresh (p : param Z) : gm := {| gm_params := p; rnn := None; encoder := None; decoder := None |}.
(** what is written — model.py:660-670; [None]: there is no network to reset *)
Definition gm_save (g : gm) : option (param string * option W * option W * option W) :=
  if String.eqb (model_type (gm_params g)) "rnn" then
    match rnn g with Some _ => Some (to_string (gm_params g), rnn g, encoder g, decoder g) | None => None end
  else match encoder g, decoder g with Some _, Some _ => Some (to_string (gm_params g), rnn g, encoder g, decoder g) | _, _ => None end.
(** load_state_dict *)
Definition load_net (p : param Z) (name : string) (w : option W) : option W :=
  match w with Some v => if fits p name v then Some v else None | None => None end.
(** build_rnn or build_s2s with the weights — model.py:1276-1286, ensemble.py:549-559, serialize.py:37-50 *)
Definition rebuild (p : param Z) (r e d : option W) : option gm :=
  if String.eqb (model_type p) "rnn" then
    match load_net p "rnn" r with Some w => Some {| gm_params := p; rnn := Some w; encoder := None; decoder := None |} | None => None end
  else match load_net p "encoder" e, load_net p "decoder" d with
       | Some a, Some b => Some {| gm_params := p; rnn := None; encoder := Some a; decoder := Some b |}
       | _, _ => None
       end.
(** load_gmmodel_from_file — model.py:1262-1293 *)
Definition gm_load (f : param string * option W * option W * option W) : option gm :=
  let '(ps, r, e, d) := f in match from_string ps with Some p => rebuild p r e d | None => None end.

(** training information *)
Inductive value := Num (q : Q) | Str (s : string) | List (l : list value) | Dict (l : list (string * value)) | Frame.
Fixpoint json_ok (v : value) : bool :=
  match v with
  | Num _ | Str _ => true
  | List l => forallb json_ok l
  | Dict l => forallb (fun kv => json_ok (snd kv)) l
  | Frame => false
  end.
Record gme := { ge_params : param Z; ensemble_type : string; splits : nat; overlap : bool; replicate : nat; multi : bool; max_core : nat; models : list gm; gm_info : list value; test_ids : list nat }.
(** GMEnsemble(...) — ensemble.py:53-115; [None] if it raises *)
Definition make_gme (cpus : nat) (p : param Z) (et : string) (sp : nat) (ov : bool) (rep : nat) (mu : bool) (core : nat) : option gme :=
  if (String.eqb et "median" || String.eqb et "mean") && (1 <=? sp) && (1 <=? rep) && (1 <=? core) && (core <=? cpus)
  then Some {| ge_params := p; ensemble_type := et; splits := sp; overlap := ov; replicate := rep; multi := mu; max_core := core; models := repeat (fresh p) (rep * sp); gm_info := []; test_ids := [] |}
  else None.
Fixpoint traverse {A B} (f : A -> option B) (l : list A) : option (list B) :=
  match l with [] => Some [] | x :: l => match f x, traverse f l with Some y, Some r => Some (y :: r) | _, _ => None end end.
Record file := { f_rnn : option (list W); f_encoder : option (list W); f_decoder : option (list W); f_params : param string; f_info : list value; f_test_ids : list nat;
                 f_splits : nat; f_overlap : bool; f_replicate : nat; f_multi : bool; f_core : nat; f_type : string }.
(** save_model of the ensemble — ensemble.py:398-448 *)
Definition gme_save (e : gme) : option file :=
  match models e with
  | [] => None
  | _ =>
    let mk r en de := {| f_rnn := r; f_encoder := en; f_decoder := de; f_params := to_string (ge_params e); f_info := gm_info e; f_test_ids := test_ids e;
                         f_splits := splits e; f_overlap := overlap e; f_replicate := replicate e; f_multi := multi e; f_core := max_core e; f_type := ensemble_type e |} in
    if String.eqb (model_type (ge_params e)) "rnn" then
      match traverse rnn (models e) with Some r => Some (mk (Some r) None None) | None => None end
    else match traverse encoder (models e), traverse decoder (models e) with Some a, Some b => Some (mk None (Some a) (Some b)) | _, _ => None end
  end.
(** load_gmensemble_from_file — ensemble.py:540-574: the test ids are not read *)
Definition gme_load (cpus : nat) (f : file) : option gme :=
  match from_string (f_params f) with
  | None => None
  | Some p =>
    let n := match f_rnn f with Some r => List.length r | None => match f_encoder f with Some e => List.length e | None => 0 end end in
    let get o i := match o with Some l => nth_error l i | None => None end in
    match traverse (fun i => rebuild p (get (f_rnn f) i) (get (f_encoder f) i) (get (f_decoder f) i)) (seq 0 n) with
    | None => None
    | Some ms =>
      match make_gme cpus p (f_type f) (f_splits f) (f_overlap f) (f_replicate f) (f_multi f) (Nat.min (f_core f) cpus) with
      | Some e => Some {| ge_params := ge_params e; ensemble_type := ensemble_type e; splits := splits e; overlap := overlap e; replicate := replicate e; multi := multi e; max_core := max_core e; models := ms; gm_info := f_info f; test_ids := test_ids e |}
      | None => None
      end
    end
  end.
(** the dictionaries of weights — serialize.py:20-34 *)
Definition nn_dict (g : gm) : option (option W * option W * option W) :=
  if String.eqb (model_type (gm_params g)) "rnn" then match rnn g with Some w => Some (Some w, None, None) | None => None end
  else match encoder g, decoder g with Some a, Some b => Some (None, Some a, Some b) | _, _ => None end.
Inductive json := JModel (p : param string) (nets : option W * option W * option W)
                | JEnsemble (p : param string) (et : string) (sp : nat) (ov : bool) (rep : nat) (mu : bool) (core : nat) (info : list value) (ms : list (option W * option W * option W)).
(** global_model_to_json — serialize.py:53-82 *)
Definition gm_json (g : gm) : option json := match nn_dict g with Some d => Some (JModel (to_string (gm_params g)) d) | None => None end.
Definition gme_json (e : gme) : option json :=
  match traverse nn_dict (models e) with
  | Some ms => if forallb json_ok (gm_info e) then Some (JEnsemble (to_string (ge_params e)) (ensemble_type e) (splits e) (overlap e) (replicate e) (multi e) (max_core e) (gm_info e) ms) else None
  | None => None
  end.
(** load_global_model_from_json — serialize.py:85-122 *)
Definition from_json (cpus : nat) (j : json) : option (gm + gme) :=
  match j with
  | JModel ps (r, e, d) => match from_string ps with Some p => option_map inl (rebuild p r e d) | None => None end
  | JEnsemble ps et sp ov rep mu core info ms =>
    match from_string ps with
    | None => None
    | Some p =>
      match make_gme cpus p et sp ov rep mu (Nat.min cpus core), traverse (fun t => let '(r, e, d) := t in rebuild p r e d) ms with
      | Some e, Some l => Some (inr {| ge_params := ge_params e; ensemble_type := ensemble_type e; splits := splits e; overlap := overlap e; replicate := replicate e; multi := multi e; max_core := max_core e; models := l; gm_info := info; test_ids := test_ids e |})
      | _, _ => None
      end
    end
  end.
End Save.
