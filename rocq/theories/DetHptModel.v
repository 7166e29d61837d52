(** The meta-learner of detector hyper-parameters — detectors/meta_learning/hpt_tuning.py:144-325, on top of MetaLearnHPT (MetaHptModel.v).

    Values of hyper-parameters are numbers [Z] (codes of the values), [None] is NaN.  The detector's constructor, the trained network and
    whether its training raises are parameters. *)
From Coq Require Import List Bool Arith ZArith QArith String.
From Verif Require Import Common MetaHptModel.
Import ListNotations.
Open Scope nat_scope.

(** data_y: its columns in order *)
Definition columns := list (string * list (option Z)).
Fixpoint column (k : string) (l : columns) : option (list (option Z)) :=
  match l with [] => None | (k', c) :: r => if String.eqb k' k then Some c else column k r end.

(** the names that are not arguments of the detector — hpt_tuning.py:192-198 *)
Definition not_arguments : list string := ["threshold_low"; "threshold_high"; "detection_window_sec"; "fraction"; "direction_1d"]%string.
(** the arguments built from row [i] — hpt_tuning.py:177, 200: hp.to_dict() without these names *)
Definition arguments (l : columns) (i : nat) : list (string * option Z) :=
  filter (fun kv => negb (existsb (String.eqb (fst kv)) not_arguments)) (map (fun kc => (fst kc, nth i (snd kc) None)) l).

(** DataFrame.nunique: the number of distinct values, NaN not counted *)
Definition nunique (c : list (option Z)) : nat := List.length (categories c).
(** get_const_params — hpt_tuning.py:206-216 *)
Definition get_const_params (l : columns) : list (string * option Z) :=
  flat_map (fun kc => if nunique (snd kc) =? 1 then [(fst kc, nth 0 (snd kc) None)] else []) l.

(** a trained MetaLearnHPT: its parameters, the columns of its categorical parameters and the network *)
Record learned := { l_hpt : hpt; l_decoders : list (list (option Z)); l_sizes : list (list nat); l_net : list Q -> list (list Q) * list Q }.
Record selector := { s_rows : nat; s_features : nat; s_labels : columns; s_const : list (string * option Z); s_model : option learned }.

(** the constructor — hpt_tuning.py:144-183: [init] is whether the detector accepts the arguments, [rows] the rows of the two frames *)
Definition make (init : list (string * option Z) -> bool) (rows nfeat : nat) (data_y : columns) : option selector :=
  if forallb (fun i => init (arguments data_y i)) (seq 0 rows)
  then let const := get_const_params data_y in
       Some {| s_rows := rows; s_features := nfeat;
               s_labels := filter (fun kc => negb (existsb (String.eqb (fst kc)) (map fst const))) data_y;
               s_const := const; s_model := None |}
  else None.

(** train — hpt_tuning.py:218-294; [fit] gives the network, [None] if the training raises.  The result is the object afterwards and whether
    train returned; the model is assigned at the end, so an exception leaves the previous one *)
Definition train (s : selector) (num cat : list string) (shared : list nat) (combo : list (list nat)) (numeric : list nat)
  (fit : option (list Q -> list (list Q) * list Q)) : selector * bool :=
  let const := map fst (s_const s) in
  if existsb (fun k => existsb (String.eqb k) const) num then (s, false)
  else if existsb (fun k => existsb (String.eqb k) const) cat then (s, false)
  else let combo := if List.length combo =? List.length cat then combo else repeat [5] (List.length cat) in
       match construct (Some cat) (Some num) (fun k => option_map nunique (column k (s_labels s))) (List.length (s_labels s)) (s_rows s) (s_features s) with
       | None => (s, false)
       | Some h => match build h shared combo numeric with
                   | None => (s, false)
                   | Some _ => match fit with
                               | None => (s, false)
                               | Some net => ({| s_rows := s_rows s; s_features := s_features s; s_labels := s_labels s; s_const := s_const s;
                                   s_model := Some {| l_hpt := h; l_decoders := map (fun k => match column k (s_labels s) with Some c => c | None => [] end) cat;
                                                      l_sizes := combo; l_net := net |} |}, true)
                               end
                   end
       end.

(** a recommended value: one of the values of data_y, or a number from the network *)
Inductive answer := Given (v : option Z) | Number (x : Q).
Fixpoint put (k : string) (v : answer) (d : list (string * answer)) : list (string * answer) :=
  match d with [] => [(k, v)] | (k', w) :: r => if String.eqb k' k then (k', v) :: r else (k', w) :: put k v r end.
Fixpoint look (k : string) (d : list (string * answer)) : option answer :=
  match d with [] => None | (k', v) :: r => if String.eqb k' k then Some v else look k r end.
(** what is given as features: rows, or something that is not a table of numbers *)
Inductive given := Rows (l : list (list (option Q))) | Scalar.
Definition fill (row : list (option Q)) : list Q := map (fun v => match v with Some x => x | None => 0%Q end) row.
(** get_hpt_from_features — hpt_tuning.py:307-319 with pred_by_feature — metalearner_hpt.py:687-739: the rows of the data frame returned; the
    scaling of the features is part of the network *)
Definition features_row (s : selector) (m : learned) (row : list (option Q)) : option (list (string * answer)) :=
  match recommended (l_hpt m) (l_decoders m) (fst (l_net m (fill row))) (snd (l_net m (fill row))) with
  | None => None
  | Some (rc, rn) => Some (fold_left (fun d kv => put (fst kv) (Given (snd kv)) d) (s_const s)
                             (fold_left (fun d kv => put (fst kv) (Number (snd kv)) d) rn (fold_left (fun d kv => put (fst kv) (Given (snd kv)) d) rc [])))
  end.
Fixpoint all_rows {A B} (f : A -> option B) (l : list A) : option (list B) :=
  match l with [] => Some [] | x :: r => match f x, all_rows f r with Some y, Some ys => Some (y :: ys) | _, _ => None end end.
Definition get_hpt_from_features (s : selector) (x : given) : option (list (list (string * answer))) :=
  match s_model s with
  | None => None
  | Some m => match x with
              | Scalar => None (* np.isnan of an array of objects *)
              | Rows l => all_rows (features_row s m) l
              end
  end.
(** get_hpt_from_ts — hpt_tuning.py:302-305: np.asarray(features.values()) is an array without dimensions that holds the dict view *)
Definition get_hpt_from_ts (s : selector) (features : list (string * option Q)) : option (list (list (string * answer))) := get_hpt_from_features s Scalar.
