(** Renaming columns by prefix — kats/utils/dataframe_utils.py:11-92.  Columns are labelled by strings; a rule is a prefix
    with the new name, the prefixes being distinct (a dict). *)
From Coq Require Import List String Bool Arith.
Import ListNotations.
Open Scope list_scope.

(** the columns matched by a prefix — dataframe_utils.py:70-72 *)
Definition matched (time_col : string) (cols : list string) (pre : string) : list string :=
  filter (fun c => negb (String.eqb c time_col) && prefix pre c) cols.
(** the loop — dataframe_utils.py:68-91: [mapping] maps matched columns to new names (None: ValueError) *)
Fixpoint mapping_of (time_col : string) (cols : list string) (rules : list (string * string)) (mapping : list (string * string))
    : option (list (string * string)) :=
  match rules with
  | [] => Some mapping
  | (pre, new) :: rules =>
      match matched time_col cols pre with
      | [c] => if existsb (fun m => String.eqb (fst m) c) mapping then None
               else mapping_of time_col cols rules (mapping ++ [(c, new)])
      | _ => None
      end
  end.
Definition renamed (mapping : list (string * string)) (c : string) : string :=
  match find (fun m => String.eqb (fst m) c) mapping with Some m => snd m | None => c end.
(** rename_columns_by_prefix — dataframe_utils.py:65-92: the new column labels *)
Definition rename_columns (time_col : string) (cols : list string) (rules : list (string * string)) : option (list string) :=
  match mapping_of time_col cols rules [] with
  | None => None
  | Some mapping => Some (map (renamed mapping) cols)
  end.
