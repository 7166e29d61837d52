(** The data sets that come with the package — data/utils.py:38-50 and 62-104.

    A path is its text; the package is the list of its data files under their paths relative to the directory of the package, with
    the tables that pandas reads from them.  Left out: file names with "." or ".." in them, files that are not tables. *)
From Coq Require Import List Bool Arith String Ascii.
Import ListNotations.
Open Scope string_scope.
Open Scope nat_scope.

(** str.lower, for ASCII *)
Definition lower_char (c : ascii) : ascii := let n := nat_of_ascii c in if (65 <=? n) && (n <=? 90) then ascii_of_nat (n + 32) else c.
Fixpoint lower (s : string) : string := match s with EmptyString => EmptyString | String c s => String (lower_char c) (lower s) end.
(** p in s *)
Fixpoint contains (p s : string) : bool := String.prefix p s || match s with EmptyString => false | String _ s => contains p s end.
Record table := { t_columns : list string; t_rows : list (list string) }.
Definition package := list (string * table).
(** pkgutil.get_data("kats", path) and read_csv; [None]: FileNotFoundError *)
Fixpoint get_data (p : package) (path : string) : option table :=
  match p with [] => None | (f, t) :: p => if String.eqb f path then Some t else get_data p path end.
(** df.columns = names; [None]: ValueError if the number of columns is another *)
Definition set_columns (t : table) (names : list string) : option table :=
  if List.length (t_columns t) =? List.length names then Some {| t_columns := names; t_rows := t_rows t |} else None.
(** load_data — data/utils.py:38-50 *)
Definition load_data (p : package) (cwd file_name : string) (reset_columns : bool) : option table :=
  let path := if contains "kats" (lower cwd) then "data/" else "kats/data/" in
  match get_data p (path ++ file_name) with
  | None => None
  | Some t => if reset_columns then set_columns t ["time"; "y"] else Some t
  end.
(** load_air_passengers — data/utils.py:62-104; [make] is the constructor of TimeSeriesData *)
Definition load_air_passengers {T} (make : table -> option T) (p : package) (cwd : string) (return_ts : bool) : option (table + T) :=
  match load_data p cwd "air_passengers.csv" false with
  | None => None
  | Some t => match set_columns t ["time"; "y"] with
              | None => None
              | Some t => if return_ts then option_map inr (make t) else Some (inl t)
              end
  end.
