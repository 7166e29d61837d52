From Coq Require Import List String.
Import ListNotations.
(** the prefix applies to the column: it is not the time column and starts with the prefix *)
Definition applies (time_col pre c : string) : Prop := c <> time_col /\ exists rest, c = (pre ++ rest)%string.
(** exactly one column is matched *)
Definition unique_match (time_col : string) (cols : list string) (pre : string) : Prop :=
  exists i, i < List.length cols /\ applies time_col pre (nth i cols ""%string) /\
    forall j, j < List.length cols -> applies time_col pre (nth j cols ""%string) -> j = i.
