(** kats/models/ml_ar.py:416-509: the frequency of the autoregressive forecaster and the rows it keeps of its series.

    Simplifications: times are integers; a frequency is a grid of times: [roll t] the first grid time not before t, [next t] the
    one after a grid time; [offset] is to_offset, None for an unknown name; [infer] is pd.infer_freq.  A row of values is of any
    type; a row of NaN is None.  Adding i times the offset to a grid time is taking i steps on the grid. *)
From Coq Require Import String.
From Coq Require Import List ZArith Bool.
Import ListNotations.
Open Scope Z_scope.

Record freq := Freq { roll : Z -> Z; next : Z -> Z }.
(** _infer_freq, ml_ar.py:416-429 *)
Definition rename (f : string) : string :=
  if existsb (String.eqb f) ["BM"; "CBM"; "MS"; "BMS"; "CBMS"]%string then "M"%string
  else if existsb (String.eqb f) ["BQ"; "QS"; "BQS"]%string then "Q"%string
  else if existsb (String.eqb f) ["A"; "BA"; "BY"; "AS"; "YS"; "BAS"; "BYS"]%string then "Y"%string
  else f.
Definition infer_freq (infer : list Z -> option string) (times : list Z) (given : option string) : option string :=
  match given with
  | Some f => Some f
  | None => match infer times with None => None | Some f => Some (rename f) end
  end.
(** a series: its columns and its rows in order *)
Record series (A : Type) := Series { columns : list string; rows : list (Z * A) }.
Arguments Series {A}. Arguments columns {A}. Arguments rows {A}.
(** pd.date_range(start, end, freq): the grid times from start to end; every step is at least 1, so there are at most
    end - start + 1 *)
Fixpoint upto (f : freq) (fuel : nat) (t last : Z) : list Z :=
  match fuel with O => [] | S fuel => if last <? t then [] else t :: upto f fuel (next f t) last end.
Definition date_range (f : freq) (first last : Z) : list Z := upto f (Z.to_nat (last - first + 1)) (roll f first) last.
Fixpoint find_row {A} (l : list (Z * A)) (t : Z) : option A :=
  match l with [] => None | (u, a) :: l => if u =? t then Some a else find_row l t end.
Fixpoint has_dup (l : list Z) : bool := match l with [] => false | t :: l => existsb (Z.eqb t) l || has_dup l end.
(** _check_single_ts, ml_ar.py:431-456; reindexing from repeated times raises *)
Definition check_single {A} (required : list string) (f : freq) (s : series A) : option (list (Z * option A)) :=
  if negb (forallb (fun c => existsb (String.eqb c) (columns s)) required) then None
  else
    match map fst (rows s) with
    | [] => None
    | t :: ts =>
        if has_dup (t :: ts) then None
        else Some (map (fun u => (u, find_row (rows s) u)) (date_range f (fold_right Z.min t ts) (fold_right Z.max t ts)))
    end.
(** _valid_and_fillna, ml_ar.py:458-509: the frames of the series, the times, and the frequency kept in the parameters *)
Definition forecast_times (f : freq) (last : Z) (horizon : list nat) : list Z := map (fun i => Nat.iter i (next f) last) horizon.
Fixpoint frames {A} (required : list string) (f : freq) (horizon : list nat) (l : list (series A)) : option (list (list (Z * option A)) * list Z) :=
  match l with
  | [] => Some ([], [])
  | s :: l =>
      match check_single required f s with
      | None => None
      | Some fr =>
          match rev (map fst fr) with
          | [] => None
          | last :: _ =>
              match frames required f horizon l with
              | None => None
              | Some (frs, ts) => Some (fr :: frs, map fst fr ++ forecast_times f last horizon ++ ts)
              end
          end
      end
  end.
Definition valid_and_fillna {A} (infer : list Z -> option string) (offset : string -> option freq) (required : list string) (horizon : list nat)
    (given : option string) (data : list (series A)) : option (list (list (Z * option A)) * list Z * string) :=
  match data with
  | [] => None
  | s :: _ =>
      match infer_freq infer (map fst (rows s)) given with
      | None => None
      | Some name =>
          match offset name with
          | None => None
          | Some f => match frames required f horizon data with None => None | Some (frs, ts) => Some (frs, ts, name) end
          end
      end
  end.
(** ml_ar.py:397, 490: the frequency is written into the parameters, which are the caller's object and may be given to several
    models; it stays there when the call raises later *)
Definition freq_after {A} (infer : list Z -> option string) (given : option string) (data : list (series A)) : option string :=
  match data with
  | [] => given
  | s :: _ => match infer_freq infer (map fst (rows s)) given with Some name => Some name | None => given end
  end.
Fixpoint shared {A} (infer : list Z -> option string) (offset : string -> option freq) (required : list string) (horizon : list nat)
    (given : option string) (datas : list (list (series A))) : list (option (list (list (Z * option A)) * list Z * string)) :=
  match datas with
  | [] => []
  | d :: datas => valid_and_fillna infer offset required horizon given d
                  :: shared infer offset required horizon (freq_after infer given d) datas
  end.
