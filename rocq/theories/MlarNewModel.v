(** kats/models/ml_ar.py:100-119, 592-625, 947-966, 1146-1240: the window of a prediction with new data or with its own
    forecasts, the series kept for later predictions, and the encoding of a categorical column.

    Simplifications: one target variable and one categorical column; a series is on the grid of its frequency and its times
    are the numbers of the grid points; a row is the target, None for NaN, and the label, None for NaN; labels are integers;
    the frames of all_series and the windows have no gaps, so _valid_and_fillna leaves them alone (see C293); the columns of
    lags and statistics are in MlarModel. *)
From Coq Require Import List ZArith Bool.
From Verif Require Import MlarGridModel.
Import ListNotations.
Open Scope Z_scope.

Definition row (A : Type) : Type := (option A * option Z)%type.
Definition frame (A : Type) : Type := list (Z * row A).
(** the argument new_data of _predict: nothing, actual data, or forecasts (with fill_missing) — ml_ar.py:1146-1151, 1334, 1358 *)
Inductive input (A : Type) := Nothing | Actual (new : frame A) | Forecasts (fc : list (Z * A)).
Arguments Nothing {A}. Arguments Actual {A}. Arguments Forecasts {A}.

(** DataFrame.last_valid_index of the target *)
Definition last_valid {A} (f : frame A) : option Z :=
  fold_left (fun acc r => match fst (snd r) with Some _ => Some (fst r) | None => acc end) f None.
Definition greatest (l : list Z) : option Z := match l with [] => None | t :: l => Some (fold_right Z.max t l) end.
Definition least (l : list Z) : option Z := match l with [] => None | t :: l => Some (fold_right Z.min t l) end.
(** pd.date_range on the grid *)
Definition span (a b : Z) : list Z := map (fun i => a + Z.of_nat i) (seq 0 (Z.to_nat (b - a + 1))).
(** a row of frame joined on a time, NaN where there is none *)
Definition at_time {A} (f : frame A) (t : Z) : row A := match find_row f t with Some r => r | None => (None, None) end.
(** fc_origin and max_ts — ml_ar.py:1156-1194.  pivot and update raise for repeated times. *)
Definition bounds {A} (data : frame A) (i : input A) : option (Z * Z) :=
  match i with
  | Nothing =>
      match last_valid data, greatest (map fst data) with Some o, Some m => Some (o, Z.max o m) | _, _ => None end
  | Actual new =>
      if has_dup (map fst new) then None
      else match least (map fst new), greatest (map fst new) with
      | Some a, Some m => let o := match last_valid new with Some o => o | None => a - 1 end in Some (o, Z.max o m)
      | _, _ => None
      end
  | Forecasts fc =>
      if has_dup (map fst fc) then None
      else match least (map fst fc), greatest (map fst fc), greatest (map fst data) with
      | Some a, Some b, Some m =>
          let o := match filter (fun t => negb (existsb (Z.eqb t) (map fst fc))) (span a b) with [] => b | t :: _ => t - 1 end in
          Some (o, Z.max o m)
      | _, _, _ => None
      end
  end.
Definition or_else {B} (x y : option B) : option B := match x with Some _ => x | None => y end.
(** a row of in_window — ml_ar.py:1207-1228 *)
Definition cell {A} (data : frame A) (i : input A) (o t : Z) : row A :=
  let r := at_time data t in
  match i with
  | Nothing => r
  | Forecasts fc => (or_else (fst r) (if t <=? o then find_row fc t else None), snd r)
  | Actual new =>
      let n := at_time new t in
      (or_else (fst n) (if o <? t then None else fst r), or_else (snd n) (snd r))
  end.
(** in_window — ml_ar.py:1196-1228 *)
Definition in_window {A} (max_lags : nat) (data : frame A) (i : input A) : option (frame A) :=
  match bounds data i with
  | None => None
  | Some (o, m) =>
      match span (o - (Z.of_nat max_lags - 1)) m with
      | [] => None
      | ts => Some (map (fun t => (t, cell data i o t)) ts)
      end
  end.
Fixpoint windows {A} (max_lags : nat) (data : list (frame A)) (is : list (input A)) : option (list (frame A)) :=
  match data, is with
  | [], _ => Some []
  | _ :: _, [] => None
  | d :: data, i :: is =>
      match in_window max_lags d i, windows max_lags data is with Some w, Some ws => Some (w :: ws) | _, _ => None end
  end.
(** what _predict predicts from and the series it leaves behind — ml_ar.py:1236-1240 *)
Definition predict_from {A} (max_lags : nat) (data : list (frame A)) (is : list (input A)) (actual : bool) : option (list (frame A) * list (frame A)) :=
  match windows max_lags data is with
  | None => None
  | Some ws => Some (ws, if actual then ws else data)
  end.
(** the rows that become origins: up to the last valid target, from number max_lags - 1 — ml_ar.py:623, 633, 611 *)
Definition cut {A} (f : frame A) : frame A :=
  match last_valid f with None => f | Some o => filter (fun r => fst r <=? o) f end.
Definition origins {A} (max_lags : nat) (f : frame A) : frame A := skipn (max_lags - 1) (cut f).
(** _get_all_cat_labels, ml_ar.py:947-966: the labels of the first rows, without repetition; a NaN among them raises *)
Fixpoint uniq (seen l : list Z) : list Z :=
  match l with [] => [] | x :: l => if existsb (Z.eqb x) seen then uniq seen l else x :: uniq (x :: seen) l end.
Fixpoint heads {A} (fs : list (frame A)) : option (list Z) :=
  match fs with
  | [] => Some []
  | [] :: fs => heads fs
  | ((_, (_, c)) :: _) :: fs => match c, heads fs with Some c, Some l => Some (c :: l) | _, _ => None end
  end.
Definition cat_labels {A} (fs : list (frame A)) : option (list Z) := option_map (uniq []) (heads fs).
(** astype(CategoricalDtype) and get_dummies: a column for every category; a label that is not among them is NaN —
    ml_ar.py:100-119, 592-612 *)
Definition encode (cats : list Z) (c : option Z) : list bool := map (fun d => match c with Some c => c =? d | None => false end) cats.
(** the columns of the encoded categorical and, for every series, the rows of its origins *)
Definition encoded {A} (max_lags : nat) (fs : list (frame A)) : option (list Z * list (list (list bool))) :=
  match cat_labels fs with
  | None => None
  | Some cats => Some (cats, map (fun f => map (fun r => encode cats (snd (snd r))) (origins max_lags f)) fs)
  end.
