(** kats/tsfeatures/tsfeatures.py:2187-2275: TsFourierFeatures, over the real numbers. *)
From Coq Require Import List Arith Reals Bool ZArith.
Import ListNotations.
Open Scope nat_scope.

(** What __init__ (2196-2216) keeps; None is the AssertionError. One order for all periods is a single number. *)
Record fourier := { periods : list R; orders : list nat; offset : R }.
Inductive order_arg := One (r : nat) | Many (rs : list nat).
Definition fourier_init (ps : list R) (order : order_arg) (off : R) : option fourier :=
  let rs := match order with One r => repeat r (length ps) | Many rs => rs end in
  if negb (length ps =? length rs) then None else
  if Rlt_dec off 0 then None else Some {| periods := ps; orders := rs; offset := off |}.

(** The name of a column: the period, the order, and sin or cos. *)
Inductive wave := Sin | Cos.
Definition name := (R * nat * wave)%type.
(** tmp[::2] = evens; tmp[1::2] = odds *)
Fixpoint interleave {A} (evens odds : list A) : list A :=
  match evens, odds with e :: es, o :: os => e :: o :: interleave es os | _, _ => [] end.
(** 2218-2228 (_get_columns). *)
Definition get_columns (f : fourier) : list name :=
  flat_map (fun pr => interleave (map (fun t => (fst pr, t, Sin)) (seq 1 (snd pr))) (map (fun t => (fst pr, t, Cos)) (seq 1 (snd pr))))
    (combine (periods f) (orders f)).

(** 2254-2275 (_compute_fourier_order): one row, column after column. None is the NaN of a division by zero. *)
Fixpoint orders_from (val : option R) (j n : nat) : list (option R) :=
  match n with
  | O => []
  | S n' => let tmp := option_map (fun v => (v * INR j)%R) val in option_map sin tmp :: option_map cos tmp :: orders_from val (S j) n'
  end.
Definition divide (a b : R) : option R := if Req_EM_T b 0 then None else Some (a / b)%R.
Definition compute_row (f : fourier) (data : option R) : list (option R) :=
  flat_map (fun pr => orders_from (match data with Some d => divide (2 * PI * d) (fst pr) | None => None end) 1 (snd pr)) (combine (periods f) (orders f)).

(** 2230-2252 (get_features): times are seconds since 1970, the nanoseconds divided by 10^9, of the time column of a
    TimeSeriesData or of a series that can be cast to int. Other series raise (the code divides the accessor [.dt]) and
    are not modelled. *)
Inductive source := Nanoseconds (ns : list Z).
Definition get_features (f : fourier) (s : source) : option (list name * list (list (option R))) :=
  match s with
  | Nanoseconds ns => Some (get_columns f, map (fun n => compute_row f (divide (IZR (n / 1000000000)) (offset f))) ns)
  end.
