(** GMBatch of the global model — globalmodel/data_processor.py:181-632: the lengths, windows and arrays of a batch.

    Values are exact rationals, [None] is NaN; times are numbers, freq a fixed step.  The random numbers of _get_indices are
    parameters: [e] is the number of encoder steps drawn (366-368), [r] the number of steps added (384).  The parameters are those
    of a GMParam, all positive integers (utils.py:1337-1355); features and tensors are left out.  The series have float values:
    on integers the in-place sum of line 533 raises. *)
From Coq Require Import List Bool Arith ZArith QArith.
From Verif Require Import Common.
Import ListNotations.
Open Scope nat_scope.

Record params := { s2s : bool; input_window : nat; fcst_window : nat; min_training_step_num : nat; step_length : nat;
                   min_warming_up : nat; validation_step_num : nat; fcst_step_num : nat; seasonality : nat; ratio : Q }.
(** np.arange for positive steps *)
Definition arange (a b s : nat) : list nat := map (fun k => a + k * s) (seq 0 ((b - a + s - 1) / s)).
Definition list_max (l : list nat) : nat := fold_right Nat.max 0 l.
Definition list_min (l : list nat) : nat := match l with [] => 0 | x :: t => fold_right Nat.min x t end.

Record layout := { reduced_length : nat; reduced_valid_length : nat; train_indices : list nat; valid_indices : list nat; encoder_steps : nat }.
(** data_processor.py:356-358 *)
Definition train_basic (p : params) : nat := input_window p + min_training_step_num p * step_length p.
(** data_processor.py:360-373: one step for an rnn *)
Definition encoder (p : params) (e : nat) : nat := if s2s p then Nat.min (fcst_step_num p * 2) e else 1.
(** data_processor.py:361, 371-373 *)
Definition basic_length (p : params) (e : nat) : nat := train_basic p + fcst_window p * encoder p e.
(** the bounds of the random integers — data_processor.py:366-368, 378-384 *)
Definition encoder_bound (p : params) (max_length : nat) : nat := Nat.max 2 ((max_length - train_basic p) / fcst_window p).
Definition step_bound (p : params) (max_length e : nat) : nat := (max_length - basic_length p e) / step_length p.
(** _get_indices in training mode — data_processor.py:355-417; [None] if it raises (348-351) *)
Definition train_layout (p : params) (lengths : list nat) (valid : option (list nat)) (e r : nat) : option layout :=
  if list_min lengths <? seasonality p then None else
  let enc := encoder p e in
  let reduced := basic_length p e + r * step_length p in
  let tr := arange (input_window p) (reduced - fcst_window p * enc + 1) (step_length p) in
  match valid with
  | None => Some {| reduced_length := reduced; reduced_valid_length := 0; train_indices := tr; valid_indices := []; encoder_steps := enc |}
  | Some vl =>
      let last := if s2s p then reduced + enc * fcst_window p
                  else reduced + Nat.min (list_max vl) (fcst_window p * validation_step_num p) in
      let vi := arange reduced last (fcst_window p) in
      Some {| reduced_length := reduced; reduced_valid_length := length vi * fcst_window p; train_indices := tr; valid_indices := vi; encoder_steps := enc |}
  end.
(** _get_indices in testing mode — data_processor.py:419-439; Python's % takes the sign of the divisor *)
Definition test_layout (p : params) (lengths : list nat) : option layout :=
  if list_min lengths <? seasonality p then None else
  let m := Z.of_nat (list_max lengths) in
  let basic := input_window p + min_warming_up p * step_length p in
  let reduced := Z.to_nat (Z.max (Z.of_nat basic) (m - (m - Z.of_nat (input_window p)) mod Z.of_nat (step_length p))) in
  let rv := fcst_window p * fcst_step_num p in
  Some {| reduced_length := reduced; reduced_valid_length := rv; train_indices := arange (input_window p) reduced (step_length p);
          valid_indices := arange reduced (reduced + rv) (fcst_window p); encoder_steps := 1 |}.

(** ** The arrays of one series *)
Definition present (l : list (option Q)) : list Q := flat_map (fun v => match v with Some x => [x] | None => [] end) l.
Definition qmin (a b : Q) : Q := if Qle_bool a b then a else b.
Definition qmax (a b : Q) : Q := if Qle_bool a b then b else a.
(** TimeSeriesData.min and max skip NaN, and are NaN if there is nothing else *)
Definition ts_min (l : list (option Q)) : option Q := match present l with [] => None | x :: t => Some (fold_right qmin x t) end.
Definition ts_max (l : list (option Q)) : option Q := match present l with [] => None | x :: t => Some (fold_right qmax x t) end.
(** np.min and np.max of two numbers are NaN if one is *)
Definition both (f : Q -> Q -> Q) (a b : option Q) : option Q := match a, b with Some x, Some y => Some (f x y) | _, _ => None end.
(** offset_val — data_processor.py:507-527; [None]: infinite, a division by 0 *)
Definition offset_of (rt : Q) (train : list (option Q)) (valid : option (list (option Q))) : option Q :=
  match (match valid with None => ts_min train | Some v => both qmin (ts_min train) (ts_min v) end) with
  | None => Some 0%Q
  | Some mn =>
      if Qle_bool mn 0 then
        match (match valid with None => ts_max train | Some v => both qmax (ts_max train) (ts_max v) end) with
        | None => Some 0%Q
        | Some mx => if Qeq_bool mn mx then Some (1 - mn)%Q
                     else if Qeq_bool rt 1 then None else Some ((mx - rt * mn) / (rt - 1))%Q
        end
      else Some 0%Q
  end.
(** np.tile and the slice [-k:] *)
Definition tile {A} (l : list A) (rep : nat) : list A := concat (repeat l rep).
Definition last_n {A} (k : nat) (l : list A) : list A := skipn (length l - k) l.
(** data_processor.py:534-544, for the values and for the times *)
Definition cut_or_pad {A} (s reduced : nat) (l : list A) : list A :=
  if reduced <=? length l then last_n reduced l
  else let pad := reduced - length l in last_n pad (tile (firstn s l) (pad / s + 1)) ++ l.
(** data_processor.py:547-548; [None]: there is no value at all, IndexError *)
Definition fill_first (l : list (option Q)) : option (list (option Q)) :=
  match l with
  | None :: t => match present l with [] => None | x :: _ => Some (Some x :: t) end
  | _ => Some l
  end.
(** _fillin_nan_values — data_processor.py:626-632; [None]: index out of bounds *)
Fixpoint forward (prev : option Q) (k : nat) (l : list (option Q)) : list (option Q) :=
  match k, l with
  | S k, v :: t => let v' := match v with None => prev | Some _ => v end in v' :: forward v' k t
  | _, _ => l
  end.
Definition fill_season (s : nat) (l : list (option Q)) : option (list (option Q)) :=
  if s =? 1 then Some l else
  if length l <? s then None else
  match l with [] => Some [] | x :: t => Some (x :: forward x (s - 1) t) end.
Definition add_off (o : Q) : list (option Q) -> list (option Q) := map (option_map (fun x => x + o)%Q).
(** n times after t, freq apart: pd.date_range(t + freq, freq=freq, periods=n) *)
Definition times_after (t freq : Z) (n : nat) : list Z := map (fun k => t + Z.of_nat (S k) * freq)%Z (seq 0 n).

Record row := { train_x : list (option Q); train_time : list Z; offset : Q; valid_x : list (option Q); valid_time : list Z }.
(** one turn of the loop of _get_array — data_processor.py:502-594; a series is its values and times; without validation data
    in training mode [valid_x] and [valid_time] are empty *)
Definition get_row (p : params) (training : bool) (reduced reduced_valid : nat) (freq : Z)
    (train : list (option Q) * list Z) (valid : option (list (option Q) * list Z)) : option row :=
  match offset_of (ratio p) (fst train) (option_map fst valid) with
  | None => None
  | Some o =>
      match fill_first (cut_or_pad (seasonality p) reduced (add_off o (fst train))) with
      | None => None
      | Some x0 =>
          match fill_season (seasonality p) x0 with
          | None => None
          | Some x =>
              let tt := cut_or_pad (seasonality p) reduced (snd train) in
              match valid with
              | Some (vv, vt) =>
                  if length vv <? reduced_valid then
                    match rev vt with
                    | [] => None
                    | t :: _ => Some {| train_x := x; train_time := tt; offset := o; valid_x := add_off o vv ++ repeat None (reduced_valid - length vv);
                                        valid_time := vt ++ times_after t freq (reduced_valid - length vv) |}
                    end
                  else Some {| train_x := x; train_time := tt; offset := o; valid_x := firstn reduced_valid (add_off o vv); valid_time := firstn reduced_valid vt |}
              | None =>
                  if training then Some {| train_x := x; train_time := tt; offset := o; valid_x := []; valid_time := [] |}
                  else match rev (snd train) with
                       | [] => None
                       | t :: _ => Some {| train_x := x; train_time := tt; offset := o; valid_x := repeat None reduced_valid; valid_time := times_after t freq reduced_valid |}
                       end
              end
          end
      end
  end.

(** _get_seasonality and the bounds — data_processor.py:611-624, 266-273; a row without NaN in its first season *)
Definition clip (lo hi v : Q) : Q := let v1 := if Qle_bool lo v then v else lo in if Qle_bool v1 hi then v1 else hi.
Definition init_ratios (s : nat) (x : list Q) : list Q :=
  let season := firstn s x in map (fun v => v / (qsum season / inject_Z (Z.of_nat (length season))))%Q season.
Definition init_season (s : nat) (lo hi : Q) (x : list Q) : list Q := map (clip lo hi) (init_ratios s x).
