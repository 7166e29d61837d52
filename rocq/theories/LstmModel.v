(** kats/models/lstm.py: the LSTM forecaster.

    Simplifications: torch's network and its optimizer are parameters: [fresh] the new network with its optimizer, [fwd] the
    forward pass from weights, hidden state and a non-empty sequence to the last output and the new hidden state, [update] one
    step of the optimizer (zero_grad, forward, loss, backward, step).  Values are real numbers, so the conversion to 32-bit
    floats is the identity; NaN is not modelled, and time_window is not negative.  Frequencies are grids as in
    HeuristicModel.v.  None is an exception. *)
From Coq Require Import Reals.
From Coq Require Import List ZArith Bool.
From Verif Require Import PySlice OutlierModel HeuristicModel TsfShapeModel.
Import ListNotations.
Open Scope R_scope.

(** sklearn's MinMaxScaler(feature_range=(-1, 1)), used at lstm.py:159-160: scale_ and min_; a range of 0 counts as 1 *)
Record scaler := Scaler { sc_scale : R; sc_min : R }.
Definition handle_zero (range : R) : R := if Req_EM_T range 0 then 1 else range.
Definition fit_scaler (x : list R) : option scaler :=
  match x with
  | [] => None
  | _ => let s := (1 - -1) / handle_zero (rmax_list x - rmin_list x) in Some (Scaler s (-1 - rmin_list x * s))
  end.
Definition transform (sc : scaler) (v : R) : R := v * sc_scale sc + sc_min sc.
Definition inverse_transform (sc : scaler) (v : R) : R := (v - sc_min sc) / sc_scale sc.

(** lstm.py:167-175: the pairs of __setup_data *)
Definition pairs (time_window : nat) (x : list R) : list (list R * list R) :=
  map (fun i => (py_slice x (Some (Z.of_nat i)) (Some (Z.of_nat (i + time_window))),
                 py_slice x (Some (Z.of_nat (i + time_window))) (Some (Z.of_nat (i + time_window + 1)))))
      (seq 0 (length x - time_window)).

Record params := Params { time_window : nat; num_epochs : nat }.
Record net (W H : Type) := Net { weights : W; hidden : H }.
Arguments Net {W H}. Arguments weights {W H}. Arguments hidden {W H}.
(** what an LSTMModel holds: lstm.py:118-121 *)
Record lstm (W H : Type) := Lstm { l_normalized : option (list R); l_scaler : option scaler; l_net : option (net W H) }.
Arguments Lstm {W H}. Arguments l_normalized {W H}. Arguments l_scaler {W H}. Arguments l_net {W H}.
Definition new {W H : Type} : lstm W H := Lstm None None None.

(** the loop of fit, lstm.py:207-222: [zero] is the hidden state of zeros; [seen] says that single_loss is bound.  A sequence
    of length 0 cannot be reshaped, and an unbound single_loss raises. *)
Definition train_pair {W H : Type} (zero : H) (update : W -> H -> list R -> list R -> W * H) (n : net W H) (p : list R * list R) : option (net W H) :=
  match fst p with
  | [] => None
  | _ => let '(w, h) := update (weights n) zero (fst p) (snd p) in Some (Net w h)
  end.
Fixpoint train_epoch {W H : Type} (zero : H) (update : W -> H -> list R -> list R -> W * H) (ps : list (list R * list R)) (n : net W H) : option (net W H) :=
  match ps with
  | [] => Some n
  | p :: ps => match train_pair zero update n p with Some n => train_epoch zero update ps n | None => None end
  end.
Definition bound {A} (ps : list A) : bool := match ps with [] => false | _ => true end.
Fixpoint train {W H : Type} (zero : H) (update : W -> H -> list R -> list R -> W * H) (ps : list (list R * list R)) (epochs i : nat) (n : net W H) : option (net W H) :=
  match epochs with
  | O => Some n
  | S epochs =>
      match train_epoch zero update ps n with
      | None => None
      | Some n => if ((i mod 25 =? 1) && negb (bound ps))%nat%bool then None else train zero update ps epochs (S i) n
      end
  end.

(** fit, lstm.py:178-224 with __setup_data, 156-164: the network is new and is kept before the data are set up; whatever
    raises later leaves it.  The network as training left it when it raises is not told apart from the new one: the only
    exceptions come before its first update. *)
Definition fit {W H : Type} (fresh : net W H) (zero : H) (update : W -> H -> list R -> list R -> W * H)
    (p : params) (values : list R) (m : lstm W H) : bool * lstm W H :=
  match fit_scaler values with
  | None => (false, Lstm (l_normalized m) None (Some fresh))
  | Some sc =>
      let x := map (transform sc) values in
      match train zero update (pairs (time_window p) x) (num_epochs p) 0 fresh with
      | Some n => (true, Lstm (Some x) (Some sc) (Some n))
      | None => (false, Lstm (Some x) (Some sc) (Some fresh))
      end
  end.

(** the loop of predict, lstm.py:253-262 *)
Fixpoint roll_out {W H : Type} (zero : H) (fwd : W -> H -> list R -> R * H) (window steps : nat) (n : net W H) (inputs : list R) : option (list R * net W H) :=
  match steps with
  | O => Some (inputs, n)
  | S steps =>
      match py_slice inputs (Some (- Z.of_nat window)%Z) None with
      | [] => None
      | s => let '(y, h) := fwd (weights n) zero s in roll_out zero fwd window steps (Net (weights n) h) (inputs ++ [y])
      end
  end.
Record row := Row { r_time : Z; r_fcst : R; r_lower : R; r_upper : R }.
(** predict, lstm.py:228-291: the rows, and the model afterwards.  Columns of different lengths raise. *)
Definition predict {W H : Type} (roll next : Z -> Z) (zero : H) (fwd : W -> H -> list R -> R * H)
    (p : params) (times : list Z) (steps : nat) (m : lstm W H) : option (list row * lstm W H) :=
  match l_net m, l_normalized m, l_scaler m with
  | Some n, Some x, Some sc =>
      match roll_out zero fwd (time_window p) steps n (py_slice x (Some (- Z.of_nat (time_window p))%Z) None) with
      | None => None
      | Some (inputs, n) =>
          let fcst := map (inverse_transform sc) (py_slice inputs (Some (Z.of_nat (time_window p))) None) in
          let dates := future roll next (zmax times) steps in
          if (length dates =? length fcst)%nat then
            Some (map (fun d => Row (fst d) (snd d) (snd d * (95 / 100)) (snd d * (105 / 100))) (combine dates fcst), Lstm (Some x) (Some sc) (Some n))
          else None
      end
  | _, _, _ => None
  end.
