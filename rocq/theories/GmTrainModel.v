(** Training a global model — kats/models/globalmodel/model.py:86-95, 111-132, 369-517.

    The network is a parameter: weights, a pass over a batch in one of its two modes (training, test), its gradients, an
    optimizer.  So are the batches (GmLoaderModel.v, GmBatchModel.v) and the evaluation of the test series (GmFcstModel.v).  The
    random numbers of all of them come from one generator, whose state is threaded.  [None] is an exception; the state it leaves
    is kept.  The monitors are computed from the records of the steps, which the code accumulates in as many lists.  Not
    modelled: the hidden states of the network, reset before every step, and the messages. *)
From Coq Require Import String.
From Coq Require Import List ZArith QArith Bool.
From Verif Require Import GmParamModel.
Import ListNotations.
Open Scope nat_scope.

(** looking up a dictionary; params.batch_size[0] raises without the key *)
Fixpoint get {V} (k : Z) (d : list (Z * V)) : option V :=
  match d with [] => None | (k', v) :: d => if (k' =? k)%Z then Some v else get k d end.
(** a row of the validation losses: the names and values of the metrics, [None] is NaN *)
Definition row := list (string * option Q).
Fixpoint entry (n : string) (r : row) : option Q :=
  match r with [] => None | (m, v) :: r => if String.eqb m n then v else entry n r end.
Definition total (l : list Q) : Q := fold_right Qplus 0%Q l.
(** np.average; NaN of no values *)
Definition average (l : list Q) : option Q :=
  match l with [] => None | _ => Some (total l / inject_Z (Z.of_nat (List.length l)))%Q end.
(** pd.DataFrame(rows).mean(skipna=True), one column — model.py:488 *)
Definition column (n : string) (rows : list row) : list Q :=
  flat_map (fun r => match entry n r with Some q => [q] | None => [] end) rows.

Section Train.
Context {Weights Gradient Optimizer Loader Batch Forecast Rng Evaluation : Type}.
(** build_rnn, build_s2s — model.py:134-170; the optimizer before its first step — 441-443; GMDataLoader(train_TSs) — 417 *)
Context (init : Rng -> Weights * Rng) (new_optimizer : Optimizer) (new_loader : Loader).
(** dl.get_batch and GMBatch — 453-456 *)
Context (take : Loader -> num -> Rng -> Rng * option (Batch * Loader)).
(** _single_pass and backward — 458-470: the losses of the quantiles, the gradients, train_res, valid_res and fcst_store; the
    boolean is the mode of the network, true for training *)
Context (pass : Weights -> bool -> Batch -> Rng -> Rng * option (list Q * Gradient * list Q * list row * Forecast)).
(** trainer.step() — 471 *)
Context (update : num -> Optimizer -> Weights -> Gradient -> Optimizer * Weights).
(** self.evaluate — 494-500 *)
Context (assess : Weights -> Rng -> Rng * option Evaluation).

Record st := { weights : Weights; training : bool; rng : Rng }.
Record log := { l_epoch : nat; l_batch_size : num; l_rate : num; l_training : bool; l_loss : Q; l_train : list Q; l_valid : list row;
                l_fcst : Forecast }.

(** one step — model.py:449-485; nq is the number of quantiles *)
Definition one_step (nq epoch : nat) (lr bs : num) (op : Optimizer) (ld : Loader) (s : st) : st * option (Optimizer * Loader * log) :=
  match take ld bs (rng s) with
  | (g, None) => ({| weights := weights s; training := training s; rng := g |}, None)
  | (g, Some (b, ld)) =>
      match pass (weights s) (training s) b g with
      | (g, None) => ({| weights := weights s; training := training s; rng := g |}, None)
      | (g, Some (losses, grad, tr, va, fc)) =>
          let (op, w) := update lr op (weights s) grad in
          ({| weights := w; training := training s; rng := g |},
           Some (op, ld, {| l_epoch := epoch; l_batch_size := bs; l_rate := lr; l_training := training s;
                            l_loss := (total losses / inject_Z (Z.of_nat nq))%Q; l_train := tr; l_valid := va; l_fcst := fc |}))
      end
  end.
(** the steps of an epoch — model.py:449 *)
Fixpoint steps (n nq epoch : nat) (lr bs : num) (op : Optimizer) (ld : Loader) (s : st) : st * option (Loader * list log) :=
  match n with
  | O => (s, Some (ld, []))
  | S n => match one_step nq epoch lr bs op ld s with
           | (s, None) => (s, None)
           | (s, Some (op, ld, l)) =>
               match steps n nq epoch lr bs op ld s with
               | (s, None) => (s, None)
               | (s, Some (ld, ls)) => (s, Some (ld, l :: ls))
               end
           end
  end.
(** the epochs — model.py:431-501.  The evaluation puts the network in its test mode (593, 617), and nothing puts it back.
    Simplification: also when the evaluation raises before that. *)
Fixpoint epochs (n epoch size nq : nat) (rates sizes : list (Z * num)) (test : bool) (lr bs : num) (ld : Loader) (s : st)
  : st * option (list (list log * option Evaluation)) :=
  match n with
  | O => (s, Some [])
  | S n =>
      let bs := match get (Z.of_nat epoch) sizes with Some v => v | None => bs end in
      let lr := match get (Z.of_nat epoch) rates with Some v => v | None => lr end in
      match steps size nq epoch lr bs new_optimizer ld s with
      | (s, None) => (s, None)
      | (s, Some (ld, ls)) =>
          if test then
            match assess (weights s) (rng s) with
            | (g, None) => ({| weights := weights s; training := false; rng := g |}, None)
            | (g, Some ev) =>
                match epochs n (S epoch) size nq rates sizes test lr bs ld {| weights := weights s; training := false; rng := g |} with
                | (s, None) => (s, None)
                | (s, Some r) => (s, Some ((ls, Some ev) :: r))
                end
            end
          else
            match epochs n (S epoch) size nq rates sizes test lr bs ld s with
            | (s, None) => (s, None)
            | (s, Some r) => (s, Some ((ls, None) :: r))
            end
      end
  end.
(** train — model.py:411-517; the network is built if there is none (86-95) *)
Definition train (n size nq : nat) (rates sizes : list (Z * num)) (test : bool) (net : option Weights) (g : Rng)
  : st * option (list (list log * option Evaluation)) :=
  let (w, g) := match net with Some w => (w, g) | None => init g end in
  let s := {| weights := w; training := true; rng := g |} in
  match get 0 rates, get 0 sizes with
  | Some lr, Some bs => epochs n 0 size nq rates sizes test lr bs new_loader s
  | _, _ => (s, None)
  end.
(** training_info — model.py:482-514: train_loss_monitor, valid_loss_monitor (for a metric), train_loss_val, valid_fcst_monitor *)
Definition train_loss_monitor (r : list (list log * option Evaluation)) : list (option Q) :=
  map (fun e => average (flat_map l_train (fst e))) r.
Definition valid_loss_monitor (metric : string) (r : list (list log * option Evaluation)) : list (option Q) :=
  map (fun e => average (column metric (flat_map l_valid (fst e)))) r.
Definition train_loss_val (size : nat) (r : list (list log * option Evaluation)) : list Q :=
  map (fun e => (total (map l_loss (fst e)) / inject_Z (Z.of_nat size))%Q) r.
Definition valid_fcst_monitor (fcst_monitor : bool) (r : list (list log * option Evaluation)) : list (nat * Forecast) :=
  if fcst_monitor then flat_map (fun e => map (fun l => (l_epoch l, l_fcst l)) (fst e)) r else [].
End Train.
Arguments log Forecast : clear implicits.
Arguments st Weights Rng : clear implicits.
