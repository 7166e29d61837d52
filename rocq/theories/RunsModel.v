(** The evaluation runs of evaluation/evaluator.py.

    The registry (a dict) is the list of its entries in insertion order.  Values, arrays and metric results are parameters.
    generate_predictions is abstract in the code; here [SetPreds] stands for a subclass storing predictions in a run obtained
    with get_evaluation_run.  [Raises] is any exception. *)
From Coq Require Import String.
From Verif Require Import Common.
Open Scope nat_scope.

Section Runs.
Variables (V R : Type).
(** an ArrayLike: a number (np.ndim 0) or a list *)
Inductive arr := Scalar (v : V) | Array (l : list V).
(** evaluator.py:22-29 — EvaluationObject (input_data and model are set by subclasses only and left out) *)
Record run := { preds : option arr; labels : option arr; results : option (list (string * R)) }.
(** a run name argument: a string or something else *)
Inductive name := Name (s : string) | NotAString.
(** a metric: its value, or any exception (ValueErrors are re-raised as ValueErrors) *)
Notation metric := (list V -> list V -> option R).
Inductive op :=
| Create (n : name) | Delete (n : name) | Get (n : name)
| SetPreds (n : name) (a : arr)
| Evaluate (n : name) (ms : list (string * metric)) (l : arr).
Inductive outcome := Done | GotRun (r : run) | GotResults (r : list (string * R)) | Raises.

Notation registry := (list (string * run)).
Fixpoint find (s : string) (g : registry) : option run :=
  match g with [] => None | (k, r) :: g => if String.eqb k s then Some r else find s g end.
Fixpoint remove (s : string) (g : registry) : registry :=
  match g with [] => [] | (k, r) :: g => if String.eqb k s then g else (k, r) :: remove s g end.
Fixpoint update (s : string) (f : run -> run) (g : registry) : registry :=
  match g with [] => [] | (k, r) :: g => if String.eqb k s then (k, f r) :: g else (k, r) :: update s f g end.
(** evaluator.py:44-53 — _check_if_valid_run_name: the name, or an exception *)
Definition check_name (n : name) (should_exist : bool) (g : registry) : option string :=
  match n with
  | NotAString => None
  | Name s => if Bool.eqb should_exist (match find s g with Some _ => true | None => false end) then Some s else None
  end.
(** evaluator.py:38 *)
Definition new_run : run := {| preds := None; labels := None; results := None |}.
(** evaluator.py:94-103 — the metrics in the order of the dict; the first exception ends the loop *)
Fixpoint run_metrics (ms : list (string * metric)) (p l : list V) : option (list (string * R)) :=
  match ms with
  | [] => Some []
  | (m, f) :: ms =>
      match f p l with
      | None => None
      | Some v => match run_metrics ms p l with Some t => Some ((m, v) :: t) | None => None end
      end
  end.
(** evaluator.py:71-108 — evaluate *)
Definition evaluate (s : string) (ms : list (string * metric)) (l : arr) (r : run) : (run -> run) * outcome :=
  match preds r, l with
  | Some (Array p), Array l' =>
      let stored := fun r => {| preds := preds r; labels := Some l; results := results r |} in
      if Nat.eqb (List.length p) (List.length l') then
        match run_metrics ms p l' with
        | Some t => (fun r => {| preds := preds r; labels := Some l; results := Some t |}, GotResults t)
        | None => (stored, Raises)
        end
      else (stored, Raises)
  | _, _ => (fun r => r, Raises)
  end.
Definition apply_op (o : op) (g : registry) : registry * outcome :=
  match o with
  | Create n =>                                                     (* evaluator.py:36-38 *)
      match check_name n false g with Some s => (g ++ [(s, new_run)], Done) | None => (g, Raises) end
  | Delete n =>                                                     (* evaluator.py:40-42 *)
      match check_name n true g with Some s => (remove s g, Done) | None => (g, Raises) end
  | Get n =>                                                        (* evaluator.py:55-57 *)
      match check_name n true g with
      | Some s => match find s g with Some r => (g, GotRun r) | None => (g, Raises) end
      | None => (g, Raises)
      end
  | SetPreds n a =>
      match check_name n true g with
      | Some s => (update s (fun r => {| preds := Some a; labels := labels r; results := results r |}) g, Done)
      | None => (g, Raises)
      end
  | Evaluate n ms l =>                                              (* evaluator.py:79-108 *)
      match check_name n true g with
      | Some s => match find s g with
                  | Some r => let '(f, out) := evaluate s ms l r in (update s f g, out)
                  | None => (g, Raises)
                  end
      | None => (g, Raises)
      end
  end.
(** evaluator.py:33-34 and a history of calls, with the outcomes of all of them *)
Fixpoint history (g : registry) (ops : list op) : registry * list outcome :=
  match ops with
  | [] => (g, [])
  | o :: ops => let '(g', out) := apply_op o g in let '(g'', outs) := history g' ops in (g'', out :: outs)
  end.
End Runs.
