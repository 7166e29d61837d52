(** The evaluation of a global model on a collection of series — globalmodel/model.py:879-956, and the same for an ensemble,
    globalmodel/ensemble.py:450-527.

    A series is the list of its values.  The forecasts of the network for the j-th window of the series [k] are a parameter of all
    training series of the call (they share batches); windows are made one after the other (GmPassModel, GmS2sModel), so that a
    window does not depend on how many follow.  The metrics are left out: a row holds what is compared (GmFcstModel). *)
From Coq Require Import List Bool Arith ZArith QArith String.
From Verif Require Import Common GmLossModel GmFcstModel GmEnsModel.
Import ListNotations.
Open Scope nat_scope.

Inductive key := At (i : nat) | Called (s : string).
Definition same_key (a b : key) : bool := match a, b with At i, At j => i =? j | Called s, Called t => String.eqb s t | _, _ => false end.
(** TimeSeriesData, list or dict *)
Inductive coll := One (x : list Q) | Listed (l : list (list Q)) | Named (d : list (string * list Q)).
(** model.py:901-913 *)
Definition same_kind (a b : coll) : bool :=
  match a, b with One _, One _ => true | Listed _, Listed _ => true | Named _, Named _ => true | _, _ => false end.
(** the series under their keys — model.py:915-928: a single series becomes a list *)
Definition items (c : coll) : list (key * list Q) :=
  match c with
  | One x => [(At 0, x)]
  | Listed l => List.combine (map At (seq 0 (List.length l))) l
  | Named d => map (fun p => (Called (fst p), snd p)) d
  end.
Fixpoint item (k : key) (l : list (key * list Q)) : option (list Q) :=
  match l with [] => None | (k', x) :: l => if same_key k' k then Some x else item k l end.
Definition network := list (key * list Q) -> key -> nat -> list Q.
(** a global model of the type rnn or s2s, or an ensemble of such *)
Record gm := { g_rnn : bool; g_net : network }.
Inductive evaluated := Single (m : gm) | Ensemble (e : ensemble) (ms : list gm).
(** predict(raw=True) for one series and [n] windows — model.py:617-643: the intervals are joined for the type rnn only *)
Definition single (fw nq : nat) (train : list (key * list Q)) (k : key) (n : nat) (m : gm) : list (list Q) :=
  let store := map (g_net m train k) (seq 0 n) in
  if g_rnn m then adjust_pi fw nq store else store.
Definition windows (fw nq : nat) (g : evaluated) (train : list (key * list Q)) (k : key) (n : nat) : list (list Q) :=
  match g with Single m => single fw nq train k n m | Ensemble e ms => combine e (map (single fw nq train k n) ms) end.
(** the values to compare with, per key of the training series; [None]: KeyError *)
Fixpoint paired (ks : list key) (valid : list (key * list Q)) : option (list (key * list Q)) :=
  match ks with
  | [] => Some []
  | k :: ks => match item k valid, paired ks valid with Some v, Some r => Some ((k, v) :: r) | _, _ => None end
  end.
(** a row: idx, step, and the forecasts of the median, those of the other quantiles and the actual values *)
Notation row := (key * nat * (list Q * list Q * list (option Q)))%type.
(** model.py:938-956 *)
Definition rows_of (fw nq : nat) (g : evaluated) (train : list (key * list Q)) (steps : nat) (kv : key * list Q) : list row :=
  let w := eval_windows fw (windows fw nq g train (fst kv) (step_num steps fw)) (snd kv) in
  map (fun p => (fst kv, fst p, snd p)) (List.combine (seq 0 (List.length w)) w).
(** evaluate — model.py:900-956, ensemble.py:473-527; [None]: it raises.  The predict of an ensemble refuses zero steps (ensemble.py:321-324) *)
Definition evaluate (fw nq : nat) (g : evaluated) (train valid : coll) : option (list row) :=
  if negb (same_kind train valid) then None
  else let t := items train in let v := items valid in
       if negb (List.length t =? List.length v) then None
       else if List.length t =? 0 then None
       else match paired (map fst t) v with
            | None => None
            | Some kv => let steps := fold_right Nat.max 0 (map (fun p => List.length (snd p)) kv) in
                         if match g with Single _ => false | Ensemble _ _ => steps =? 0 end then None
                         else Some (flat_map (rows_of fw nq g t steps) kv)
            end.
