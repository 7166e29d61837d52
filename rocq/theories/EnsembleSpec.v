(** What the ensemble forecasters are expected to do, without reference to the model. *)
From Verif Require Import Common MedianSpec.
From Coq Require Import String.
Open Scope nat_scope.

(** a lookup table given as a list of entries *)
Definition entry {A} (n : string) (v : A) (d : list (string * A)) : Prop := In (n, v) d.
Definition names {A} (d : list (string * A)) : list string := map fst d.

(** [wt] are normalised weights over [ns] *)
Definition normalised (ns : list string) (wt : string -> Q) : Prop :=
  (forall n, In n ns -> 0 < wt n)%Q /\ (qsum (map wt ns) == 1)%Q.
(** the combination of the values [f] with the weights [wt], each weight paired with the value of
    the same name *)
Definition combination (ns : list string) (wt f : string -> Q) : Q := qsum (map (fun n => wt n * f n)%Q ns).

(** the j-th of the requested forecast dates is j+1 steps of the calendar after the last one *)
Fixpoint steps_after (nextd : Z -> Z) (j : nat) (d : Z) : Z :=
  match j with O => d | S k => nextd (steps_after nextd k d) end.
Definition forecast_dates (nextd : Z -> Z) (last : Z) (steps : nat) (l : list Z) : Prop :=
  List.length l = steps /\ forall j, j < steps -> nth j l 0%Z = steps_after nextd (S j) last.

(** a cell of a table of optional numbers holds the number v *)
Definition holds (c : option Q) (v : Q) : Prop := exists x, c = Some x /\ (x == v)%Q.
(** the numbers among some cells *)
Fixpoint numbers (l : list (option Q)) : list Q :=
  match l with [] => [] | Some x :: t => x :: numbers t | None :: t => numbers t end.

(** the seasonal component repeated with period L beyond the end of the data *)
Definition continued (L : nat) (s : list (option Q)) (i : nat) : option Q :=
  nth (List.length s - L + i mod L) s None.
(** putting a seasonal component back: add it, or multiply by it *)
Definition recombine (multiplicative : bool) (x s : option Q) : option Q :=
  match x, s with Some a, Some b => Some (if multiplicative then a * b else a + b)%Q | _, _ => None end.
(** taking it out *)
Definition remove_season (multiplicative : bool) (x s : option Q) : option Q :=
  match x, s with
  | Some a, Some b => if multiplicative then (if Qeq_bool b 0 then None else Some (a / b)%Q) else Some (a - b)%Q
  | _, _ => None
  end.
(** two names that differ at most in the case of their (ASCII) letters *)
Definition capitals : string := "ABCDEFGHIJKLMNOPQRSTUVWXYZ".
Definition smalls : string := "abcdefghijklmnopqrstuvwxyz".
Definition same_letter (a b : Ascii.ascii) : Prop :=
  a = b \/ exists i, (String.get i capitals = Some a /\ String.get i smalls = Some b) \/
                     (String.get i capitals = Some b /\ String.get i smalls = Some a).
Inductive same_name : string -> string -> Prop :=
| same_empty : same_name "" ""
| same_cons a b s t : same_letter a b -> same_name s t -> same_name (String a s) (String b t).
(** a forecast table with interval columns: a learner's own, or NaN throughout *)
Definition interval_or_nan (own shown : option (list (option Q) * list (option Q))) (n : nat) : Prop :=
  match own with
  | Some _ => shown = own
  | None => exists lo hi, shown = Some (lo, hi) /\ List.length lo = n /\ List.length hi = n /\
              Forall (fun v => v = None) lo /\ Forall (fun v => v = None) hi
  end.
