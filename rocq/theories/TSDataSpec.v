(** Specification vocabulary for C24-C28, independent of [TSDataModel]. *)
From Verif Require Import Common.
From Verif Require TSDataModel. (* only for the names of the four operations *)
From Coq Require Export Permutation Sorted.
Open Scope Z_scope.

(** rows in nondecreasing / strictly increasing time order *)
Definition in_time_order {A} (l : list (Z * A)) : Prop := StronglySorted Z.le (map fst l).
Definition strictly_in_time_order {A} (l : list (Z * A)) : Prop := StronglySorted Z.lt (map fst l).

(** [r] is the first row of [l] with its time stamp *)
Definition first_of_its_time {A} (r : Z * A) (l : list (Z * A)) : Prop :=
  exists before after, l = before ++ r :: after /\ ~ In (fst r) (map fst before).

(** [l'] lists some rows of [l], without changing their order *)
Inductive subsequence {A} : list A -> list A -> Prop :=
| sub_nil : subsequence [] []
| sub_keep x l l' : subsequence l' l -> subsequence (x :: l') (x :: l)
| sub_drop x l l' : subsequence l' l -> subsequence l' (x :: l).

(** gap between two neighbouring time stamps of the list *)
Definition neighbour_gap (g : Z) (l : list Z) : Prop :=
  exists before x y after, l = before ++ x :: y :: after /\ g = y - x.

(** how many neighbouring pairs of the list have gap [g] *)
Fixpoint gap_count (g : Z) (l : list Z) : nat :=
  match l with
  | x :: ((y :: _) as t) => (if Z.eqb (y - x) g then 1 else 0) + gap_count g t
  | _ => O
  end.

(** The cell a user expects from an operation on two cells (None = missing): missing if
    either is missing, a division by zero counts as missing. *)
Definition expected_cell (o : TSDataModel.arith) (a b : option Q) : option Q :=
  match a, b with
  | None, _ | _, None => None
  | Some x, Some y =>
      match o with
      | TSDataModel.Add => Some (x + y)%Q
      | TSDataModel.Sub => Some (x - y)%Q
      | TSDataModel.Mul => Some (x * y)%Q
      | TSDataModel.Div => if Qeq_bool y 0 then None else Some (x / y)%Q
      end
  end.
