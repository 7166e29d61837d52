(** Independent specification for CUSUM. *)
From Verif Require Import Common.
Open Scope Z_scope.

Definition is_mean (m : Q) (l : list Q) : Prop :=
  l <> [] /\ (m * inject_Z (Z.of_nat (length l)) == qsum l)%Q.

(** Squared error of describing the points up to index k by level a and the later points by b. *)
Definition sq (x : Q) : Q := (x * x)%Q.
Definition two_level_error (ts : list Q) (k : nat) (a b : Q) : Q :=
  (qsum (map (fun x => sq (x - a)) (firstn (S k) ts)) + qsum (map (fun x => sq (x - b)) (skipn (S k) ts)))%Q.

(** The last (at most) n elements. *)
Definition last_n {A} (n : nat) (l : list A) : list A := skipn (length l - n) l.

(** Consecutive non-empty index ranges that start at lo and end at hi. *)
Fixpoint tiles (lo hi : Z) (rs : list (Z * Z)) : Prop :=
  match rs with
  | [] => lo = hi
  | (s, e) :: t => s = lo /\ s < e /\ tiles e hi t
  end.
