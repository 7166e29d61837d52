(** What the feature columns of nowcasting should be. *)
From Verif Require Import Common.
Open Scope nat_scope.

Notation column := (list (option Q)).
(** The value on row i. *)
Definition row (s : column) (i : nat) : option Q := nth i s None.
(** Equal up to the representation of rationals. *)
Definition same (a b : option Q) : Prop :=
  match a, b with Some x, Some y => (x == y)%Q | None, None => True | _, _ => False end.

(** A feature keeps the number of rows and uses the rows up to its own only: on the first k rows alone it gives the
    first k entries. *)
Definition causal (F : column -> column) : Prop :=
  forall s, length (F s) = length s /\ forall k, F (firstn k s) = firstn k (F s).

(** The number of values present on rows 0 .. i. *)
Fixpoint present (s : column) (i : nat) : nat :=
  (match row s i with Some _ => 1 | None => 0 end) + match i with O => 0 | S j => present s j end.
(** The exponentially weighted average on row i with decay w: a value present k rows before has the weight w^k. *)
Definition value_or_0 (x : option Q) : Q := match x with Some v => v | None => 0%Q end.
Definition presence (x : option Q) : Q := match x with Some _ => 1%Q | None => 0%Q end.
Definition weighted_sum (w : Q) (s : column) (i : nat) : Q := sumn (S i) (fun j => qpow w (i - j) * value_or_0 (row s j))%Q.
Definition weights (w : Q) (s : column) (i : nat) : Q := sumn (S i) (fun j => qpow w (i - j) * presence (row s j))%Q.
(** All values present lie between lo and hi. *)
Definition within (lo hi : Q) (s : column) : Prop := forall v, In (Some v) s -> (lo <= v <= hi)%Q.
