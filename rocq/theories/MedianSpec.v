(** What a median is. *)
From Verif Require Import Common.
From Coq Require Import Permutation Sorted.
Open Scope nat_scope.

(** the middle value, or the mean of the two middle values, of the sample in order *)
Definition median_of (l : list Q) (v : Q) : Prop :=
  exists s, Permutation l s /\ StronglySorted Qle s
            /\ (v == (nth ((length l - 1) / 2) s 0 + nth (length l / 2) s 0) / 2)%Q.
(** at most half of the sample on each side *)
Definition halves (l : list Q) (v : Q) : Prop :=
  2 * length (filter (fun x => negb (Qle_bool v x)) l) <= length l
  /\ 2 * length (filter (fun x => negb (Qle_bool x v)) l) <= length l.
