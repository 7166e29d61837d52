(** What saving and loading should do: a detector built from ordinary parameter values can be written, and reading what was
    written gives a detector with the same parameters. *)
From Coq Require Import List String QArith.
From Verif Require Import SerialModel.
Import ListNotations.

(** Values that JSON represents as they are. *)
Inductive plain : pyval -> Prop :=
| plain_none : plain VNone
| plain_bool b : plain (VBool b)
| plain_num q : plain (VNum q)
| plain_str s : plain (VStr s)
| plain_list l : (forall v, In v l -> plain v) -> plain (VList l).

(** [m] is written as some object, and constructing from that object gives [m']. *)
Definition reloads {M} (serialize : M -> option object) (construct : object -> option M) (m m' : M) : Prop :=
  exists o, serialize m = Some o /\ construct o = Some m'.
(** Writing [m] and reading it back never gives [m]: it cannot be written, cannot be read, or comes back different. *)
Definition lost {M} (serialize : M -> option object) (construct : object -> option M) (m : M) : Prop :=
  forall o, serialize m = Some o -> construct o <> Some m.
