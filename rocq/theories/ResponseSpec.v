(** Specification vocabulary for C29-C31, C69, C70. *)
From Verif Require Import Common.
From Verif Require ResponseModel. (* only for the record fields and the operation names *)
Import ResponseModel.
Open Scope Z_scope.

(** the six components of a response, by name *)
Inductive comp := Scores | Lower | Upper | Predicted | Magnitude | StatSig.
Definition component {V} (c : comp) (r : response V) : option (list (Z * V)) :=
  match c with
  | Scores => Some (scores r)
  | Lower => match band r with Some (l, _) => Some l | None => None end
  | Upper => match band r with Some (_, u) => Some u | None => None end
  | Predicted => predicted r
  | Magnitude => Some (magnitude r)
  | StatSig => stat_sig r
  end.
(** the row a point supplies for each component *)
Definition given {V} (c : comp) (p : point V) : Z * V :=
  (p_time p, match c with
             | Scores => p_score p | Lower => p_lower p | Upper => p_upper p
             | Predicted => p_pred p | Magnitude => p_mag p | StatSig => p_sig p
             end).

(** the last [n] entries of a list (all of them if there are fewer) *)
Definition most_recent {A} (n : nat) (l : list A) : list A := skipn (length l - n) l.

(** two responses have the same optional components *)
Definition same_shape {V} (r o : response V) : Prop :=
  forall c, component c r = None <-> component c o = None.

(** sample mean and unbiased sample variance *)
Definition is_mean (m : Q) (l : list Q) : Prop :=
  l <> [] /\ (m * inject_Z (Z.of_nat (length l)) == qsum l)%Q.
Definition is_sample_variance (v : Q) (l : list Q) : Prop :=
  (2 <= length l)%nat /\
  exists m, is_mean m l /\
    (v * inject_Z (Z.of_nat (length l) - 1) == qsum (map (fun x => (x - m) * (x - m)) l))%Q.

(** the operations on an interval, in the order the caller performs them *)
Inductive interval_op := SetData (l : list (Z * Q)) | ExtendData (l : list (Z * Q)).
(** everything supplied since the last replacement *)
Fixpoint supplied (acc : option (list (Z * Q))) (ops : list interval_op) : option (list (Z * Q)) :=
  match ops with
  | [] => acc
  | SetData l :: t => supplied (Some l) t
  | ExtendData l :: t => supplied (Some (match acc with Some a => a ++ l | None => l end)) t
  end.
(** perform one of them *)
Definition do_op {SP} (i : interval SP) (o : interval_op) : interval SP :=
  match o with SetData l => set_data i l | ExtendData l => extend_data i l end.
