(** Specification vocabulary for C15-C17 and C68, independent of [StatSigModel]. *)
From Verif Require Import Common.
From Coq Require Export Sorted.
Open Scope Z_scope.

(** the values observed at the times satisfying [P], oldest first *)
Definition observed {V} (P : Z -> bool) (obs : list (Z * V)) : list V :=
  map snd (filter (fun r => P (fst r)) obs).

(** What a user expects at time [t], given everything observed ([total]), the length of
    the control and test periods and the time unit: zero until [nc + nt - 1] units have
    passed since the first observation, afterwards the statistic of the last [nt] units up
    to and including [t] against the [nc] units right before them. *)
Definition expected_score {V S} (T : list V -> list V -> S) (zero : S) (nc nt u : Z)
  (total : list (Z * V)) (first t : Z) : S :=
  if t <? first + (nc + nt - 1) * u then zero
  else T (observed (fun x => (t - (nt - 1) * u <=? x) && (x <=? t)) total)
         (observed (fun x => (t - (nt + nc - 1) * u <=? x) && (x <? t - (nt - 1) * u)) total).

Definition increasing {V} (l : list (Z * V)) : Prop := StronglySorted Z.lt (map fst l).

(** A regularly spaced series starting at [t0]. *)
Fixpoint grid {V} (t0 u : Z) (vals : list V) : list (Z * V) :=
  match vals with [] => [] | v :: vs => (t0, v) :: grid (t0 + u) u vs end.

(** how many of the points get a score, for a regular series: all of the data when the
    history spans more than [need] points, otherwise everything after the first [need]. *)
Definition scored_points (need hist_len data_len : nat) : nat :=
  if Nat.ltb need hist_len then data_len else (hist_len + data_len - need)%nat.

(** all observations handed to the detector: the history (if any), then the data *)
Definition all_of {V} (hist : option (list (Z * V))) (data : list (Z * V)) : list (Z * V) :=
  match hist with Some h => h ++ data | None => data end.
Definition hist_list {V} (hist : option (list (Z * V))) : list (Z * V) :=
  match hist with Some h => h | None => [] end.
(** a regular history starting at [t0], or none *)
Definition grid_hist {V} (u t0 : Z) (vh : list V) (given : bool) : option (list (Z * V)) :=
  if given then Some (grid t0 u vh) else None.
