(** Independent specification for backtest folds and partitions. *)
From Verif Require Import Common.
Open Scope Z_scope.

(** A fold of a series of n points: training rows [ts,te), test rows [vs,ve). The training slice is
    non-empty and inside the series, the test slice begins [gap] rows after the training slice
    ends, has [test_len] > 0 rows and ends inside the series. *)
Definition causal_fold (n gap test_len : Z) (tr te : Z * Z) : Prop :=
  0 <= fst tr < snd tr /\ fst te = snd tr + gap /\ 0 <= gap /\
  snd te = fst te + test_len /\ 0 < test_len /\ snd te <= n.

(** Offsets spread evenly over [0..L]. *)
Definition evenly_spread (L : Z) (l : list Z) : Prop :=
  nth 0 l 0 = 0 /\ last l 0 = L /\
  (forall i, (S i < length l)%nat -> nth i l 0 <= nth (S i) l 0) /\
  (forall i j, (S i < length l)%nat -> (S j < length l)%nat ->
     Z.abs ((nth (S i) l 0 - nth i l 0) - (nth (S j) l 0 - nth j l 0)) <= 1).

(** floor(n * percent / 100), written without Qfloor: the unique integer s with
    s <= n*percent/100 < s+1. *)
Definition is_percent_of (n : Z) (percent : Q) (s : Z) : Prop :=
  (inject_Z s * 100 <= inject_Z n * percent)%Q /\ (inject_Z n * percent < inject_Z (s + 1) * 100)%Q.

(** All consecutive pairs of elements of two lists satisfy P. *)
Definition sum_len (l : list Z) : Z := fold_right Z.add 0 l.

(** A NaN-aware value [s] is the mean of the non-NaN members of [l]. *)
Definition valid_values (l : list (option Q)) : list Q :=
  flat_map (fun x => match x with Some q => [q] | None => [] end) l.
Definition is_nan_mean (s : option Q) (l : list (option Q)) : Prop :=
  match s with
  | None => valid_values l = []
  | Some m => valid_values l <> [] /\ (m * inject_Z (Z.of_nat (length (valid_values l))) == qsum (valid_values l))%Q
  end.

(** [m] is the mean of [scores] weighted by the row counts [ns]. *)
Definition is_weighted_mean (m : Q) (ns : list nat) (scores : list Q) : Prop :=
  (m * qsum (map (fun n => inject_Z (Z.of_nat n)) ns)
   == qsum (map (fun p => inject_Z (Z.of_nat (fst p)) * snd p) (combine ns scores)))%Q.
