(** Property theorems C01, C02 (kats/detectors/interval_detector.py). *)
From Verif Require Import Common IntervalRunsModel IntervalRunsSpec IntervalRunsProofs.
From Coq Require Import Permutation.

(** C01. The extracted list is exactly the list of maximal True runs, in order with gaps; the
    extraction fails only on an empty sequence; every True index is in exactly one pair. *)
Theorem C01_runs_exact x l : get_true_run_indices x = Some l ->
  (forall s e, In (s, e) l <-> maximal_run x s e) /\ increasing_with_gaps l.
Proof. exact (get_runs_exact x l). Qed.

Theorem C01_raises_only_on_empty x : get_true_run_indices x = None <-> x = [].
Proof. exact (get_runs_none x). Qed.

Theorem C01_each_true_index_once x l i : get_true_run_indices x = Some l ->
  nth i x false = true <-> exists! p, In p l /\ fst p <= i <= snd p.
Proof. exact (each_true_in_exactly_one x l i). Qed.

Example C01_example :
  get_true_run_indices [true; true; false; true; false; false; true] = Some [(0, 1); (3, 3); (6, 6)].
Proof. reflexivity. Qed.
Example C01_example_run : maximal_run [false; true; true] 1 2.
Proof.
  repeat split; simpl; try lia; auto.
  intros [|[|[|i]]] Hi; simpl; auto; lia.
Qed.

(** C02. *)
Theorem C02_flags time pad mask l d j :
  get_intervals time pad mask = Some l ->
  length (convert_intervals_to_predictions (length mask) d l) = length mask /\
  (nth j (convert_intervals_to_predictions (length mask) d l) false = true <->
   exists s e, maximal_run mask s e /\ s <= j <= e /\ d <= e - s + 1).
Proof. exact (flags_follow_run_length time pad mask l d j). Qed.

Theorem C02_anomaly_and_caution time pad mask l d :
  get_intervals time pad mask = Some l ->
  (forall s e, In (s, e) (map idx_pair (anomaly_intervals d l)) <-> (maximal_run mask s e /\ d <= e - s + 1)) /\
  (forall s e, In (s, e) (map idx_pair (caution_intervals d l)) <-> (maximal_run mask s e /\ e - s + 1 < d)) /\
  increasing_with_gaps (map idx_pair l) /\
  Permutation (anomaly_intervals d l ++ caution_intervals d l) l.
Proof. exact (anomaly_exact time pad mask l d). Qed.

Theorem C02_interval_times time pad mask l :
  get_intervals time pad mask = Some l ->
  forall i, In i l ->
    iv_start i = (nth (iv_start_idx i) time 0 - pad)%Z /\ iv_end i = (nth (iv_end_idx i) time 0 + pad)%Z.
Proof. exact (interval_times time pad mask l). Qed.

(** Building the intervals raises exactly when a padded run has no positive length (for instance
    a single rejecting point with zero padding). *)
Theorem C02_intervals_raise time pad mask : mask <> [] ->
  get_intervals time pad mask = None <->
  exists s e, maximal_run mask s e /\ (nth e time 0 - nth s time 0 + 2 * pad <= 0)%Z.
Proof. exact (intervals_raise_iff time pad mask). Qed.

Example C02_example :
  exists l, get_intervals [10; 20; 30; 40; 50]%Z 5 [true; true; false; true; false] = Some l /\
  convert_intervals_to_predictions 5 2 l = [true; true; false; false; false] /\
  map idx_pair (anomaly_intervals 2 l) = [(0, 1)] /\ map idx_pair (caution_intervals 2 l) = [(3, 3)].
Proof. eexists. repeat split. Qed.
Example C02_raise_example : get_intervals [10; 20]%Z 0 [true; false] = None.
Proof. reflexivity. Qed.

Print Assumptions C01_runs_exact.
Print Assumptions C01_raises_only_on_empty.
Print Assumptions C01_each_true_index_once.
Print Assumptions C02_flags.
Print Assumptions C02_anomaly_and_caution.
Print Assumptions C02_interval_times.
Print Assumptions C02_intervals_raise.
