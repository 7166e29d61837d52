(** What outlier detection and removal are meant to do. *)
From Verif Require Import Common MedianSpec RollingSpec.
From Coq Require Import Sorted Permutation.
Open Scope nat_scope.

(** the fences k interquartile ranges beyond the quartiles *)
Definition fences (k : Q) (r : list Q) (lo hi : Q) : Prop :=
  exists q1 q3, quartile_of 1 r q1 /\ quartile_of 3 r q3 /\ (lo == q1 - k * (q3 - q1))%Q /\ (hi == q3 + k * (q3 - q1))%Q.
(** the remainder has at most two fifths of the variance of the detrended series *)
Definition strongly_seasonal (rem detrend : list Q) : Prop :=
  exists vr vd, variance_of rem vr /\ variance_of detrend vd /\ (0 < vd)%Q /\ (vr <= (2#5) * vd)%Q.

(** [d] is the daily version of [rows]: one row per day from the earliest time to the latest,
    with the value observed at that time, missing if there is none *)
Definition daily_grid (rows d : list (Z * option Q)) : Prop :=
  exists t0 t1, In t0 (map fst rows) /\ In t1 (map fst rows) /\ (forall t, In t (map fst rows) -> (t0 <= t <= t1)%Z) /\
    length d = S (Z.to_nat ((t1 - t0) / 86400000000000)) /\
    forall k t v, nth_error d k = Some (t, v) -> t = (t0 + 86400000000000 * Z.of_nat k)%Z /\
      (In (t, v) rows \/ (~ In t (map fst rows) /\ v = None)).
(** times and values that are decomposed: the rows as they are when a frequency can be inferred,
    the daily grid otherwise; gaps filled *)
Definition prepared (infer_freq : list Z -> option bool) (fill : list (Z * option Q) -> list (option Q))
    (rows : list (Z * option Q)) (ts : list Z) (ys : list Q) : Prop :=
  exists used, (infer_freq (map fst rows) = Some true /\ used = rows \/
                infer_freq (map fst rows) = Some false /\ NoDup (map fst rows) /\ daily_grid rows used) /\
    ts = map fst used /\ fill used = map Some ys.

(** [p] is the last position up to [i] with an observation, [q] the first from [i] on *)
Definition last_observed (l : list (option Q)) (i p : nat) : Prop :=
  p <= i /\ (exists x, nth_error l p = Some (Some x)) /\ forall j, p < j -> j <= i -> nth_error l j = Some None \/ nth_error l j = None.
Definition next_observed (l : list (option Q)) (i q : nat) : Prop :=
  i <= q /\ (exists x, nth_error l q = Some (Some x)) /\ forall j, i <= j -> j < q -> nth_error l j = Some None \/ nth_error l j = None.
(** linear interpolation: on the line through the neighbouring observations *)
Definition on_line (l : list (option Q)) (i : nat) (v : Q) : Prop :=
  (exists p q x y, last_observed l i p /\ next_observed l i q /\ nth_error l p = Some (Some x) /\ nth_error l q = Some (Some y) /\
     ((v - x) * inject_Z (Z.of_nat (q - p)) == (y - x) * inject_Z (Z.of_nat (i - p)))%Q /\ (p = q -> v == x)%Q) \/
  (exists p x, last_observed l i p /\ (forall q, ~ next_observed l i q) /\ nth_error l p = Some (Some x) /\ (v == x)%Q) \/
  (exists q y, next_observed l i q /\ (forall p, ~ last_observed l i p) /\ nth_error l q = Some (Some y) /\ (v == y)%Q).

(** training data cleaning: an entry three or more standard deviations above the mean (any entry
    of a constant column) is a hole; holes are interpolated *)
Definition is_hole (l : list Q) (x : Q) : Prop :=
  exists m v, mean_of l m /\ variance_of l v /\ ((v == 0)%Q \/ (m <= x /\ 9 * v <= (x - m) * (x - m))%Q).
Definition cleaned (l : list Q) (c : list (option Q)) : Prop :=
  exists holes, length holes = length l /\ length c = length l /\
    (forall i x, nth_error l i = Some x -> (is_hole l x /\ nth_error holes i = Some None) \/ (~ is_hole l x /\ nth_error holes i = Some (Some x))) /\
    (forall i, i < length l -> (exists v, nth_error c i = Some (Some v) /\ on_line holes i v) \/
                               (nth_error c i = Some None /\ forall j x, nth_error holes j <> Some (Some x))).
