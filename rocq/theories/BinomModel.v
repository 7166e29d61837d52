(** The one-sample proportion test of detectors/interval_detector.py, for one row: k successes of n, against the proportion p.

    Exact rationals; value * sample_count is the natural number k and the sample count is positive. *)
From Verif Require Import Common.
Open Scope nat_scope.

(** scipy.stats.binom: the probability of k successes in n independent trials, by the last trial *)
Fixpoint binom_pmf (n : nat) (p : Q) (k : nat) : Q :=
  match n with
  | O => match k with O => 1%Q | _ => 0%Q end
  | S n => ((1 - p) * binom_pmf n p k + match k with O => 0 | S j => p * binom_pmf n p j end)%Q
  end.
(** binom.cdf and binom.sf: at most k, more than k *)
Definition binom_cdf (n : nat) (p : Q) (k : nat) : Q := sumn (S k) (binom_pmf n p).
Definition binom_sf (n : nat) (p : Q) (k : nat) : Q := (1 - binom_cdf n p k)%Q.
(** binom.ppf(q) for 0 < q < 1: the least k with q <= cdf k *)
Fixpoint search (f : nat -> bool) (k fuel : nat) : nat :=
  match fuel with O => k | S fuel => if f k then k else search f (S k) fuel end.
Definition binom_ppf (q : Q) (n : nat) (p : Q) : nat := search (fun k => Qle_bool q (binom_cdf n p k)) 0 n.

Inductive test_type := OneSidedLower | OneSidedUpper | TwoSided.
(** interval_detector.py:731-754, 1850-1863 — critical values, in numbers of successes (the code divides both sides by n) *)
Definition lower_critical (tt : test_type) (alpha : Q) (n : nat) (p : Q) : nat :=
  match tt with TwoSided => binom_ppf (alpha / 2) n p | _ => binom_ppf alpha n p end.
Definition upper_critical (tt : test_type) (alpha : Q) (n : nat) (p : Q) : nat :=
  match tt with TwoSided => binom_ppf (1 - alpha / 2) n p | _ => binom_ppf (1 - alpha) n p end.
(** interval_detector.py:1178-1200 — the decision REJECT *)
Definition reject (tt : test_type) (alpha : Q) (n : nat) (p : Q) (k : nat) : bool :=
  match tt with
  | OneSidedLower => k <=? lower_critical tt alpha n p
  | OneSidedUpper => upper_critical tt alpha n p <=? k
  | TwoSided => (k <=? lower_critical tt alpha n p) || (upper_critical tt alpha n p <=? k)
  end.
Definition qmin (a b : Q) : Q := if Qle_bool a b then a else b.
(** interval_detector.py:1898-1910 — the significance reported with the decision *)
Definition stat_sig (tt : test_type) (n : nat) (p : Q) (k : nat) : Q :=
  match tt with
  | OneSidedLower => binom_cdf n p k
  | OneSidedUpper => binom_sf n p k
  | TwoSided => qmin (binom_cdf n p k) (binom_sf n p k)
  end.
