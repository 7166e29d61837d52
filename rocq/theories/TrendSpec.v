(** Specification vocabulary for the trend detector: Kendall's score over pairs of positions, the
    variance with ties, and moving averages and exponential smoothing by their defining equations. *)
From Verif Require Import Common TrendModel.
From Coq Require Import String Sorted.
Open Scope Z_scope.

Fixpoint total (n : nat) (f : nat -> Z) : Z := match n with O => 0 | S k => total k f + f k end.
Definition sign (x : Q) : Z := Z.sgn (Qnum x).
(** S: the number of pairs of positions i < j with an increase, minus those with a decrease *)
Definition kendall (x : list Q) : Z :=
  total (List.length x) (fun i => total (List.length x) (fun j =>
    if (i <? j)%nat then sign (nth j x 0%Q - nth i x 0%Q)%Q else 0)).
(** how often the value at position i occurs *)
Definition occurs (x : list Q) (i : nat) : Z :=
  total (List.length x) (fun j => if Qeq_bool (nth j x 0%Q) (nth i x 0%Q) then 1 else 0).
(** 18 times the variance of S: n(n-1)(2n+5) less the sum of t(t-1)(2t+5) over groups of t equal
    values, i.e. of (t-1)(2t+5) over the positions *)
Definition spread18 (x : list Q) : Z :=
  let n := Z.of_nat (List.length x) in
  n * (n - 1) * (2 * n + 5) - total (List.length x) (fun i => (occurs x i - 1) * (2 * occurs x i + 5)).
Definition choose2 (x : list Q) : Z := Z.of_nat (List.length x) * (Z.of_nat (List.length x) - 1).   (* twice the number of pairs *)
Definition sumz {A} (f : A -> Z) (l : list A) : Z := total (List.length (map f l)) (fun i => nth i (map f l) 0).

(** the outcome of a Mann-Kendall test of one or more series *)
Definition tested (tail crit : Q -> Q) (level threshold : Q) (xs : list (list Q)) (k : mk) : Prop :=
  let s := sumz kendall xs in
  (k_tau k * inject_Z (sumz choose2 xs) == 2 * inject_Z s)%Q /\
  exists z : Q,
    k_p k = tail z /\ (s = 0 -> (z == 0)%Q) /\
    (s <> 0 -> (z * inject_Z (sumz spread18 xs) == 18 * inject_Z ((Z.abs s - 1) * (Z.abs s - 1)))%Q) /\
    (k_trend k = Increasing <-> 0 < s /\ (crit level < z)%Q /\ (threshold < Qabs (k_tau k))%Q) /\
    (k_trend k = Decreasing <-> s < 0 /\ (crit level < z)%Q /\ (threshold < Qabs (k_tau k))%Q).

(** a trailing moving average and the one-step-ahead forecasts of exponential smoothing *)
Definition averaged (w : nat) (y a : list Q) : Prop :=
  List.length a = (List.length y + 1 - w)%nat /\
  forall i, (i < List.length a)%nat -> (nth i a 0 * inject_Z (Z.of_nat w) == sumn w (fun j => nth (i + j) y 0))%Q.
Definition smoothed (init : list Q -> Q) (y s : list Q) : Prop :=
  List.length s = List.length y /\ (y <> [] -> nth 0 s 0%Q = init y) /\
  forall i, (S i < List.length y)%nat -> (nth (S i) s 0 == (1 # 5) * nth i y 0 + (4 # 5) * nth i s 0)%Q.
(** rows lost to the removal of seasonality, and the columns that are tested *)
Definition lost (s : option season) : nat :=
  match s with None => 0 | Some Daily => 0 | Some Weekly => 6 | Some Monthly => 29 | Some Yearly => 364 end.
Definition cleaned (init : list Q -> Q) (s : option season) (y sm : list Q) : Prop :=
  exists a, match s with None => a = y | Some _ => averaged (S (lost s)) y a end /\ smoothed init a sm.

Definition regular {V} (f : frame V) : Prop :=
  StronglySorted Z.lt (f_times f) /\ forall c, In c (f_cols f) -> List.length (snd c) = List.length (f_times f).
(** the w values from position i on *)
Definition window (i w : nat) (x : list Q) : list Q := map (fun j => nth (i + j) x 0%Q) (seq 0 w).
(** the columns without missing values *)
Definition complete_columns (data : frame (option Q)) (cs : list (string * list Q)) : Prop :=
  map (fun c => (fst c, map Some (snd c))) cs =
  filter (fun c => forallb (fun v => match v with Some _ => true | None => false end) (snd c)) (f_cols data).
