(** kats/tsfeatures/tsfeatures.py: how the values of features are computed, over exact rationals and on series without
    missing values. *)
From Verif Require Import Common MetricsModel.
From Coq Require Import Qabs.
Open Scope nat_scope.

(** np.mean and np.var of an array that is not empty. *)
Definition lenQ {A} (l : list A) : Q := inject_Z (Z.of_nat (length l)).
Definition avg (l : list Q) : Q := (qsum l / lenQ l)%Q.
Definition var (l : list Q) : Q := avg (map (fun v => (v - avg l) * (v - avg l)) l)%Q.
Definition qltb (a b : Q) : bool := negb (Qle_bool b a).

(** tsfeatures.py:1211-1216 (get_crossing_points). *)
Definition crosses (m a b : Q) : bool := (Qle_bool a m && qltb m b) || (Qle_bool m a && qltb b m).
Definition crossing_points (x : list Q) : nat :=
  length (filter (fun i => crosses (qmedian x) (nth i x 0%Q) (nth (S i) x 0%Q)) (seq 0 (length x - 1))).

(** tsfeatures.py:1235 (get_binarize_mean). *)
Definition binarize_mean (x : list Q) : Q := avg (map (fun v => b2q (qltb (avg x) v)) x).

(** np.argmax: the first position of the greatest entry. *)
Fixpoint argmax_from (i best : nat) (bestv : Q) (l : list Q) : nat :=
  match l with
  | [] => best
  | v :: l' => if qltb bestv v then argmax_from (S i) i v l' else argmax_from (S i) best bestv l'
  end.
Definition argmax (l : list Q) : nat := match l with [] => 0 | v :: l' => argmax_from 1 0 v l' end.

(** tsfeatures.py:845-868 (get_level_shift_features), both features enabled: (level_shift_idx, level_shift_size), None
    for NaN. *)
Definition level_shift (window_size : nat) (x : list Q) : option (nat * Q) :=
  if length x <? window_size + 2 then None else
  let means := map (fun i => avg (firstn window_size (skipn i x))) (seq 0 (length x - window_size + 1)) in
  let mean_diff := map (fun i => Qabs (nth i means 0 - nth (S i) means 0)%Q) (seq 0 (length means - 1)) in
  Some (argmax mean_diff, nth (argmax mean_diff) mean_diff 0%Q).

(** itertools.groupby: the lengths of the maximal runs of equal consecutive values. *)
Fixpoint run_lengths (l : list Q) : list nat :=
  match l with
  | [] => []
  | x :: l' => match run_lengths l' with
               | r :: rs => if Qeq_bool x (hd x l') then S r :: rs else 1 :: r :: rs
               | [] => [1]
               end
  end.
(** tsfeatures.py:885-903 (get_flat_spots); None for NaN. [range(0, n, w)] has ceil(n/w) members. *)
Definition flat_spots (nbins : nat) (x : list Q) : option nat :=
  if length x <=? nbins then None else
  let w := length x / nbins in
  Some (fold_left (fun m k => let r := list_max (run_lengths (firstn w (skipn (k * w) x))) in if m <? r then r else m)
          (seq 0 ((length x + w - 1) / w)) 0).

(** statsmodels acf (adjusted=False): the autocorrelations at the lags 1 .. n-1; None for the NaN of a constant
    series. The Fourier transform computes the same sums. *)
Definition acov (x : list Q) (k : nat) : Q := sumn (length x - k) (fun t => (nth t x 0 - avg x) * (nth (t + k) x 0 - avg x))%Q.
Definition acf (x : list Q) : list (option Q) :=
  map (fun k => if Qeq_bool (acov x 0) 0 then None else Some (acov x k / acov x 0)%Q) (seq 1 (length x - 1)).
Definition gt_nan (a b : option Q) : bool := match a, b with Some a, Some b => qltb b a | _, _ => false end.
(** tsfeatures.py:1322-1334: the loop of firstmin_ac from i on. *)
Fixpoint first_min (i : nat) (AC : list (option Q)) : nat :=
  match AC with
  | a :: ((b :: _) as rest) => if gt_nan a b then first_min (S i) rest else i
  | _ => i
  end.
(** tsfeatures.py:1337-1344: the loop of firstzero_ac from j on. *)
Fixpoint first_zero (j : nat) (AC : list (option Q)) : nat :=
  match AC with
  | a :: ((b :: _) as rest) => if gt_nan a (Some 0%Q) && gt_nan (Some 0%Q) b then j else first_zero (S j) rest
  | _ => j
  end.
(** tsfeatures.py:1297-1346 (get_special_ac), both features enabled. *)
Definition special_ac (x : list Q) : nat * nat := (first_min 0 (acf x) + 1, first_zero 0 (acf x) + 2).

(** np.array_split into c pieces: the first n mod c have one element more. *)
Fixpoint split_sizes (sizes : list nat) (x : list Q) : list (list Q) :=
  match sizes with [] => [] | s :: sizes' => firstn s x :: split_sizes sizes' (skipn s x) end.
Definition array_split (c : nat) (x : list Q) : list (list Q) :=
  split_sizes (repeat (length x / c + 1) (length x mod c) ++ repeat (length x / c) (c - length x mod c)) x.
(** np.mean, np.var with the NaN of an empty array. *)
Definition avg_nan (l : list Q) : option Q := match l with [] => None | _ => Some (avg l) end.
Definition var_nan (l : list Q) : option Q := match l with [] => None | _ => Some (var l) end.
Fixpoint all_values (l : list (option Q)) : option (list Q) :=
  match l with
  | [] => Some []
  | None :: _ => None
  | Some v :: l' => match all_values l' with Some vs => Some (v :: vs) | None => None end
  end.
Definition chunks (window_size : nat) (x : list Q) : list (list Q) := array_split (length x / window_size + 1) x.
(** tsfeatures.py:675-676, 695-696 (get_lumpiness, get_stability). *)
Definition lumpiness (window_size : nat) (x : list Q) : option Q := option_map var (all_values (map var_nan (chunks window_size x))).
Definition stability (window_size : nat) (x : list Q) : option Q := option_map var (all_values (map avg_nan (chunks window_size x))).
