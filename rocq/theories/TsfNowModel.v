(** kats/tsfeatures/tsfeatures.py: the nowcasting group of features, over exact rationals. *)
From Verif Require Import Common TsfValueModel.
Open Scope nat_scope.

(** tsfeatures.py:1739-1756 (_ewma). None in the array is NaN. *)
Definition somes (l : list (option Q)) : list Q := flat_map (fun v => match v with Some q => [q] | None => [] end) l.
Fixpoint ewma_go (a : Q) (i : nat) (w e : Q) (l : list Q) : list Q :=
  match l with
  | [] => []
  | v :: l' => let w' := (w + qpow (1 - a) i)%Q in let e' := (e * (1 - a) + v)%Q in (e' / w')%Q :: ewma_go a (S i) w' e' l'
  end.
Definition alpha (span : nat) : Q := (2 / inject_Z (Z.of_nat (span + 1)))%Q.
(** The result is None where the code raises: arr[0] of an array without values, and the assignment of an empty
    output_subset to the whole output, [output_array[-0:]]. A min_periods of 0 keeps the last value only, [ewma[-1:]]. *)
Definition ewma (span min_periods : nat) (arr : list (option Q)) : option (list (option Q)) :=
  match somes arr with
  | [] => None
  | v :: l =>
      let e := v :: ewma_go (alpha span) 1 1%Q v l in
      let sub := match min_periods with O => skipn (length e - 1) e | S k => skipn k e end in
      match sub with [] => None | _ => Some (repeat None (length arr - length sub) ++ map Some sub) end
  end.

(** np.nan_to_num(arr).mean(): NaN and infinities count as zero; the mean of nothing is NaN. *)
Definition mean0 (l : list (option Q)) : option Q := avg_nan (map (fun v => match v with Some q => q | None => 0%Q end) l).
(** np.nan_to_num(np.nanmean(arr)). *)
Definition nanmean0 (l : list (option Q)) : option Q := match avg_nan (somes l) with Some q => Some q | None => Some 0%Q end.
Definition sub_nan (a b : option Q) : option Q := match a, b with Some a, Some b => Some (a - b)%Q | _, _ => None end.
Fixpoint zip {A B C} (f : A -> B -> C) (a : list A) (b : list B) : list C :=
  match a, b with x :: a', y :: b' => f x y :: zip f a' b' | _, _ => [] end.
(** a[:-k] for k >= 1. *)
Definition drop_last (k : nat) (x : list Q) : list Q := firstn (length x - k) x.
Definition cumsum (x : list Q) : list Q := map (fun i => qsum (firstn (S i) x)) (seq 0 (length x)).

(** tsfeatures.py:1791-1844 (_get_nowcasting_np) with all features enabled and window >= 1: ROC, MOM, MA, LAG, MACD,
    MACDsign, MACDdiff; None where it raises. *)
Definition nowcasting_np (window n_fast n_slow : nat) (x : list Q) : option (list (option Q)) :=
  let w1 := window - 1 in
  (* x[w1:] - x[:-w1]; for w1 = 0 the second slice is empty and the subtraction raises unless x broadcasts *)
  if (w1 =? 0) && negb (length x <=? 1) then None else
  let M := zip (fun b a => if Qeq_bool a 0 then None else Some ((b - a) / a)%Q) (skipn w1 x) (if w1 =? 0 then [] else drop_last w1 x) in
  let roc := mean0 M in
  let mom := mean0 (zip (fun b a => Some (b - a)%Q) (skipn window x) (drop_last window x)) in
  let ret := firstn window (cumsum x) ++ zip (fun b a => (b - a)%Q) (skipn window (cumsum x)) (firstn (length x - window) (cumsum x)) in
  let ma := mean0 (map (fun r => Some (r / inject_Z (Z.of_nat window))%Q) (skipn w1 ret)) in
  let lag := mean0 (map Some (drop_last window x)) in
  match ewma n_fast (n_slow - 1) (map Some x), ewma n_slow (n_slow - 1) (map Some x) with
  | Some fast, Some slow =>
      let MACD := zip sub_nan fast slow in
      let macd := nanmean0 MACD in
      if 27 <=? length x then
        match ewma 9 8 MACD with
        | Some sign => Some [roc; mom; ma; lag; macd; nanmean0 sign; nanmean0 (zip sub_nan MACD sign)]
        | None => None
        end
      else Some [roc; mom; ma; lag; macd; None; None]
  | _, _ => None
  end.
(** tsfeatures.py:1849-1909 (get_nowcasting): an exception leaves every feature NaN. *)
Definition nowcasting (window n_fast n_slow : nat) (x : list Q) : list (option Q) :=
  match nowcasting_np window n_fast n_slow x with Some l => l | None => repeat None 7 end.

(** tsfeatures.py:2033-2131 (get_time) with all features enabled. A row is a local date with its weekday (Monday = 0)
    and ISO (year, week); the offsets from UTC and the days of the year are left out. *)
Record stamp := { year : nat; month : nat; day : nat; weekday : nat; iso : nat * nat; seconds : Z }.
Fixpoint count_distinct {A} (eqb : A -> A -> bool) (l : list A) : nat :=
  match l with [] => 0 | a :: l' => (if existsb (eqb a) l' then 0 else 1) + count_distinct eqb l' end.
Definition pair_eqb (a b : nat * nat) : bool := (fst a =? fst b) && (snd a =? snd b).
Definition time_years (ts : list stamp) : nat := count_distinct Nat.eqb (map year ts).
Definition time_months (ts : list stamp) : nat := count_distinct pair_eqb (map (fun t => (year t, month t)) ts).
Definition time_monthsofyear (ts : list stamp) : nat := count_distinct Nat.eqb (map month ts).
Definition time_weeks (ts : list stamp) : nat := count_distinct pair_eqb (map iso ts).
(** strftime("%Y-%d"). *)
Definition time_days (ts : list stamp) : nat := count_distinct pair_eqb (map (fun t => (year t, day t)) ts).
Definition time_freq (d : nat) (ts : list stamp) : Q :=
  (inject_Z (Z.of_nat (length (filter (fun t => weekday t =? d) ts))) / inject_Z (Z.of_nat (length ts)))%Q.
Definition zmaxl (l : list Z) : Z := fold_right Z.max (hd 0%Z l) l.
Definition zminl (l : list Z) : Z := fold_right Z.min (hd 0%Z l) l.
(** (index.max() - index.min()).days *)
Definition time_length_days (ts : list stamp) : Z := ((zmaxl (map seconds ts) - zminl (map seconds ts)) / 86400)%Z.
