(** Model of the CUSUM detectors as a whole (kats/detectors/cusum_detection.py): the log
    likelihood ratio, the magnitude test, [CUSUMDetector.detector], the vectorised and the
    multivariate detector.  The search for one change point is in CusumModel.v.

    Values are exact rationals; statistics with roots and logarithms are real numbers;
    NaN is [None]; an exception is [None] at the outermost level. *)
From Verif Require Import Common PySlice CusumModel.
Require Import Reals Qreals.
Open Scope Z_scope.

(** ** The log likelihood ratio *)
Open Scope R_scope.
Definition rsum (l : list R) : R := fold_right Rplus 0 l.
Definition rmean (l : list R) : R := rsum l / INR (length l).
(** squared distances from a level *)
Definition sq_dev (mu : R) (l : list R) : R := rsum (map (fun x => (x - mu) ^ 2) l).
(** np.std *)
Definition rstd (l : list R) : R := sqrt (sq_dev (rmean l) l / INR (length l)).

(** [_log_llr] — kats/detectors/cusum_detection.py:453-475. *)
Definition log_llr (x : list R) (mu0 s0 mu1 s1 : R) : R :=
  rsum (map (fun v => ln (s1 / s0) + 1 / 2 * (((v - mu1) / s1) ^ 2 - ((v - mu0) / s0) ^ 2)) x).

(** [_get_llr] — kats/detectors/cusum_detection.py:425-451; [a] are the points up to the
    change point, [b] those after it.  NaN for a constant series (0/0) and for fewer than
    three points. *)
Definition get_llr (a b : list R) (mu0 mu1 : R) : option R :=
  let ts := a ++ b in
  let n := length ts in
  if Nat.leb n 2 then None else
  let scale := sqrt ((sq_dev mu0 a + sq_dev mu1 b) / (INR n - 2)) in
  let mt := rmean ts in
  let st := rstd ts in
  if Req_EM_T st 0 then None else
  let scale := if Req_EM_T scale 0 then st * (1 / 100) else scale in
  Some (-2 * (log_llr a mt st mu0 scale + log_llr b mt st mu1 scale)).

(** scipy's chi2 with two degrees of freedom: an exponential distribution. [None] is a
    quantile that is infinite or NaN. *)
Definition chi2_cdf (x : R) : R := if Rle_dec x 0 then 0 else 1 - exp (- x / 2).
Definition chi2_ppf (q : R) : option R :=
  if Rle_dec 0 q then if Rlt_dec q 1 then Some (-2 * ln (1 - q)) else None else None.

(** A statistic: NaN, +inf or a number. *)
Inductive stat := NaN | Inf | Num (x : R).
Definition of_option (x : option R) : stat := match x with None => NaN | Some v => Num v end.
Definition p_value (s : stat) : option R :=
  match s with Num x => Some (1 - chi2_cdf x) | Inf => Some 0 | NaN => None end.
(** [llr > chi2.ppf(1 - threshold, 2)] — kats/detectors/cusum_detection.py:635-636. *)
Definition significant (threshold : R) (s : stat) : bool :=
  match s, chi2_ppf (1 - threshold) with
  | Num x, Some c => if Rlt_dec c x then true else false
  | Inf, Some _ => true
  | _, _ => false
  end.
Close Scope R_scope.

(** the statistic of a series for an index and two means. *)
Definition llr_of (ts : list Q) (mu0 mu1 : option Q) (cp : Z) : stat :=
  match mu0, mu1 with
  | Some m0, Some m1 =>
      of_option (get_llr (map Q2R (py_slice ts None (Some (cp + 1))))
                         (map Q2R (py_slice ts (Some (cp + 1)) None)) (Q2R m0) (Q2R m1))
  | _, _ => NaN
  end.

(** ** The magnitude test *)

Definition day_ns : Z := 86400000000000.
Definition nth_z {A} (l : list A) (i : Z) : option A :=
  if i <? 0 then None else nth_error l (Z.to_nat i).
(** the first row with a time, [time[time == t].index[0]] *)
Fixpoint find_time (times : list Z) (t : Z) (i : Z) : option Z :=
  match times with [] => None | x :: l => if x =? t then Some i else find_time l t (i + 1) end.
(** [mag_int / hist_int >= ratio] in floating point, of two numbers that are both not
    negative (an increase) or both negated (a decrease, where zero is -0.0): x/0 is plus
    infinity, 0/0 NaN. *)
Definition ratio_ge (m h r : Q) : bool :=
  if Qeq_bool h 0 then negb (Qeq_bool m 0) else Qle_bool r (m / h).

(** [_magnitude_compare] — kats/detectors/cusum_detection.py:477-508; [quant] is
    [np.quantile(..., interpolation="nearest")], [None] for an empty array.  [days] is the
    number of whole days of the data; the day 0 is the window itself. *)
Fixpoint count_days (quant : list Q -> option Q) (ts : list Q) (times : list Z) (t0 t1 : Z)
    (mag ratio : Q) (i : Z) (k : nat) : option nat :=
  match k with
  | O => Some O
  | S k' =>
      match find_time times (t0 - i * day_ns) 0, find_time times (t1 - i * day_ns) 0 with
      | Some a, Some b =>
          match quant (py_slice ts (Some a) (Some b)),
                count_days quant ts times t0 t1 mag ratio (i + 1) k' with
          | Some h, Some c => Some (if ratio_ge mag h ratio then S c else c)
          | _, _ => None
          end
      | _, _ => None
      end
  end.
Definition zmaxl (l : list Z) : Z := match l with [] => 0 | x :: t => fold_right Z.max x t end.
Definition zminl (l : list Z) : Z := match l with [] => 0 | x :: t => fold_right Z.min x t end.
Definition magnitude_compare (quant : list Q -> option Q) (ratio : Q) (times : list Z)
    (window : Z * Z) (ts : list Q) : option Q :=
  let days := (zmaxl times - zminl times) / day_ns in
  match quant (py_slice ts (Some (fst window)) (Some (snd window))),
        nth_z times (fst window), nth_z times (snd window) with
  | Some mag, Some t0, Some t1 =>
      if days <=? 0 then None (* ZeroDivisionError *)
      else match count_days quant ts times t0 t1 mag ratio 0 (Z.to_nat days) with
           | Some c => Some (inject_Z (Z.of_nat c) / inject_Z days)%Q
           | None => None
           end
  | _, _, _ => None
  end.

(** ** CUSUMDetector.detector *)

(** the arguments — kats/detectors/cusum_detection.py:63-76, 554-577.  [magnitude] is the
    quantile function if a quantile is given. *)
Record args := MkArgs {
  a_threshold : R; a_max_iter : nat; a_std_ratio : Q; a_min_abs : Q; a_start : option Z;
  a_window : option (Z * Z); a_magnitude : option (list Q -> option Q); a_ratio : Q;
  a_days : Q; a_all : bool }.

(** What is known about the change in one direction — kats/detectors/cusum_detection.py:79-93. *)
Record meta := MkMeta {
  m_index : Z; m_time : Z; m_mu0 : option Q; m_mu1 : option Q; m_stable : bool;
  m_llr_int : stat; m_p_int : option R; m_llr : stat; m_p : option R; m_found : bool }.

(** the statistic in the window of interest — kats/detectors/cusum_detection.py:394-408:
    of the window, split at the change point; the p-value is NaN without a window. *)
Definition llr_window (ts : list Q) (window : option (Z * Z)) (cp : Z) : stat * option R :=
  match window with
  | None => (Inf, None)
  | Some (a, b) =>
      let w := py_slice ts (Some a) (Some b) in
      let c := cp - a in
      let s := llr_of w (qmean (py_slice w None (Some (c + 1)))) (qmean (py_slice w (Some (c + 1)) None)) c in
      (s, p_value s)
  end.

(** np.std(ts[:cp]): NaN for an empty slice. *)
Definition std_before (ts : list Q) (cp : Z) : option R :=
  match py_slice ts None (Some cp) with [] => None | l => Some (rstd (map Q2R l)) end.
Definition all_nonneg (ts : list Q) : bool := forallb (fun x => Qle_bool 0 x) ts.

(** the magnitude test — kats/detectors/cusum_detection.py:616-633. *)
Definition mag_change (A : args) (d : direction) (times : list Z) (ts : list Q) : option bool :=
  match a_magnitude A, a_window A with
  | Some quant, Some w =>
      if all_nonneg ts then
        option_map (fun x => Qle_bool (a_days A) x)
          (magnitude_compare quant (a_ratio A) times w
             (match d with Increase => ts | Decrease => map Qopp ts end))
      else Some true
  | _, _ => Some true
  end.

(** the decision about one change point — kats/detectors/cusum_detection.py:606-657. *)
Definition decide (A : args) (d : direction) (times : list Z) (ts : list Q)
    (index : Z) (mu0 mu1 : option Q) (stable : bool) : option meta :=
  match nth_z times index with
  | None => None
  | Some t =>
      let '(li, pi) := llr_window ts (a_window A) index in
      let l := llr_of ts mu0 mu1 index in
      match mag_change A d times ts with
      | None => None
      | Some mag =>
          let abs_ok := match mu0, mu1 with
                        | Some m0, Some m1 =>
                            match d with
                            | Increase => negb (Qle_bool m1 (m0 + a_min_abs A))
                            | Decrease => negb (Qle_bool m0 (m1 + a_min_abs A))
                            end
                        | _, _ => false
                        end in
          let std_ok := match mu0, mu1, std_before ts index with
                        | Some m0, Some m1, Some s =>
                            if Rlt_dec (s * Q2R (a_std_ratio A)) (Rabs (Q2R (m1 - m0))) then true else false
                        | _, _, _ => false
                        end in
          Some (MkMeta index t mu0 mu1 stable li pi l (p_value l)
                  (significant (a_threshold A) l && significant (a_threshold A) li
                   && abs_ok && std_ok && mag))
      end
  end.

Definition change_meta (A : args) (times : list Z) (ts : list Q) (d : direction) : option meta :=
  match get_change_point d ts (a_window A) (a_max_iter A) (a_start A) with
  | None => None
  | Some c => decide A d times ts (cp_index c) (cp_mu0 c) (cp_mu1 c) (cp_stable c)
  end.

(** the directions asked for — kats/detectors/cusum_detection.py:584-601. *)
Inductive dname := NInc | NDec | NBoth | NEmpty | NOther.
Inductive dir_arg := DNone | DStr (s : dname) | DList (l : list dname).
Definition dir_of (s : dname) : option direction :=
  match s with NInc => Some Increase | NDec => Some Decrease | _ => None end.
Fixpoint all_dirs (l : list dname) : option (list direction) :=
  match l with
  | [] => Some []
  | s :: l => match dir_of s, all_dirs l with Some d, Some r => Some (d :: r) | _, _ => None end
  end.
Definition directions (a : dir_arg) : option (list direction) :=
  match (match a with DNone => [] | DStr s => [s] | DList l => l end) with
  | [] | [NEmpty] | [NBoth] => Some [Increase; Decrease]
  | l => all_dirs l
  end.
Definition dir_eqb (a b : direction) : bool :=
  match a, b with Increase, Increase | Decrease, Decrease => true | _, _ => false end.
(** the keys of [changes_meta]: a direction given twice is kept once. *)
Fixpoint keys (seen : list direction) (l : list direction) : list direction :=
  match l with
  | [] => []
  | d :: l => if existsb (dir_eqb d) seen then keys seen l else d :: keys (d :: seen) l
  end.

Fixpoint all_metas (f : direction -> option meta) (ds : list direction)
  : option (list (direction * meta)) :=
  match ds with
  | [] => Some []
  | d :: ds => match f d, all_metas f ds with Some m, Some r => Some ((d, m) :: r) | _, _ => None end
  end.
(** [_convert_cusum_changepoints] — kats/detectors/cusum_detection.py:663-698. *)
Definition convert (all : bool) (l : list (direction * meta)) : list (direction * meta) :=
  filter (fun r => m_found (snd r) || all) l.

(** [detector] — kats/detectors/cusum_detection.py:519-661. *)
Definition detector (A : args) (dirs : dir_arg) (times : list Z) (ts : list Q)
  : option (list (direction * meta)) :=
  match directions dirs with
  | None => None
  | Some ds => option_map (convert (a_all A)) (all_metas (change_meta A times ts) (keys [] ds))
  end.

(** ** The vectorised detector *)

(** [mask[: c + 1, i] = True] — kats/detectors/cusum_detection.py:1365-1367: the entries
    selected, and the other ones.  Simplification: the sum of [ts * mask] is the sum of the
    selected entries (no NaN and no infinity in the data). *)
Definition mask (n : nat) (c : Z) : list bool :=
  map (fun i => Z.of_nat i <? norm_idx (Z.of_nat n) (c + 1)) (seq 0 n).
Fixpoint select (m : list bool) (l : list Q) : list Q :=
  match m, l with b :: m, x :: l => if b then x :: select m l else select m l | _, _ => [] end.
Definition mean_in (ts : list Q) (c : Z) : option Q := qmean (select (mask (length ts) c) ts).
Definition mean_out (ts : list Q) (c : Z) : option Q := qmean (select (map negb (mask (length ts) c)) ts).

(** one round of all columns — kats/detectors/cusum_detection.py:1368-1381. *)
Definition vec_update (d : direction) (ts : list Q) (c : Z) : Z :=
  Z.max (Z.min (cusum_arg d ts (half_sum (mean_in ts c) (mean_out ts c))) (Z.of_nat (length ts) - 2)) 1.
Fixpoint zip_with {A B C} (f : A -> B -> C) (l : list A) (m : list B) : list C :=
  match l, m with x :: l, y :: m => f x y :: zip_with f l m | _, _ => [] end.
(** the loop — kats/detectors/cusum_detection.py:1359-1385: it stops when no column moves. *)
Fixpoint vec_loop (d : direction) (cols : list (list Q)) (fuel : nat) (cps : list Z) (st : list bool)
  : list Z * list bool :=
  match fuel with
  | O => (cps, st)
  | S k =>
      let nxt := zip_with (vec_update d) cols cps in
      let st := zip_with Z.eqb cps nxt in
      if forallb (fun b => b) st then (cps, st) else vec_loop d cols k nxt st
  end.
Definition vec_start (d : direction) (start : option Z) (ts : list Q) : Z :=
  match start with
  | Some s => s
  | None => Z.min (cusum_arg d ts (qmean ts)) (Z.of_nat (length ts) - 2)
  end.
(** [_get_change_point_multiple_ts] — kats/detectors/cusum_detection.py:1309-1435; the
    empty list for an empty window (1339-1350). *)
Definition vec_change_points (d : direction) (cols : list (list Q)) (window : option (Z * Z))
    (max_iter : nat) (start : option Z) : list change_point :=
  let win ts := match window with Some (a, b) => py_slice ts (Some a) (Some b) | None => ts end in
  let cols_int := map win cols in
  match cols_int with
  | [] => []
  | c0 :: _ =>
      if Nat.eqb (length c0) 0 then [] else
      let r := vec_loop d cols_int max_iter (map (vec_start d start) cols_int)
                 (map (fun _ => false) cols_int) in
      zip_with (fun ts cs =>
         let cp := match window with Some (a, _) => fst cs + a | None => fst cs end in
         {| cp_index := cp; cp_mu0 := mean_in ts cp; cp_mu1 := mean_out ts cp; cp_stable := snd cs |})
        cols (combine (fst r) (snd r))
  end.
(** the columns' metas in one direction — kats/detectors/cusum_detection.py:1075-1130: a
    column without a change point raises IndexError. *)
Fixpoint vec_metas (A : args) (d : direction) (times : list Z) (cols : list (list Q))
    (cps : list change_point) : option (list meta) :=
  match cols with
  | [] => Some []
  | ts :: cols =>
      match cps with
      | [] => None
      | c :: cps =>
          match decide A d times ts (cp_index c) (cp_mu0 c) (cp_mu1 c) (cp_stable c),
                vec_metas A d times cols cps with
          | Some m, Some r => Some (m :: r)
          | _, _ => None
          end
      end
  end.
Fixpoint vec_all (A : args) (times : list Z) (cols : list (list Q)) (ds : list direction)
  : option (list (direction * list meta)) :=
  match ds with
  | [] => Some []
  | d :: ds =>
      match vec_metas A d times cols
              (vec_change_points d cols (a_window A) (a_max_iter A) (a_start A)),
            vec_all A times cols ds with
      | Some ms, Some r => Some ((d, ms) :: r)
      | _, _ => None
      end
  end.
Definition pick_col (i : nat) (r : list (direction * list meta)) : list (direction * meta) :=
  flat_map (fun dm => match nth_error (snd dm) i with Some m => [(fst dm, m)] | None => [] end) r.
(** [VectorizedCUSUMDetector.detector] — kats/detectors/cusum_detection.py:980-1145. *)
Definition vec_detector (A : args) (dirs : dir_arg) (times : list Z) (cols : list (list Q))
  : option (list (list (direction * meta))) :=
  match directions dirs with
  | None => None
  | Some ds =>
      match vec_all A times cols (keys [] ds) with
      | None => None
      | Some r => Some (map (fun i => convert (a_all A) (pick_col i r)) (seq 0 (length cols)))
      end
  end.

(** the directions of [detector_] — kats/detectors/cusum_detection.py:1209-1217: only None
    means both; a string is taken letter by letter, and no letter is a direction. *)
Definition directions_ (a : dir_arg) : option (list direction) :=
  match a with
  | DNone => Some [Increase; Decrease]
  | DStr NEmpty => Some []
  | DStr _ => None
  | DList l => all_dirs l
  end.
(** [VectorizedCUSUMDetector.detector_] — kats/detectors/cusum_detection.py:1147-1307: no
    start point; a direction without change points (an empty window) is left out. *)
Fixpoint vec_all_ (A : args) (times : list Z) (cols : list (list Q)) (ds : list direction)
  : option (list (direction * list meta)) :=
  match ds with
  | [] => Some []
  | d :: ds =>
      match vec_change_points d cols (a_window A) (a_max_iter A) None with
      | [] => vec_all_ A times cols ds
      | cps =>
          match vec_metas A d times cols cps, vec_all_ A times cols ds with
          | Some ms, Some r => Some ((d, ms) :: r)
          | _, _ => None
          end
      end
  end.
Definition vec_detector_ (A : args) (dirs : dir_arg) (times : list Z) (cols : list (list Q))
  : option (list (list (direction * meta))) :=
  match directions_ dirs with
  | None => None
  | Some ds =>
      match vec_all_ A times cols (keys [] ds) with
      | None => None
      | Some r => Some (map (fun i => convert (a_all A) (pick_col i r)) (seq 0 (length cols)))
      end
  end.

(** ** The multivariate detector *)

(** A row is a function from the column number; [d] columns; [M] is the inverse of the
    covariance of all rows, [ld] the logarithm of its determinant. *)
Definition row := nat -> Q.
Definition quad (d : nat) (M : nat -> nat -> Q) (v : row) : Q :=
  sumn d (fun i => sumn d (fun j => v i * M i j * v j)%Q).
Definition vsub (a b : row) : row := fun j => (a j - b j)%Q.
Definition vmean (l : list row) : row :=
  fun j => (qsum (map (fun x => x j) l) / inject_Z (Z.of_nat (length l)))%Q.

(** [_log_llr_multi] — kats/detectors/cusum_detection.py:845-868. *)
Definition log_llr_multi (d : nat) (x : list row) (mu0 : row) (M0 : nat -> nat -> Q) (ld0 : Q)
    (mu1 : row) (M1 : nat -> nat -> Q) (ld1 : Q) : Q :=
  (inject_Z (Z.of_nat (length x)) / 2 * (ld0 - ld1)
   + qsum (map (fun v => - quad d M1 (vsub v mu1) + quad d M0 (vsub v mu0)) x))%Q.
(** [_get_llr] — kats/detectors/cusum_detection.py:813-843: the same covariance everywhere
    (899, 941: [sigma0 = sigma1 = np.cov(ts)]). *)
Definition get_llr_multi (d : nat) (M : nat -> nat -> Q) (ld : Q) (a b : list row) (mu0 mu1 : row) : Q :=
  let mt := vmean (a ++ b) in
  ((-2) * (log_llr_multi d a mt M ld mu0 M ld - log_llr_multi d b mt M ld mu1 M ld))%Q.

(** one round of the search — kats/detectors/cusum_detection.py:887-922. *)
Definition multi_update (d : nat) (M : nat -> nat -> Q) (ld : Q) (ts : list row) (cp : Z) : Z :=
  let mu0 := vmean (py_slice ts None (Some (cp + 1))) in
  let mu1 := vmean (py_slice ts (Some (cp + 1)) None) in
  let si := map (fun v => - (1 # 2) * ld - quad d M (vsub v mu1) + (1 # 2) * ld + quad d M (vsub v mu0))%Q ts in
  Z.max 1 (Z.min (Z.of_nat (arg_best Increase (cumsum_from 0 si))) (Z.of_nat (length ts) - 2)).
Fixpoint multi_loop (d : nat) (M : nat -> nat -> Q) (ld : Q) (ts : list row) (fuel : nat) (cp : Z) : Z * bool :=
  match fuel with
  | O => (cp, false)
  | S k => let nxt := multi_update d M ld ts cp in
           if nxt =? cp then (cp, negb (Nat.eqb k 0)) else multi_loop d M ld ts k nxt
  end.
(** [detector] — kats/detectors/cusum_detection.py:755-809, 870-959; [crit] is
    [chi2.ppf(1 - threshold, columns + 1)].  The index, the statistic, and whether a change
    is reported.  Simplification: the means are those of a series that is split in two
    non-empty parts. *)
Definition multi_detector (d : nat) (M : nat -> nat -> Q) (ld crit : Q) (ts : list row)
    (max_iter : nat) (start : option Z) : Z * Q * bool :=
  let s := match start with Some s => s | None => Z.of_nat (length ts) / 2 end in
  let cp := fst (multi_loop d M ld ts max_iter s) in
  let a := py_slice ts None (Some (cp + 1)) in
  let b := py_slice ts (Some (cp + 1)) None in
  let llr := get_llr_multi d M ld a b (vmean a) (vmean b) in
  (cp, llr, negb (Qle_bool llr crit)).

(** ** Comparing change points *)

(** Python's round(x, k): to k decimals, halves to even. *)
Definition round_half_even (x : Q) : Z :=
  let f := Qnum x / QDen x in
  let r := (x - inject_Z f)%Q in
  if Qeq_bool r (1 # 2) then (if Z.even f then f else f + 1)
  else if Qle_bool r (1 # 2) then f else f + 1.
Definition round_to (k : nat) (x : Q) : Z := round_half_even (x * inject_Z (10 ^ Z.of_nat k)).
(** [_almost_equal] — kats/detectors/cusum_detection.py:271-276, of finite numbers; a
    division by zero gives infinity, which is not rounded to zero. *)
Definition almost_equal (k : nat) (x y : Q) : bool :=
  Qeq_bool x y || (round_to k x =? round_to k y)
  || (negb (Qeq_bool x 0) && (round_to k (Qabs ((y - x) / x)) =? 0)).
