(** kats/tsfeatures/tsfeatures.py:929-1171: features of the autocorrelation (get_acfpacf_features).

    Values are real numbers without NaN.  The partial autocorrelations of statsmodels are a parameter, which may
    raise. *)
From Coq Require Import Reals.
From Coq Require Import String.
From Coq Require Import List ZArith Bool.
Import ListNotations.
Open Scope R_scope.

Fixpoint rsum (l : list R) : R := match l with [] => 0 | x :: l => x + rsum l end.
Definition mean (l : list R) : R := rsum l / INR (length l).
Definition zero (x : R) : bool := if Req_EM_T x 0 then true else false.

(** statsmodels acf (adjusted=False): autocovariances and their ratios for the lags 0 .. nlags, as far as there are
    values; None for the NaN of 0/0.  The Fourier transform computes the same sums. *)
Definition acov (x : list R) (k : nat) : R :=
  rsum (map (fun t => (nth t x 0 - mean x) * (nth (t + k) x 0 - mean x)) (seq 0 (length x - k))) / INR (length x).
Definition acf (x : list R) (nlags : nat) : list (option R) :=
  map (fun k => if zero (acov x 0) then None else Some (acov x k / acov x 0)) (seq 0 (Nat.min (S nlags) (length x))).

(** tsfeatures.py:1104-1105 *)
Fixpoint diff (x : list R) : list R :=
  match x with
  | a :: (b :: _) as l => (b - a) :: diff l
  | _ => []
  end.
(** tsfeatures.py:1160-1171 (_yule_walker_determinant): the matrix is 1 x 1, its entry the variance. *)
Definition determinant (x : list R) : R := rsum (map (fun v => (v - mean x) ^ 2) x) / INR (length x).
(** len(np.unique(x)) == 1 — tsfeatures.py:1094 *)
Definition constant (x : list R) : bool :=
  match x with [] => false | a :: l => forallb (fun v => if Req_EM_T v a then true else false) l end.

(** np.sum and np.nansum of the squares of the first five *)
Definition add_nan (a b : option R) : option R := match a, b with Some a, Some b => Some (a + b) | _, _ => None end.
Definition square_nan (a : option R) : option R := option_map (fun v => v ^ 2) a.
Definition sum5 (l : list (option R)) : option R := fold_right add_nan (Some 0) (map square_nan (firstn 5 l)).
Definition nansum5 (l : list (option R)) : option R :=
  Some (fold_right (fun a s => match a with Some v => v ^ 2 + s | None => s end) 0 (firstn 5 l)).

(** The result; None is NaN. *)
Record features := Features {
  y_acf1 : option R; y_acf5 : option R; d1_acf1 : option R; d1_acf5 : option R; d2_acf1 : option R; d2_acf5 : option R;
  y_pacf5 : option R; d1_pacf5 : option R; d2_pacf5 : option R; seas_acf1 : option R; seas_pacf1 : option R }.
Definition all_nan : features := Features None None None None None None None None None None None.

(** a switched value: [None] outside is an exception (l[0] or l[-1] of an empty list) *)
Definition switched (on : bool) (v : option (option R)) : option (option R) := if on then v else Some None.
Definition last_error {A} (l : list A) : option A := match rev l with [] => None | x :: _ => Some x end.

(** get_acf_features, get_pacf_features — tsfeatures.py:934-1048; [on] is extra_args.get(name, default_status). *)
Definition collect (on : string -> bool) (y d1 d2 py p1 p2 : list (option R)) : option features :=
  match switched (on "y_acf1"%string) (hd_error y), switched (on "diff1y_acf1"%string) (hd_error d1),
        switched (on "diff2y_acf1"%string) (hd_error d2), switched (on "seas_acf1"%string) (last_error y),
        switched (on "seas_pacf1"%string) (last_error py) with
  | Some a, Some b, Some c, Some s, Some t =>
      Some (Features a (if on "y_acf5"%string then sum5 y else None) b (if on "diff1y_acf5"%string then sum5 d1 else None)
              c (if on "diff2y_acf5"%string then sum5 d2 else None)
              (if on "y_pacf5"%string then nansum5 py else None) (if on "diff1y_pacf5"%string then nansum5 p1 else None)
              (if on "diff2y_pacf5"%string then nansum5 p2 else None) s t)
  | _, _, _, _, _ => None
  end.

(** get_acfpacf_features — tsfeatures.py:1053-1155; [extra] is None for extra_args=None (no attribute get). *)
Definition acfpacf (pacf : list R -> nat -> option (list (option R))) (x : list R) (lag period : nat)
    (extra : option (string -> option bool)) (default : bool) : option features :=
  if Nat.ltb (length x) 10 || Nat.ltb (length x) period || constant x then Some all_nan else
  let nlag := Nat.min lag (length x - 2) in
  let d1 := diff x in
  let d2 := diff d1 in
  match pacf x period with
  | None => None
  | Some py =>
      if zero (determinant d1) || zero (determinant d2) then Some all_nan else
      match pacf d1 nlag, pacf d2 nlag, extra with
      | Some p1, Some p2, Some f =>
          collect (fun name => match f name with Some b => b | None => default end)
            (tl (acf x period)) (tl (acf d1 nlag)) (tl (acf d2 nlag)) (tl py) (tl p1) (tl p2)
      | _, _, _ => None
      end
  end.
