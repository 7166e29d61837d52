(** Model of the seasonality detectors (kats/detectors/seasonality.py).

    Values are exact rationals.  The autocorrelation function with its confidence intervals
    (statsmodels), the transform with its amplitudes in decibel and scipy's peak finder are
    parameters. *)
From Verif Require Import Common MetricsModel.
Open Scope nat_scope.

(** ** Autocorrelation *)

(** [_get_seasonality_length] — seasonality.py:82-88.  [n] bounds the number of rounds; the
    list loses an element in every one. *)
Fixpoint sieve (n : nat) (d : list nat) : list nat :=
  match n, d with
  | S m, k :: t => k :: sieve m (filter (fun i => negb (Nat.eqb (i mod k) 0)) t)
  | _, _ => []
  end.
Definition get_seasonality_length (d : list nat) : list nat := sieve (length d) d.

(** np.diff *)
Fixpoint np_diff (l : list Q) : list Q :=
  match l with x :: t => match t with y :: _ => (y - x)%Q :: np_diff t | [] => [] end | [] => [] end.
Fixpoint np_diffs (n : nat) (l : list Q) : list Q := match n with O => l | S k => np_diffs k (np_diff l) end.

(** the loop over the confidence intervals — seasonality.py:126-129 *)
Fixpoint raw_seasonality (i : nat) (confint : list (Q * Q)) : list nat :=
  match confint with
  | [] => []
  | c :: t => if Qle_bool 0 (fst c) && Nat.ltb 1 i then i :: raw_seasonality (S i) t else raw_seasonality (S i) t
  end.

Section Acf.
(** [acf(ts_diff, nlags, alpha)]: the confidence interval of each lag from 0 on *)
Variable acf : list Q -> nat -> list (Q * Q).
(** [ACFDetector.detector] — seasonality.py:93-136: presence and cycle lengths *)
Definition acf_detector (ts : list Q) (lags : option nat) (diff : nat) : bool * list nat :=
  let ts_diff := np_diffs diff ts in
  let lags := match lags with None => length ts / 3 | Some l => l end in
  let s := get_seasonality_length (raw_seasonality 0 (acf ts_diff lags)) in
  (match s with [] => false | _ => true end, s).
End Acf.

(** ** Fourier transform *)
Definition qltb (a b : Q) : bool := negb (Qle_bool b a).
(** the fraction of the ratio — seasonality.py:326-327 *)
Definition fraction (q : Q) : Q := (q - inject_Z (Qfloor q))%Q.
Definition near (g f : Q) : bool := let r := fraction (g / f) in qltb r (1#100) || qltb (99#100) r.
(** the two loops over the peaks — seasonality.py:321-328 *)
Fixpoint sweep (l : list (Q * bool)) (n : nat) : list (Q * bool) :=
  match n, l with
  | S m, (f, b) :: t => (f, b) :: sweep (map (fun p => (fst p, snd p || near (fst p) f)) t) m
  | _, _ => l
  end.
Definition drop_harmonics (freqs : list Q) : list Q :=
  map fst (filter (fun p => negb (snd p)) (sweep (map (fun f => (f, false)) freqs) (length freqs))).

Definition qmean_of (l : list Q) : option Q := match l with [] => None | _ => Some (qsum l / inject_Z (Z.of_nat (length l)))%Q end.
(** the threshold — seasonality.py:302-309; the mean of no values is NaN *)
Definition threshold (ampl : list Q) (mad_threshold : Q) : option Q :=
  let pos := filter (fun a => qltb 0 a) ampl in
  match nanmedian (map Some pos) with
  | None => None
  | Some median =>
      let above := filter (fun a => qltb median a) pos in
      match qmean_of above with
      | None => None
      | Some m => match qmean_of (map (fun a => Qabs (a - m)) above) with
                  | None => None
                  | Some mad => Some (median + mad * mad_threshold)%Q
                  end
      end
  end.
Section Fft.
(** [find_peaks(ampl, threshold=0.1)]: positions of peaks *)
Variable find_peaks : list Q -> list nat.
(** [get_fft_peaks] — seasonality.py:285-331: the frequencies of the selected peaks.  A row
    is (frequency, amplitude). *)
Definition high_peaks (fft : list (Q * Q)) (mad_threshold : Q) : list Q :=
  let t := threshold (map snd fft) mad_threshold in
  map fst (filter (fun r => match t with Some v => qltb v (snd r) | None => false end)
             (map (fun i => nth i fft (0, 0)%Q) (find_peaks (map snd fft)))).
(** [FFTDetector.detector] — seasonality.py:204-231 *)
Definition fft_detector (fft : list (Q * Q)) (mad_threshold : Q) : bool * list Q :=
  let peaks := drop_harmonics (high_peaks fft mad_threshold) in
  (match peaks with [] => false | _ => true end, map (fun f => (1 / f)%Q) peaks).
End Fft.
