(** Model of the spectrum of the Fourier seasonality detector — FFTDetector.get_fft, kats/detectors/seasonality.py:265-283.

    scipy.fftpack.fft is the discrete Fourier transform and fftfreq its frequencies, over the reals; the logarithm of a power
    of zero, minus infinity, is [None].  The transform of an empty series raises and is left out. *)
From Coq Require Import List Arith ZArith Reals.
Import ListNotations.

(** fft: real and imaginary part of one coefficient; [m] is the index of the first value of [x] *)
Fixpoint part (wave : R -> R) (n k m : nat) (x : list R) : R :=
  match x with
  | [] => 0
  | v :: t => (v * wave (- (2 * PI * INR k * INR m / INR n)) + part wave n k (S m) t)%R
  end.
Definition fft (x : list R) : list (R * R) :=
  map (fun k => (part cos (length x) k 0 x, part sin (length x) k 0 x)) (seq 0 (length x)).
(** fftfreq(n, d): 0, 1, …, (n-1)//2, -(n//2), …, -1 over n d *)
Definition fftfreq (n : nat) (d : R) : list R :=
  map (fun i => (IZR i / (INR n * d))%R)
    (map Z.of_nat (seq 0 ((n - 1) / 2 + 1)) ++ map (fun i => (- Z.of_nat (n / 2) + Z.of_nat i)%Z) (seq 0 (n / 2))).
Definition log10 (y : R) : option R := if Rlt_dec 0 y then Some (ln y / ln 10)%R else None.
(** [data_psd = np.abs(data_fft) ** 2] and [10 * np.log10(data_psd)], at the positive frequencies *)
Definition get_fft (sample_spacing : R) (x : list R) : list (R * option R) :=
  map (fun p => (fst p, option_map (Rmult 10) (log10 (snd p))))
    (filter (fun p => if Rlt_dec 0 (fst p) then true else false)
       (combine (fftfreq (length x) (1 / sample_spacing)) (map (fun c => (fst c * fst c + snd c * snd c)%R) (fft x)))).
