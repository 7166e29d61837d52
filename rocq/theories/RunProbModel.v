(** Model of the m-run probability and the two critical-value searches of
    kats/detectors/interval_detector.py.
    Floats are exact rationals; only the independent case (cov=None) is modelled. *)
From Verif Require Import Common.
Open Scope Q_scope.

(** Matrices are functions of row and column index, used on a (d x d) square. *)
Definition mat := nat -> nat -> Q.
Definition vec := nat -> Q.

Definition mat_id : mat := fun i j => if Nat.eqb i j then 1 else 0.
Definition mat_mul (d : nat) (A B : mat) : mat :=
  fun i j => sumn d (fun k => A i k * B k j).
(** np.linalg.matrix_power(A, k) (used at interval_detector.py:1111).
    Simplification: numpy squares repeatedly; in exact arithmetic the value is the same. *)
Fixpoint mat_pow (d : nat) (A : mat) (k : nat) : mat :=
  match k with O => mat_id | S k' => mat_mul d (mat_pow d A k') A end.
(** r @ M *)
Definition vec_mat (d : nat) (r : vec) (M : mat) : vec :=
  fun j => sumn d (fun i => r i * M i j).

(** interval_detector.py:968-969 _w_independent:
    np.power(p, np.arange(m + 1)) * np.array([(1 - p)] * m + [1]) *)
Definition w_independent (m : nat) (p : Q) : vec :=
  fun i => qpow p i * (if Nat.ltb i m then 1 - p else 1).

(** interval_detector.py:1101-1106 _A: np.diag([1.0]*m, k=1); A[:,0] = w;
    A[-2,-1] = 0.0; A[-1,-1] = 1.0   (the matrix is (m+1) x (m+1)). *)
Definition trans_A (m : nat) (w : vec) : mat :=
  fun i j =>
    if (Nat.eqb i m && Nat.eqb j m)%bool then 1
    else if (Nat.eqb (S i) m && Nat.eqb j m)%bool then 0
    else if Nat.eqb j 0 then w i
    else if Nat.eqb j (S i) then 1 else 0.

(** interval_detector.py:1109 r = np.array([0] * m + [1]) *)
Definition start_r (m : nat) : vec := fun i => if Nat.eqb i m then 1 else 0.

(** interval_detector.py:1108-1111 _vec_solve *)
Definition vec_solve (w : vec) (n m : nat) : vec :=
  vec_mat (S m) (start_r m) (mat_pow (S m) (trans_A m w) (n - m + 1)).

(** interval_detector.py:1066-1116 _probability_of_at_least_one_m_run_in_n_trials,
    including _check_args (1093-1099): None is the ValueError. *)
Definition run_probability (p : Q) (n m : nat) : option Q :=
  if Nat.leb m 0 then None
  else if Nat.leb n 0 then None
  else if Nat.ltb n m then None
  else Some (vec_solve (w_independent m p) n m O).

(** interval_detector.py:796-830 _get_lowest_m. [p] is the loop variable, [pg] is p_global.
    The loop is bounded by max_iter, which is the fuel; [None] is the exception (either the
    "did not converge" one or a ValueError of the probability routine). *)
Fixpoint lowest_m_loop (fuel : nat) (pg r_tol : Q) (n max_iter : nat) (m : nat) (p : Q)
  : option (nat * Q) :=
  match fuel with
  | O => None
  | S f =>
      if (Nat.ltb m max_iter && Qle_bool pg p && Nat.leb m n)%bool then
        match run_probability pg n m with
        | None => None
        | Some p' =>
            if Qle_bool p' (pg * (r_tol + 1)) then Some (m, p')
            else lowest_m_loop f pg r_tol n max_iter (S m) p'
        end
      else None
  end.
Definition get_lowest_m (p : Q) (n : nat) (r_tol : Q) (max_iter : nat) : option (nat * Q) :=
  lowest_m_loop max_iter p r_tol n max_iter 1 p.

(** interval_detector.py:885-905: the bisection loop of _get_lowest_p.
    [fuel] counts the remaining iterations: the code runs while i <= max_iter starting at i = 0,
    i.e. at most max_iter + 1 times. None = exception. *)
Fixpoint bisect_loop (fuel : nat) (n m : nat) (goal r_tol : Q) (lo hi : Q) : option (Q * Q) :=
  match fuel with
  | O => None
  | S f =>
      if Qle_bool lo hi then
        let pc := (hi + lo) / 2 in
        match run_probability pc n m with
        | None => None
        | Some pgl =>
            if (Qle_bool pgl (goal * (r_tol + 1)) && Qle_bool (goal * (1 - r_tol)) pgl)%bool
            then Some (pc, pgl)
            else if negb (Qle_bool goal pgl) then bisect_loop f n m goal r_tol pc hi
            else if negb (Qle_bool pgl goal) then bisect_loop f n m goal r_tol lo pc
            else bisect_loop f n m goal r_tol lo hi
        end
      else None
  end.

(** interval_detector.py:837-907 _get_lowest_p.
    Simplification: the m-th roots (p_goal ** (1/m), the two bracket ends p_low and p_high)
    are parameters, because they are irrational in general; what is needed of them is stated
    in the theorems. r_tol < 1e-9 raises. *)
Definition get_lowest_p (root_exact p_low p_high : Q) (m n : nat) (goal r_tol : Q) (max_iter : nat)
  : option (Q * Q) :=
  if Nat.ltb n m then None
  else if Nat.eqb n m then Some (root_exact, goal)
  else if negb (Qle_bool (1 # 1000000000) r_tol) then None
  else bisect_loop (S max_iter) n m goal r_tol p_low p_high.

(** interval_detector.py:684-728 _get_critical_value, the part that fixes duration and
    corrected_alpha. State = (duration, corrected_alpha). The roots are oracles as above. *)
Record cv_state := { cv_duration : option nat; cv_corrected : option Q }.
Definition get_critical_value_state (root_exact : nat -> nat -> Q -> Q)
    (p_low p_high : nat -> nat -> Q -> Q)
    (alpha : Q) (length : nat) (r_tol : Q) (s : cv_state) : option cv_state :=
  match cv_duration s with
  | None =>
      match get_lowest_m alpha length r_tol 1000 with
      | None => None
      | Some (m, p) => Some {| cv_duration := Some m; cv_corrected := Some p |}
      end
  | Some d =>
      match get_lowest_p (root_exact d length alpha) (p_low d length alpha) (p_high d length alpha)
              d length alpha r_tol 1000 with
      | None => None
      | Some (pc, _) => Some {| cv_duration := Some d; cv_corrected := Some pc |}
      end
  end.
