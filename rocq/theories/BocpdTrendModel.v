(** Model of the trend model of BOCPD, [_BayesianLinReg] — kats/detectors/bocpd.py:1444-1808.

    Numbers are reals; [None] is an exception.  Matrices are 2 by 2 and given by their entries.
    The random draws of [_sample_bayesian_linreg] are a parameter. *)
From Coq Require Import List Reals ZArith Bool.
Import ListNotations.
Open Scope R_scope.

Definition rsum {A} (f : A -> R) (l : list A) : R := fold_right (fun x s => f x + s) 0 l.
(** np.matmul of vectors with two entries *)
Definition vec := (R * R)%type.
Definition dot (a b : vec) : R := fst a * fst b + snd a * snd b.
(** a symmetric matrix: entries (0,0), (0,1), (1,1) *)
Record sym := { m00 : R; m01 : R; m11 : R }.
Definition mv (m : sym) (v : vec) : vec := (m00 m * fst v + m01 m * snd v, m01 m * fst v + m11 m * snd v).
Definition det (m : sym) : R := m00 m * m11 m - m01 m * m01 m.
(** np.linalg.inv; LinAlgError if it is singular *)
Definition inv (m : sym) : option sym :=
  if Req_EM_T (det m) 0 then None else Some {| m00 := m11 m / det m; m01 := - m01 m / det m; m11 := m00 m / det m |}.

(** ** Set up — bocpd.py:1464-1566 *)

(** TrendChangeParameters — bocpd.py:219-241 *)
Record params := { p_mu : option vec; p_samples : Z; p_points : nat; p_readjust : bool }.
(** [self.t], the rows of [self._x] (the second column) and [self._y] *)
Record trend := { mu_prior : option vec; a_0 : R; b_0 : R; samples : Z; t : nat; xs : list R; ys : list R }.
(** [__init__] — bocpd.py:1464-1503 *)
Definition make (p : params) : trend :=
  {| mu_prior := None; a_0 := 1 / 10; b_0 := 200; samples := p_samples p; t := 0; xs := []; ys := [] |}.
(** [self.lambda_prior] is [lam] times the unit matrix — bocpd.py:1490 *)
Definition lam : R := 2 / 10000000.
(** [linregress(x, y)]: intercept and slope, by the covariance and the variance (scipy) *)
Definition mean (l : list R) : R := rsum (fun x => x) l / INR (length l).
Definition linregress (pts : list (R * R)) : vec :=
  let mx := mean (map fst pts) in
  let my := mean (map snd pts) in
  let slope := rsum (fun p => (fst p - mx) * (snd p - my)) pts / rsum (fun p => (fst p - mx) * (fst p - mx)) pts in
  (my - slope * mx, slope).
(** [_residual_variance] — bocpd.py:1578-1588 *)
Definition residual_variance (pts : list (R * R)) (b : vec) : R :=
  rsum (fun p => (fst b + snd b * fst p - snd p) * (fst b + snd b * fst p - snd p)) pts / (INR (length pts) - 2).
(** [setup] — bocpd.py:1505-1566 *)
Definition setup (p : params) (vals : list R) (s : trend) : trend :=
  match p_mu p with
  | Some m => {| mu_prior := Some m; a_0 := a_0 s; b_0 := b_0 s; samples := samples s; t := t s; xs := xs s; ys := ys s |}
  | None =>
      let pts := firstn (p_points p) (combine (map INR (seq 0 (length vals))) vals) in
      let m := linregress pts in
      let sv := residual_variance pts m in
      let a := if p_readjust p then 2 + sv / 1000 else a_0 s in
      let b := if p_readjust p then sv * (a - 1) else b_0 s in
      {| mu_prior := Some m; a_0 := a; b_0 := b; samples := samples s; t := t s; xs := xs s; ys := ys s |}
  end.
(** [update_sufficient_stats] — bocpd.py:1775-1802 *)
Definition update (s : trend) (x : R) : trend :=
  {| mu_prior := mu_prior s; a_0 := a_0 s; b_0 := b_0 s; samples := samples s; t := S (t s);
     xs := xs s ++ [INR (t s)]; ys := ys s ++ [x] |}.

(** ** The posterior of one run — [log_post_pred], bocpd.py:1664-1709 *)

(** the last [rl + 1] rows (rl < N: no wrap around) *)
Definition run_rows (s : trend) (rl : nat) : list (R * R) := skipn (length (xs s) - rl - 1) (combine (xs s) (ys s)).
Definition xtx (pts : list (R * R)) : sym :=
  {| m00 := INR (length pts); m01 := rsum fst pts; m11 := rsum (fun p => fst p * fst p) pts |}.
Definition xty (pts : list (R * R)) : vec := (rsum snd pts, rsum (fun p => fst p * snd p) pts).
Definition yty (pts : list (R * R)) : R := rsum (fun p => snd p * snd p) pts.
Definition lambda_n (pts : list (R * R)) : sym :=
  {| m00 := m00 (xtx pts) + lam; m01 := m01 (xtx pts); m11 := m11 (xtx pts) + lam |}.
Record post := { mu_n : vec; l_n : sym; a_n : R; b_n : R }.
(** [tt] is the time argument; without [setup] the prior mean is [None] and np.matmul raises *)
Definition posterior (s : trend) (tt rl : nat) : option post :=
  let pts := run_rows s rl in
  match mu_prior s, inv (lambda_n pts) with
  | Some m0, Some i =>
      let mu := mv i (lam * fst m0 + fst (xty pts), lam * snd m0 + snd (xty pts)) in
      let a := a_0 s + INR tt / 2 in
      let b := b_0 s + 1 / 2 * (yty pts + lam * dot m0 m0 - dot mu (mv (lambda_n pts) mu)) in
      Some {| mu_n := mu; l_n := lambda_n pts;
              a_n := if Rlt_dec a 0 then a_0 s else a; b_n := if Rlt_dec b 0 then b_0 s else b |}
  | _, _ => None
  end.

(** ** The predictive probability — bocpd.py:1590-1650, 1711-1747 *)

(** [norm.pdf] *)
Definition norm_pdf (x loc scale : R) : R := exp (- ((x - loc) / scale) * ((x - loc) / scale) / 2) / (scale * sqrt (2 * PI)).
(** [int(math.sqrt(num) / 10000)] — bocpd.py:1493-1495 *)
Definition min_sum_samples (num : Z) : Z := (Z.sqrt num / 10000)%Z.
(** the average likelihood, the mean of the predictions and the standard deviation *)
Definition predictive (draw : vec -> sym -> R -> R -> list vec * R) (s : trend) (tt rl : nat) (y : R) : option (R * R * R) :=
  match posterior s tt rl with
  | None => None
  | Some p =>
      let '(betas, sigma2) := draw (mu_n p) (l_n p) (a_n p) (b_n p) in
      let predictions := map (fun b => dot b (1, INR tt)) betas in
      let sum := rsum (fun m => norm_pdf y m (sqrt sigma2)) predictions in
      Some (Rmax sum (IZR (min_sum_samples (samples s))) / IZR (samples s), mean predictions, sqrt sigma2)
  end.
(** [pred_prob] for all run lengths — bocpd.py:1652-1747; the logarithm is taken by the caller *)
Fixpoint all_some {A} (l : list (option A)) : option (list A) :=
  match l with
  | [] => Some []
  | x :: l => match x, all_some l with Some x, Some r => Some (x :: r) | _, _ => None end
  end.
Definition pred_prob draw (s : trend) (tt : nat) (y : R) : option (list (R * R * R)) :=
  all_some (map (fun rl => predictive draw s tt rl y) (seq 0 tt)).
(** the model when point [i] is scored: all points before it were added in order —
    bocpd.py:849, 966 *)
Definition before (p : params) (vals : list R) (ready : bool) (i : nat) : trend :=
  fold_left update (firstn i vals) (if ready then setup p vals (make p) else make p).
