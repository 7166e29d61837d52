(** Model of Bayesian online change point detection (kats/detectors/bocpd.py), one series.

    Log probabilities are modelled by the probabilities themselves (exact rationals), so
    [logaddexp] is addition, [+] is multiplication and [-] is division.  A run of the
    detector on several series is the same computation column by column
    ([self._ts_slice]); it is modelled for one column.  NaN, infinities and underflow are
    left out. *)
From Verif Require Import Common.
Open Scope nat_scope.

(** ** The message recursion — _BayesOnlineChangePoint._find_posterior, bocpd.py:828-969 *)

(** element-wise product of two vectors of equal length *)
Definition vmul (a b : list Q) : list Q := map (fun p => (fst p * snd p)%Q) (combine a b).

(** steps 4 and 5 — bocpd.py:891-913.  [message] holds run length 0 first: the array grows
    backwards from its end and the new change point entry is put in front. *)
Definition change_point_prob (h : Q) (pred_arr message : list Q) : Q :=
  qsum (map (fun x => (x * h)%Q) (vmul pred_arr message)).
Definition next_message (h : Q) (pred_arr message : list Q) : list Q :=
  change_point_prob h pred_arr message :: map (fun x => (x * (1 - h))%Q) (vmul pred_arr message).

(** step 6 — bocpd.py:915-948: evidence from the change point probability alone *)
Definition evidence (h cp : Q) : Q := (cp + cp / h * (1 - h))%Q.

(** [pred t r]: predictive density of point [t] given a run of length index [r] at [t-1]
    ([model.pred_prob(t, x)[r]]).  [messages i] is the message after the pass for point [i];
    it starts as one entry log 1 = 0 — bocpd.py:849-853. *)
Fixpoint messages (h : Q) (pred : nat -> nat -> Q) (i : nat) : list Q :=
  match i with
  | O => [1%Q]
  | S k => next_message h (map (pred (S k)) (seq 0 (S k))) (messages h pred k)
  end.

(** step 7 — bocpd.py:950-955, and the first row — bocpd.py:843-845 *)
Definition posterior (h : Q) (pred : nat -> nat -> Q) (i : nat) : list Q :=
  match i with
  | O => [1%Q]
  | S _ => let m := messages h pred i in map (fun x => (x / evidence h (hd 0%Q m))%Q) m
  end.

(** [rt_posterior[:, :, t]]: T rows of length T, zero beyond the run lengths possible *)
Definition pad (n : nat) (l : list Q) : list Q := l ++ repeat 0%Q (n - length l).
Definition rt_posterior (h : Q) (pred : nat -> nat -> Q) (T : nat) : list (list Q) :=
  map (fun i => pad T (posterior h pred i)) (seq 0 T).

(** [posterior_predictive]: sum of log probabilities = product — bocpd.py:866-881 *)
Fixpoint posterior_predictive (h : Q) (pred : nat -> nat -> Q) (T : nat) : Q :=
  match T with
  | O => 1%Q
  | S i => if Nat.ltb 1 i
           then (posterior_predictive h pred i
                 * qsum (vmul (map (pred i) (seq 0 i)) (posterior h pred (i - 1))))%Q
           else posterior_predictive h pred i
  end.

(** ** Change points — bocpd.py:1085-1118 *)
Definition entry (M : list (list Q)) (i j : nat) : Q := nth j (nth i M []) 0%Q.
(** np.fill_diagonal(M, 0) in place *)
Fixpoint set_nth (k : nat) (v : Q) (l : list Q) : list Q :=
  match l, k with
  | [], _ => []
  | _ :: t, O => v :: t
  | x :: t, S k' => x :: set_nth k' v t
  end.
Definition fill_diagonal (M : list (list Q)) : list (list Q) :=
  map (fun p => set_nth (fst p) 0%Q (snd p)) (combine (seq 0 (length M)) M).
Definition qmax2 (a b : Q) : Q := if Qle_bool a b then b else a.
Fixpoint vmax (l : list Q) : Q := match l with [] => 0%Q | [x] => x | x :: t => qmax2 x (vmax t) end.

(** [_calc_agg_cppprob] — bocpd.py:1085-1093: returns the probabilities and the matrix,
    whose diagonal is cleared in place ([rt_posterior[:, :, t]] is a view) *)
Definition agg_cppprob (T : nat) (M : list (list Q)) : list Q * list (list Q) :=
  let M' := fill_diagonal M in
  (map (fun i => vmax (map (fun k => entry M' (i + k) k) (seq 0 (T - i)))) (seq 0 T), M').

(** [_construct_output] — bocpd.py:1095-1118.  [None] when the lag is out of bounds
    (IndexError); change points are [np.where(change_prob > threshold)]. *)
Record output := MkOut { change_prob : list Q; change_points : list nat; run_length_prob : list (list Q) }.
Definition where_above (threshold : Q) (l : list Q) : list nat :=
  filter (fun i => negb (Qle_bool (nth i l 0%Q) threshold)) (seq 0 (length l)).
Definition lag_probs (T lag : nat) (M : list (list Q)) : list Q :=
  set_nth 0 0%Q (map (fun i => entry M i lag) (seq lag (T - lag)) ++ repeat 0%Q lag).
Definition construct_output (agg : bool) (threshold : Q) (lag T : nat) (M : list (list Q)) : option output :=
  if agg then
    let '(cp, M') := agg_cppprob T M in Some (MkOut cp (where_above threshold cp) M')
  else if Nat.ltb lag T then
    let cp := lag_probs T lag M in Some (MkOut cp (where_above threshold cp) M)
  else None.
Definition detector (agg : bool) (threshold h : Q) (lag : nat) (pred : nat -> nat -> Q) (T : nat) : option output :=
  construct_output agg threshold lag T (rt_posterior h pred T).

(** ** The normal model with known precision — _NormalKnownPrec, bocpd.py:1206-1442 *)
(** Arrays of length [maxT] grown backwards from the end; [n] is [-self._ptr]. *)
Record nk := MkNk { nk_n : nat; nk_prec : list Q; nk_num : list Q; nk_mean : list Q; nk_var : list Q }.
Definition upd_suffix (n : nat) (f : Q -> Q) (l : list Q) : list Q :=
  firstn (length l - n) l ++ map f (skipn (length l - n) l).
Definition set_suffix (n : nat) (v : list Q) (l : list Q) : list Q := firstn (length l - n) l ++ v.
Definition suffix (n : nat) (l : list Q) : list Q := skipn (length l - n) l.
(** bocpd.py:1261-1288: the numerators start at 0, the means at mu_0 * lambda_0 *)
Definition nk_init (maxT : nat) (mu0 lam0 : Q) : nk :=
  MkNk 0 (repeat lam0 maxT) (repeat 0%Q maxT) (repeat (mu0 * lam0)%Q maxT) (repeat 0%Q maxT).
(** update_sufficient_stats — bocpd.py:1384-1437; [nk_var] is the square of [_std_arr] *)
Definition nk_update (lam : Q) (x : Q) (s : nk) : nk :=
  let n := S (nk_n s) in
  let prec := upd_suffix n (fun p => (p + lam)%Q) (nk_prec s) in
  let num := upd_suffix n (fun p => (p + x * lam)%Q) (nk_num s) in
  let var := set_suffix n (map (fun p => (1 / p + 1 / lam)%Q) (suffix n prec)) (nk_var s) in
  let mean := set_suffix n (map (fun p => (fst p / snd p)%Q) (combine (suffix n num) (suffix n prec))) (nk_mean s) in
  MkNk n prec num mean var.
Fixpoint nk_feed (lam : Q) (xs : list Q) (s : nk) : nk :=
  match xs with [] => s | x :: t => nk_feed lam t (nk_update lam x s) end.
(** pred_mean, pred_std — bocpd.py:1378-1382 *)
Definition nk_slice (t : nat) (s : nk) (a : list Q) : list Q :=
  firstn t (skipn (length a - nk_n s) a).
Definition nk_pred_mean (t : nat) (s : nk) : list Q := nk_slice t s (nk_mean s).
Definition nk_pred_var (t : nat) (s : nk) : list Q := nk_slice t s (nk_var s).

(** ** The Poisson model — _PoissonProcessModel, bocpd.py:1811-1938 *)
Record pois := MkPois { po_t : nat; po_events : list Q; po_n : list Q; po_p : list Q }.
Definition po_init : pois := MkPois 0 [] [] [].
(** update_sufficient_stats — bocpd.py:1889-1933 (parameters of the last time only) *)
Definition po_update (alpha beta x : Q) (s : pois) : pois :=
  let t := S (po_t s) in
  let ev := x :: po_events s in
  let q := fun k : nat => inject_Z (Z.of_nat k) in
  MkPois t ev
    (map (fun k => (alpha + qsum (firstn k ev))%Q) (seq 1 t))
    (map (fun k => ((q k + beta) / (q k + 1 + beta))%Q) (seq 1 t)).
Fixpoint po_feed (alpha beta : Q) (xs : list Q) (s : pois) : pois :=
  match xs with [] => s | x :: t => po_feed alpha beta t (po_update alpha beta x s) end.
(** scipy's nbinom.mean and nbinom.var *)
Definition nbinom_mean (n p : Q) : Q := (n * (1 - p) / p)%Q.
Definition nbinom_var (n p : Q) : Q := (n * (1 - p) / (p * p))%Q.
