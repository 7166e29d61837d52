(** Model of the temporal hierarchical model
    (kats/models/reconciliation/thm.py, kats/models/reconciliation/base_models.py).

    Forecasts are exact rationals; the base models are arbitrary functions from a number of
    steps to that many forecasts; [np.linalg.solve] is a parameter that may fail.  Levels
    are natural numbers (the constructors check [>= 1], absence of duplicates and presence
    of level 1). *)
From Verif Require Import Common MetricsModel.
From Coq Require Import Sorted.
Open Scope nat_scope.

(** [_get_m] — thm.py:105-120 *)
Definition get_m (ks : list nat) : nat :=
  fold_left (fun base c => base * c / Nat.gcd base c) ks 1.
(** [self.freq] — thm.py:98; [int(m / k)] as integer division (m is a multiple of k) *)
Definition freq (m k : nat) : nat := m / k.

(** [get_S] — thm.py:151-166, rows in the order of [levels] *)
Definition S_row (m k i : nat) : list Q :=
  map (fun j => b2q (Nat.leb (i * k) j && Nat.ltb j (i * k + k))) (seq 0 m).
Definition get_S (levels : list nat) (m : nat) : list (list Q) :=
  flat_map (fun k => map (S_row m k) (seq 0 (freq m k))) levels.

(** [_aggregate_data] — thm.py:168-175; [reshape(-1, k).sum(axis=1)] *)
Fixpoint reshape_sum (k n : nat) (l : list Q) : list Q :=
  match n with O => [] | S r => qsum (firstn k l) :: reshape_sum k r (skipn k l) end.
Definition aggregate_data (data : list Q) (k : nat) : list Q :=
  if Nat.eqb k 1 then data
  else let h := length data / k in reshape_sum k h (firstn (h * k) data).

(** [get_W("struc")] — thm.py:269-275 *)
Definition W_struc (levels : list nat) (m : nat) : list Q :=
  flat_map (fun k => repeat (inject_Z (Z.of_nat k)) (freq m k)) levels.

(** [get_W("svar")] — thm.py:277-282; residuals without NaN, nonempty *)
Definition mean_sq (l : list Q) : Q := (qsum (map (fun x => x * x) l) / inject_Z (Z.of_nat (length l)))%Q.
Definition W_svar (eps : Q) (levels : list nat) (m : nat) (res : nat -> list Q) : list Q :=
  flat_map (fun k => repeat (mean_sq (res k) + eps)%Q (freq m k)) levels.
(** [_get_residual_matrix] and [get_W("hvar")] — thm.py:234-253, 284-286; without a full
    period of residuals on every level the reshape raises *)
Definition residual_row (m : nat) (h : nat) (res : nat -> list Q) (k i : nat) : list Q :=
  let r := res k in
  map (fun c => nth (length r - h * freq m k + c * freq m k + i) r 0%Q) (seq 0 h).
Definition residual_h (levels : list nat) (m : nat) (res : nat -> list Q) : nat :=
  match map (fun k => length (res k) / freq m k) levels with [] => 0 | x :: t => fold_left Nat.min t x end.
Definition var0 (l : list Q) : Q :=
  (let mu := qsum l / inject_Z (Z.of_nat (length l)) in
   qsum (map (fun x => (x - mu) * (x - mu)) l) / inject_Z (Z.of_nat (length l)))%Q.
Definition W_hvar (eps : Q) (levels : list nat) (m : nat) (res : nat -> list Q) : option (list Q) :=
  match residual_h levels m res with
  | O => None
  | h => Some (flat_map (fun k => map (fun i => (var0 (residual_row m h res k i) + eps)%Q) (seq 0 (freq m k))) levels)
  end.

(** ** Base forecasts — [_predict_origin], thm.py:311-365 *)
(** a fitted model, or forecasts given by the user (nonempty, BaseTHModel.__init__) *)
Inductive base := Fitted (f : nat -> list Q) | Given (l : list Q).
Definition ceil_div (a b : nat) : nat := (a + b - 1) / b.
Definition origin1 (steps m : nat) (bu : bool) (k : nat) (b : base) : option (list Q) :=
  let h := ceil_div steps m in
  let hf := steps / m in
  let num := freq m k * h in
  match b with
  | Fitted f => Some (f num)
  | Given l =>
      if Nat.ltb (length l) num then
        if Nat.leb (hf * freq m k) (length l) then Some (l ++ repeat (last l 0%Q) (num - length l))
        else if bu && negb (Nat.eqb k 1) then Some l
        else None
      else Some (firstn num l)
  end.
(** dictionary level -> forecasts; [None] when some level raises *)
Fixpoint predict_origin (steps m : nat) (bu : bool) (levels : list nat) (bases : nat -> base)
  : option (list (nat * list Q)) :=
  match levels with
  | [] => Some []
  | k :: t => match origin1 steps m bu k (bases k), predict_origin steps m bu t bases with
              | Some o, Some r => Some ((k, o) :: r)
              | _, _ => None
              end
  end.
Fixpoint lookup (k : nat) (d : list (nat * list Q)) : list Q :=
  match d with [] => [] | (j, l) :: t => if Nat.eqb j k then l else lookup k t end.

(** ** Reconciliation — [_predict], thm.py:367-437 *)
Definition mat := nat -> nat -> Q.
Definition of_rows (M : list (list Q)) : mat := fun i j => nth j (nth i M []) 0%Q.
Inductive weights := Diag (w : list Q) | Full (W : list (list Q)).
Inductive method := BU | Median | Recon (w : weights).

(** column [c] of [yh]: [orig_fcst[k].reshape(h, -1).T], stacked *)
Definition ycol (levels : list nat) (m : nat) (orig : nat -> list Q) (c : nat) : list Q :=
  flat_map (fun k => map (fun i => nth (c * freq m k + i) (orig k) 0%Q) (seq 0 (freq m k))) levels.

Section Solver.
(** [solve n p A B]: n equations, p right hand sides *)
Variable solve : nat -> nat -> mat -> mat -> option mat.

(** the matrix T = S' W^-1 — thm.py:420-423 *)
Definition T_mat (n m : nat) (S : mat) (w : weights) : option mat :=
  match w with
  | Diag v => Some (fun i r => (S r i / nth r v 0)%Q)
  | Full W => option_map (fun X => fun i r => X r i) (solve n m (of_rows W) S)
  end.
(** [np.dot(S, solve(T S, T)).dot(yh)], row [i] of one column [y] — thm.py:424 *)
Definition recon_matrix (n m : nat) (S T : mat) : option mat :=
  option_map (fun X => fun i r => sumn m (fun a => (S i a * X a r)%Q))
             (solve m n (fun i j => sumn n (fun r => (T i r * S r j)%Q)) T).
Definition recon_apply (n : nat) (P : mat) (y : list Q) (i : nat) : Q :=
  sumn n (fun r => (P i r * nth r y 0)%Q).

(** np.repeat(orig / k, k)[j] and the median over levels — thm.py:404-410 *)
Definition spread (k : nat) (o : list Q) (j : nat) : Q := (nth (j / k) o 0 / inject_Z (Z.of_nat k))%Q.

(** the level 1 forecasts [yhat] — thm.py:401-428 *)
Definition yhat (steps : nat) (levels : list nat) (m : nat) (meth : method) (orig : nat -> list Q)
  : option (list Q) :=
  let h := ceil_div steps m in
  match meth with
  | BU => Some (orig 1)
  | Median => Some (map (fun j => qmedian (map (fun k => spread k (orig k) j) levels)) (seq 0 (h * m)))
  | Recon w =>
      let rows := get_S levels m in
      let n := length rows in
      let Sm := of_rows rows in
      match T_mat n m Sm w with
      | None => None
      | Some T =>
          option_map (fun P =>
            firstn steps (flat_map (fun c =>
              map (fun i => recon_apply n P (ycol levels m orig c) (n - m + i)) (seq 0 m)) (seq 0 h)))
            (recon_matrix n m Sm T)
      end
  end.
(** forecasts by level — thm.py:429-431 *)
Definition is_bu (meth : method) : bool := match meth with BU => true | _ => false end.
Definition predict (steps : nat) (levels : list nat) (meth : method) (bases : nat -> base)
                   (fcst_levels : list nat) : option (list (nat * list Q)) :=
  let m := get_m levels in
  match predict_origin steps m (is_bu meth) levels bases with
  | None => None
  | Some o =>
      option_map (fun y => map (fun k => (k, firstn (steps / k) (aggregate_data y k))) fcst_levels)
                 (yhat steps levels m meth (fun k => lookup k o))
  end.
End Solver.

(** ** Training series — GetAggregateTS._aggregate_single, base_models.py:113-125 *)
(** [ts.value.values[-m:].reshape(-1, k).sum(axis=1)] with m > 0 *)
Definition agg_values (k : nat) (l : list Q) : option (list Q) :=
  if Nat.eqb k 1 then Some l
  else if Nat.ltb (length l) k then None
  else let n := length l in let m := n / k * k in
       Some (reshape_sum k (n / k) (skipn (n - m) l)).
(** [ts.time.values[(n - m + k - 1) : n : k]] *)
Definition agg_times (k : nat) (t : list Z) : option (list Z) :=
  if Nat.eqb k 1 then Some t
  else if Nat.ltb (length t) k then None
  else let n := length t in let m := n / k * k in
       Some (map (fun j => nth (n - m + k - 1 + j * k) t 0%Z) (seq 0 (n / k))).

(** time stamps of the level [k] forecasts — predict, thm.py:479-486; the time stamps are
    integers, [freq] an integer step; [date_range] with end points and a count *)
Definition fcst_times (last_time step : Z) (k num : nat) : list Z :=
  map (fun j => (last_time + step * Z.of_nat k * (Z.of_nat j + 1))%Z) (seq 0 num).
