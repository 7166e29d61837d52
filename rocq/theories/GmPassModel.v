(** One pass of the seasonal network over a series — globalmodel/model.py:262-366, 677-843.

    Numbers are reals, [None] is NaN; one row of a batch stands for all, since the network and all operations work row by row.
    The network is any function of its state and its input; [feat] are the features at an index.  The first value of the row is
    present (_get_array fills the first season, C201). *)
From Coq Require Import List Bool Arith Reals.
Import ListNotations.
Open Scope nat_scope.

(** x_lt, levels and seasonality *)
Record sm := { xs : list R; lv : list R; se : list R }.
Definition at_ (l : list R) (i : nat) : R := nth i l 0%R.
(** prev_idx = 0 — model.py:288-294 *)
Definition start (period : nat) (init : list R) (x : list (option R)) : sm :=
  let v := match nth 0 x None with Some v => v | None => 0%R end in
  {| xs := [v]; lv := [if period <=? 1 then v else (v / at_ init 0)%R]; se := init |}.
(** one turn of the loop — model.py:297-326 (fcst_fill is never set); a and b are level_sm and season_sm *)
Definition absorb (period : nat) (a b : R) (x : list (option R)) (st : sm) (idx : nat) : sm :=
  let l := at_ (lv st) (idx - 1) in
  let v := match nth idx x None with
           | Some v => v
           | None => if 1 <? period then (l * at_ (se st) idx)%R else l
           end in
  if period =? 1 then {| xs := xs st ++ [v]; lv := lv st ++ [(a * v + (1 - a) * l)%R]; se := se st |}
  else let s := at_ (se st) idx in
       let nl := (a * v / s + (1 - a) * l)%R in
       {| xs := xs st ++ [v]; lv := lv st ++ [nl]; se := se st ++ [(b * v / nl + (1 - b) * s)%R] |}.
(** range(prev_idx, cur_idx) — model.py:288-297 *)
Definition process (period : nat) (a b : R) (init : list R) (x : list (option R)) (prev cur : nat) (st : sm) : sm :=
  let prev1 := Nat.max 1 prev in
  fold_left (absorb period a b x) (seq prev1 (cur - prev1)) (if prev =? 0 then start period init x else st).
(** model.py:328-345: what the network sees of the series.  The slice seasonality[idx - period : idx] of a list of idx + period
    is empty if idx < period, and torch.cat raises *)
Record seen := { pos : nat; anchor : R; window : list R; next : list R; diff : list R }.
Definition look (period iw cur : nat) (st : sm) : option seen :=
  let an := at_ (lv st) (cur - 1) in
  let part (l : list R) i n := map (fun k => at_ l (i + k)) (seq 0 n) in
  if period <=? 1 then
    Some {| pos := cur; anchor := an; window := map (fun v => (v / an)%R) (part (xs st) (cur - iw) iw); next := []; diff := [] |}
  else if cur <? period then None
  else Some {| pos := cur; anchor := an;
               window := map (fun k => (at_ (xs st) (cur - iw + k) / an / at_ (se st) (cur - iw + k))%R) (seq 0 iw);
               next := part (se st) cur period;
               diff := map (fun k => (at_ (se st) (cur + k) - at_ (se st) (cur - period + k))%R) (seq 0 period) |}.
Definition sigmoid (v : R) : R := (/ (1 + exp (- v)))%R.

Section Pass.
Variable S : Type.
Variable net : S -> list R -> S * list R.
Variable feat : nat -> list R.
Variables (period iw fw nq : nat).
(** input_t — model.py:775-787 *)
Definition input (step prev : nat) (w : seen) : list R :=
  map ln (window w) ++ feat (pos w) ++ [(ln (INR (pos w - prev)) / 2)%R; ln (INR (step + 1))]
  ++ (if period <=? 1 then [] else map (fun s => (s - 1)%R) (next w) ++ diff w).
(** fcst, restored to the original scale — model.py:797-801, _calculate 1246 *)
Definition forecast (offset : R) (w : seen) (out : list R) : list R :=
  let col := (if 1 <? period then 1 else 0) + 1 in
  map (fun c => (exp (at_ out (col + c) + ln (anchor w) + (if 1 <? period then ln (at_ (next w) ((c mod fw) mod period)) else 0)) - offset)%R)
      (seq 0 (fw * nq)).
(** the loop over the visited steps, each with its index — model.py:743-841; for each of them what was seen and forecast *)
Fixpoint run (init : list R) (x : list (option R)) (offset : R) (l : list (nat * nat)) (prev : nat) (st : sm) (a b : R) (s : S)
  : option (list (seen * list R)) :=
  match l with
  | [] => Some []
  | (step, cur) :: l =>
      let st := process period a b init x prev cur st in
      match look period iw cur st with
      | None => None
      | Some w =>
          let '(s, out) := net s (input step prev w) in
          option_map (cons (w, forecast offset w out))
                     (run init x offset l cur st (sigmoid (at_ out 0)) (if 1 <? period then sigmoid (at_ out 1) else b) s)
      end
  end.
(** model.py:699-717: [season] is batch.init_seasonality, a and b the initial smoothing parameters *)
Definition pass (season : list R) (x : list (option R)) (offset : R) (l : list (nat * nat)) (a b : R) (s : S) : option (list (seen * list R)) :=
  run (if period <=? 1 then [1%R] else season ++ [at_ season 0]) x offset l 0 {| xs := []; lv := []; se := [] |} a b s.
End Pass.

(** The steps visited by the seasonal network: step_delta — model.py:720-728, the loop — 743, 833-840 *)
Definition step_delta (max_step_delta soft_max total validation : nat) : nat := Nat.max 1 (Nat.min max_step_delta ((total - validation) / soft_max)).
Fixpoint rnn_steps (fuel total last_train cur delta : nat) : list nat :=
  match fuel with
  | 0 => []
  | S fuel => if cur <? total then
                cur :: (if (last_train <=? cur + delta) && (cur <? last_train) then rnn_steps fuel total last_train last_train 1
                        else rnn_steps fuel total last_train (cur + delta) delta)
              else []
  end.
(** the sequence-to-sequence network: model.py:1088-1098, 1117-1119, 1202-1209; [is_valid] at the first validation step *)
Fixpoint s2s_steps (fuel total first_valid cur delta : nat) : list nat :=
  match fuel with
  | 0 => []
  | S fuel => if cur <? total then
                cur :: (if first_valid <=? cur then [] else s2s_steps fuel total first_valid (Nat.min (cur + delta) first_valid) delta)
              else []
  end.
