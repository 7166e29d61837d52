(** One pass of the sequence-to-sequence network over a series — globalmodel/model.py:1019-1052, 1054-1209.

    Numbers are reals, [None] is NaN; one row of a batch stands for all.  Encoder and decoder are any functions of their states
    and inputs; [feat] are the features between two indices. *)
From Coq Require Import List Bool Arith Reals.
From Verif Require Import GmPassModel.
Import ListNotations.
Open Scope nat_scope.

(** one turn of the loop — model.py:1036-1044; [None]: x_lt is empty and the lookup raises.  max(0, idx - period) is the
    subtraction of natural numbers *)
Definition fill1 (period : nat) (x : list (option R)) (acc : option (list R)) (idx : nat) : option (list R) :=
  match acc with
  | None => None
  | Some l => match nth idx x None with
              | Some v => Some (l ++ [v])
              | None => option_map (fun v => l ++ [v]) (nth_error l (idx - period))
              end
  end.
(** range(prev_idx, cur_idx) — model.py:1036 *)
Definition fill (period : nat) (x : list (option R)) (prev cur : nat) (l : list R) : option (list R) :=
  fold_left (fill1 period x) (seq prev (cur - prev)) (Some l).
(** torch.median: the lower one of the two values in the middle *)
Fixpoint rinsert (v : R) (l : list R) : list R := match l with [] => [v] | w :: l' => if Rle_dec v w then v :: l else w :: rinsert v l' end.
Definition rsort (l : list R) : list R := fold_right rinsert [] l.
Definition tmedian (l : list R) : R := at_ (rsort l) ((length l - 1) / 2).
(** model.py:1046-1049, for cur >= iw (C197): the anchor level, and the window divided by it *)
Definition glance (period iw cur : nat) (l : list R) : R * list R :=
  let xi := firstn iw (skipn (cur - iw) l) in
  let an := tmedian (skipn (length xi - period) xi) in
  (an, map (fun v => (v / an)%R) xi).

Section S2s.
Variables E D : Type.
Variable enc : E -> list R -> E * list R.
Variable dec : D -> list R -> D * list R.
Variable prepare : E -> D -> D.
Variable feat : nat -> nat -> list R.
Variables (period iw fw nq : nat).
(** the decoder loop — model.py:1157-1174, restored to the original scale as in _calculate, 1246 *)
Fixpoint decode (offset an : R) (code : list R) (cur k n : nat) (d : D) : D * list (list R) :=
  match n with
  | 0 => (d, [])
  | S n => let i := cur + k * fw in
           let '(d, out) := dec d (code ++ feat i (i + fw) ++ [ln (INR (k + 1))]) in
           let '(d', r) := decode offset an code cur (S k) n d in
           (d', map (fun c => (exp (at_ out c + ln an) - offset)%R) (seq 0 (fw * nq)) :: r)
  end.
(** the loop over the visited steps — model.py:1108-1207: each is (step, index, number of decoder steps); the last is 0 where
    nothing is forecast.  For each of them the index, the anchor level, the window and the forecasts *)
Fixpoint s2s_run (x : list (option R)) (offset : R) (l : list (nat * nat * nat)) (prev : nat) (xl : list R) (e : E) (d : D)
  : option (list (nat * R * list R * list (list R))) :=
  match l with
  | [] => Some []
  | (step, cur, n) :: l =>
      match fill period x prev cur xl with
      | None => None
      | Some xl =>
          let '(an, w) := glance period iw cur xl in
          let '(e, code) := enc e (map ln w ++ feat (cur - iw) cur ++ [(ln (INR (cur - prev)) / 2)%R; ln (INR (step + 1))]) in
          let '(d, f) := decode offset an code cur 0 n (if n =? 0 then d else prepare e d) in
          option_map (cons (cur, an, w, f)) (s2s_run x offset l cur xl e d)
      end
  end.
Definition s2s_pass (x : list (option R)) (offset : R) (l : list (nat * nat * nat)) (e : E) (d : D) := s2s_run x offset l 0 [] e d.
End S2s.
