(** The loss functions of the global model — globalmodel/utils.py:650-878.

    PinballLoss is modelled over exact rationals, AdjustedPinballLoss over the reals (it takes exponentials and logarithms);
    [None] is NaN.  A tensor is the list of its rows; gradients are left out. *)
From Coq Require Import List Bool Arith ZArith QArith Reals.
From Verif Require Import Common.
Import ListNotations.
Open Scope nat_scope.

Fixpoint zip_with {A B C} (f : A -> B -> C) (l : list A) (m : list B) : list C :=
  match l, m with x :: l, y :: m => f x y :: zip_with f l m | _, _ => [] end.
(** view(-1, horizon): [k] pieces of [h] elements *)
Fixpoint chunks {A} (k h : nat) (l : list A) : list (list A) :=
  match k with O => [] | S k => firstn h l :: chunks k h (skipn h l) end.
(** quantile.repeat(horizon, 1).t().flatten(): every element [h] times *)
Definition spread {A} (h : nat) (l : list A) : list A := flat_map (fun x => repeat x h) l.
(** tensor.repeat(1, m): the row [m] times *)
Definition repeat_row {A} (m : nat) (l : list A) : list A := concat (repeat l m).
Definition is_nan {A} (o : option A) : bool := match o with None => true | Some _ => false end.
Definition set_nan {A} (d : A) (o : option A) : A := match o with None => d | Some x => x end.
(** num_not_nan — utils.py:726-727 *)
Definition num_not_nan {A} (l : list (option A)) : nat := Nat.max 1 (length (filter (fun o => negb (is_nan o)) l)).

Record pinball := { quantile : list Q; weight : list Q }.
(** the constructor — utils.py:665-693; [None] if it raises *)
Definition make_pinball (q : list Q) (w : option (list Q)) : option pinball :=
  match q with
  | [] => None
  | _ => match w with
         | None => Some {| quantile := q; weight := repeat (1 / inject_Z (Z.of_nat (length q)))%Q (length q) |}
         | Some w => if length w =? length q then Some {| quantile := q; weight := w |} else None
         end
  end.
Definition qmax2 (a b : Q) : Q := if Qle_bool a b then b else a.
(** one row of the result before the reduction — utils.py:720-742 *)
Definition pin_row (L : pinball) (input : list Q) (target : list (option Q)) : list Q :=
  let m := length (quantile L) in
  let horizon := length target in
  let nans := repeat_row m (map is_nan target) in
  let tgt := repeat_row m (map (set_nan 1%Q) target) in
  let quants := spread horizon (quantile L) in
  let weights := spread horizon (weight L) in
  let diff := zip_with Qminus tgt input in
  let res := zip_with (fun d q => qmax2 (d * q) (d * (q - 1)))%Q diff quants in
  let res := zip_with (fun (b : bool) r => if b then 0%Q else r) nans res in
  let res := zip_with Qmult res weights in
  map (fun c => qsum c / inject_Z (Z.of_nat (num_not_nan target)))%Q (chunks m horizon res).
Inductive reduction := RMean | RSum | RNone.
(** column sums of rows of m elements *)
Definition col_sum (m : nat) (rows : list (list Q)) : list Q := map (fun j => qsum (map (fun r => nth j r 0%Q) rows)) (seq 0 m).
(** the checks — utils.py:695-707 *)
Definition shapes_ok (m : nat) (input : list (list Q)) (target : list (list (option Q))) : bool :=
  (length target =? length input) && forallb (fun p => length (fst p) =? length (snd p) * m) (combine input target).
(** forward — utils.py:709-748: the result (its rows) and the target tensor the caller is left with: line 725 writes 1.0 over its
    NaN.  [None] if it raises, or for the mean over no rows, which is NaN. *)
Definition pin_forward (L : pinball) (red : reduction) (input : list (list Q)) (target : list (list (option Q)))
    : option (list (list Q)) * list (list (option Q)) :=
  let m := length (quantile L) in
  if shapes_ok m input target then
    let rows := zip_with (pin_row L) input target in
    let target' := map (map (fun o => Some (set_nan 1%Q o))) target in
    (match red with
     | RNone => Some rows
     | RSum => Some [col_sum m rows]
     | RMean => if length input =? 0 then None else Some [map (fun x => x / inject_Z (Z.of_nat (length input)))%Q (col_sum m rows)]
     end, target')
  else (None, target).

(** ** AdjustedPinballLoss *)
Record adjusted := { aquantile : list R; aweight : list R; input_log : bool }.
Definition rsum (l : list R) : R := fold_right Rplus 0%R l.
Definition pin (q d : R) : R := Rmax (d * q) (d * (q - 1)).
(** one row before the reduction — utils.py:827-871.  The logarithm is Coq's, total; on logarithmic scale no logarithm is taken. *)
Definition adj_row (L : adjusted) (input : list R) (target : list (option R)) : list R :=
  let m := length (aquantile L) in
  let horizon := length target in
  let nans := map is_nan target in
  let tgt := map (set_nan 1%R) target in
  let ex := if input_log L then exp else fun x => x in
  let res := zip_with (fun t f => pin (hd 0%R (aquantile L)) (ex t - ex f) / (ex t + ex f) * 2)%R tgt (firstn horizon input) in
  let res := zip_with (fun (b : bool) r => if b then 0%R else r) nans res in
  let all :=
    if 1 <? m then
      let fcst := map (if input_log L then fun x => x else ln) (skipn horizon input) in
      let res_q := zip_with (fun d q => pin q d) (zip_with Rminus (repeat_row (m - 1) tgt) fcst) (spread horizon (tl (aquantile L))) in
      res ++ zip_with (fun (b : bool) r => if b then 0%R else r) (repeat_row (m - 1) nans) res_q
    else res in
  let all := zip_with Rmult all (spread horizon (aweight L)) in
  map (fun c => rsum c / INR (num_not_nan target))%R (chunks m horizon all).
