(** Model of the robust statistics detector (kats/detectors/robust_stat_detection.py).

    Values are exact rationals without missing entries; [None] is NaN.  The tail function of
    the normal distribution is a parameter, taken as a function of the squared z-score (the
    code applies it to the absolute value).  Not modelled: time stamps and plotting. *)
From Verif Require Import Common.
Open Scope nat_scope.

Definition of_nat (n : nat) : Q := inject_Z (Z.of_nat n).
(** rolling(window).mean() — robust_stat_detection.py:68-71 *)
Definition rolling_mean (w : nat) (l : list Q) : list (option Q) :=
  map (fun i => if Nat.ltb (S i) w then None
                else Some (qsum (firstn w (skipn (S i - w) l)) / of_nat w)%Q) (seq 0 (length l)).
(** bfill: the next value that is not missing — robust_stat_detection.py:72 *)
Fixpoint bfill (l : list (option Q)) : list (option Q) :=
  match l with
  | [] => []
  | Some x :: t => Some x :: bfill t
  | None :: t => (match bfill t with [] => None | y :: _ => y end) :: bfill t
  end.
(** diff(k) — robust_stat_detection.py:74: x(i) - x(i - k), missing outside of the series *)
Definition pd_diff (k : Z) (l : list (option Q)) : list (option Q) :=
  map (fun i => let j := (Z.of_nat i - k)%Z in
                if ((0 <=? j) && (j <? Z.of_nat (length l)))%Z
                then match nth i l None, nth (Z.to_nat j) l None with
                     | Some a, Some b => Some (a - b)%Q
                     | _, _ => None
                     end
                else None) (seq 0 (length l)).
Definition fillna0 (l : list (option Q)) : list Q := map (fun x => match x with Some v => v | None => 0%Q end) l.
(** the series df_ — robust_stat_detection.py:68-76 *)
Definition spikes (w : nat) (k : Z) (l : list Q) : list Q := fillna0 (pd_diff k (bfill (rolling_mean w l))).

(** scipy's zscore, squared: NaN when the values do not vary — robust_stat_detection.py:78 *)
Definition zsq (l : list Q) : list (option Q) :=
  let n := of_nat (length l) in
  let m := (qsum l / n)%Q in
  let v := (qsum (map (fun x => (x - m) * (x - m)) l) / n)%Q in
  map (fun x => if Qeq_bool v 0 then None else Some ((x - m) * (x - m) / v)%Q) l.

Section Robust.
(** norm.sf of the absolute z-score, given its square *)
Variable sf : Q -> Q.
(** np.where(p_values < cutoff) — robust_stat_detection.py:80-81 *)
Fixpoint where_below (cutoff : Q) (i : nat) (z : list (option Q)) : list nat :=
  match z with
  | [] => []
  | Some v :: t => if negb (Qle_bool cutoff (sf v)) then i :: where_below cutoff (S i) t else where_below cutoff (S i) t
  | None :: t => where_below cutoff (S i) t
  end.
(** the loop — robust_stat_detection.py:88-104 *)
Fixpoint spread (w : nat) (prev : option nat) (ind : list nat) : list nat :=
  match ind with
  | [] => []
  | i :: t => match prev with
              | Some p => if Nat.ltb (i - p) w then spread w prev t else i :: spread w (Some i) t
              | None => i :: spread w (Some i) t
              end
  end.
(** [RobustStatDetector.detector] — robust_stat_detection.py:56-106: index and metric of the
    change points.  The window of [rolling] must be positive. *)
Definition robust_detector (cutoff : Q) (w : nat) (k : Z) (l : list Q) : list (nat * Q) :=
  let d := spikes w k l in
  map (fun i => (i, nth i d 0%Q)) (spread w None (where_below cutoff 0 (zsq d))).
End Robust.
