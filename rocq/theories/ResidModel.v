(** The residual translator of detectors/residual_translation.py.

    A series is the list of its rows (time, value), [None] a missing value.  The kernel density is a parameter.  Series are
    subtracted and divided only if they have the same times (see perform_op in TSDataModel). *)
From Coq Require Import ZArith Qround.
From Verif Require Import Common MetricsModel.
Open Scope nat_scope.

Notation series := (list (Z * option Q)).
(** a computed residual: a number, an infinity (division by zero) or missing *)
Inductive fl := Num (q : Q) | Inf | NaN.
Definition of_option (v : option Q) : fl := match v with Some q => Num q | None => NaN end.
Definition fl_sub (a b : option Q) : option Q := match a, b with Some a, Some b => Some (a - b)%Q | _, _ => None end.
Definition fl_div (a b : option Q) : fl :=
  match a, b with
  | Some a, Some b => if Qeq_bool b 0 then (if Qeq_bool a 0 then NaN else Inf) else Num (a / b)%Q
  | _, _ => NaN
  end.
Fixpoint zip_rows {B} (f : option Q -> option Q -> B) (a b : series) : option (list (Z * B)) :=
  match a, b with
  | [], [] => Some []
  | (t, x) :: a, (u, y) :: b => if Z.eqb t u then option_map (cons (t, f x y)) (zip_rows f a b) else None
  | _, _ => None
  end.
Definition is_nan (v : fl) : bool := match v with NaN => true | _ => false end.
(** residual_translation.py:69-74 — the constructor *)
Definition accepts (below above : Q) : bool := Qle_bool 0 below && Qle_bool above 1 && Qle_bool below above.
(** residual_translation.py:201-222 — _get_residual before missing rows are dropped *)
Definition raw_residual (y yhat lower upper residual : option series) : option (list (Z * fl)) :=
  match yhat, residual with
  | Some yhat, None =>
      match y with
      | None => None
      | Some y =>
          match zip_rows fl_sub y yhat, lower, upper with
          | Some r, None, None => Some (map (fun p => (fst p, of_option (snd p))) r)
          | Some r, Some lo, Some up =>
              match zip_rows fl_sub up lo with Some w => zip_rows fl_div r w | None => None end
          | _, _, _ => None
          end
      end
  | Some _, Some _ => None
  | None, Some r =>
      match y, lower, upper with
      | None, None, None => Some (map (fun p => (fst p, of_option (snd p))) r)
      | _, _, _ => None
      end
  | None, None => None
  end.
(** residual_translation.py:224-227 — rows without a value are dropped *)
Definition get_residual (y yhat lower upper residual : option series) : option (list (Z * fl)) :=
  option_map (filter (fun p => negb (is_nan (snd p)))) (raw_residual y yhat lower upper residual).
(** the caller's [residual] argument after the call: the same object, so it loses the rows too *)
Definition residual_after (r : series) : series := filter (fun p => match snd p with Some _ => true | None => false end) r.

(** Series.quantile(q) of a non-empty series: linear interpolation at position (n-1) q *)
Definition quantile (q : Q) (l : list Q) : Q :=
  let s := qsort l in
  let pos := (inject_Z (Z.of_nat (length l - 1)) * q)%Q in
  let i := Z.to_nat (Qfloor pos) in
  (nth i s 0 + (pos - inject_Z (Qfloor pos)) * (nth (S i) s 0 - nth i s 0))%Q.
Definition qltb (a b : Q) : bool := negb (Qle_bool b a).
(** residual_translation.py:98-101 — the values the density is learnt from *)
Definition training (below above : Q) (v : list Q) : list Q :=
  filter (fun x => qltb (quantile below v) x && qltb x (quantile above v)) v.
(** residual_translation.py:103-116 — fit on finite residuals: the search splits the values in five folds, and refuses fewer than five; the
    bandwidths are fractions of the distance of two quantiles, and a bandwidth of zero is refused *)
Definition fit_values (below above : Q) (v : list Q) : option (list Q) :=
  let t := training below above v in
  if (5 <=? length t) && negb (Qeq_bool (quantile (95 # 100) t) (quantile (5 # 100) t)) then Some t else None.

Section Density.
Variable density : Q -> Q.
(** residual_translation.py:180-191 — predict_log_proba after fit: infinities and an empty series are refused by score_samples *)
Fixpoint finite_rows (r : list (Z * fl)) : option (list (Z * Q)) :=
  match r with
  | [] => Some []
  | (t, Num q) :: r => option_map (cons (t, q)) (finite_rows r)
  | _ => None
  end.
Definition predict_log_proba (y yhat lower upper residual : option series) : option (list (Z * Q)) :=
  match get_residual y yhat lower upper residual with
  | None | Some [] => None
  | Some r => option_map (map (fun p => (fst p, density (snd p)))) (finite_rows r)
  end.
End Density.
