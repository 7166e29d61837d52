(** kats/tsfeatures/tsfeatures.py:1444-1717: features from the outputs of detectors.

    What a detector returns is a parameter: None when it raises.  Feature values are rationals, None is NaN; truth values
    are 1 and 0.  [extra] is extra_args, None for None; [on] says whether a feature is computed. *)
From Coq Require Import String.
From Verif Require Import Common.
From Coq Require Import Qabs.
From Coq Require Import List.
Import ListNotations.
Open Scope Q_scope.

Definition switch := option (string -> option bool).
(** extra_args is not None and extra_args.get(name, default_status) *)
Definition on (extra : switch) (default : bool) (name : string) : bool :=
  match extra with None => false | Some f => match f name with Some b => b | None => default end end.
Definition give (b : bool) (v : Q) : option Q := if b then Some v else None.
Definition count {A} (l : list A) : Q := inject_Z (Z.of_nat (length l)).
Definition qb (b : bool) : Q := if b then 1 else 0.

(** tsfeatures.py:1444-1520 (get_cusum_detector); cusum_cp[0] is the first change point *)
Record cusum_cp := CusumCp { c_conf : Q; c_index : Q; c_delta : Q; c_llr : Q; c_regression : bool; c_stable : bool; c_p : Q }.
Record cusum_features := CusumF { f_num : option Q; f_conf : option Q; f_index : option Q; f_delta : option Q; f_llr : option Q;
  f_regression : option Q; f_stable : option Q; f_p : option Q }.
Definition cusum (extra : switch) (default : bool) (len : Z) (detected : option (list cusum_cp)) : cusum_features :=
  match detected with
  | None => CusumF None None None None None None None None
  | Some l =>
      let o := on extra default in
      let field (f : cusum_cp -> Q) := match l with [] => 0 | cp :: _ => f cp end in
      CusumF (give (o "cusum_num"%string) (count l)) (give (o "cusum_conf"%string) (field c_conf))
        (give (o "cusum_cp_index"%string) (field (fun cp => c_index cp / inject_Z len)))
        (give (o "cusum_delta"%string) (field c_delta)) (give (o "cusum_llr"%string) (field c_llr))
        (give (o "cusum_regression_detected"%string) (field (fun cp => qb (c_regression cp))))
        (give (o "cusum_stable_changepoint"%string) (field (fun cp => qb (c_stable cp))))
        (give (o "cusum_p_value"%string) (field c_p))
  end.

(** tsfeatures.py:1524-1565 (get_robust_stat_detector), from the metrics of the change points *)
Definition robust (extra : switch) (default : bool) (detected : option (list Q)) : option Q * option Q :=
  match detected with
  | None => (None, None)
  | Some l =>
      (give (on extra default "robust_num"%string) (count l),
       if on extra default "robust_metric_mean"%string then
         match l with [] => None | _ => Some (fold_left Qplus l 0 / count l) end
       else None)
  end.

(** tsfeatures.py:1569-1619 (get_bocp_detector), from the confidences *)
Definition qmaximum (l : list Q) : Q := match l with [] => 0 | a :: l => fold_left (fun m v => if Qle_bool m v then v else m) l a end.
Definition bocp (extra : switch) (default : bool) (detected : option (list Q)) : option Q * option Q * option Q :=
  match detected with
  | None => (None, None, None)
  | Some l =>
      (give (on extra default "bocp_num"%string) (count l),
       give (on extra default "bocp_conf_max"%string) (match l with [] => 0 | _ => qmaximum l end),
       give (on extra default "bocp_conf_mean"%string) (match l with [] => 0 | _ => qsum l / count l end))
  end.

(** tsfeatures.py:1623-1657 (get_outlier_detector), from the outliers of each series *)
Definition outlier {A} (extra : switch) (default : bool) (detected : option (list (list A))) : option Q :=
  match detected with
  | None => None
  | Some outliers => if on extra default "outlier_num"%string then match outliers with [] => None | l :: _ => Some (count l) end else None
  end.

(** tsfeatures.py:1661-1717 (get_trend_detector), from direction and Kendall's tau of the points; a tau that is no float is
    left out of the sum. *)
Record trend_point := TrendPoint { increasing : bool; tau : option Q }.
Definition trend (extra : switch) (default : bool) (detected : option (list trend_point)) : option Q * option Q * option Q :=
  match detected with
  | None => (None, None, None)
  | Some l =>
      (give (on extra default "trend_num"%string) (count l),
       give (on extra default "trend_num_increasing"%string) (count (filter increasing l)),
       give (on extra default "trend_avg_abs_tau"%string)
         (match l with [] => 0 | _ => fold_left (fun s p => match tau p with Some t => s + Qabs t | None => s end) l 0 / count l end))
  end.
