(** The date features of the global model — globalmodel/utils.py:881-1145.

    A time is given by what the features read from it; the 0/1 features are booleans, the logarithms of the other features are
    left out: a feature is the number it is the logarithm of. *)
From Coq Require Import List Bool Arith.
From Verif Require Import GmLossModel.
Import ListNotations.

(** isocalendar().day and .week, .day, .month, .hour, .minute, .dayofweek, .dayofyear of pandas *)
Record stamp := { iso_day : nat; iso_week : nat; day : nat; month : nat; hour : nat; minute : nat; dayofyear : nat }.
(** ans = np.zeros(len); ans[indices] = 1.0; [None]: IndexError *)
Definition ones_at (len : nat) (indices : list nat) : option (list bool) :=
  if forallb (fun i => i <? len) indices then Some (map (fun p => existsb (Nat.eqb p) indices) (seq 0 len)) else None.
(** x + np.arange(0, n * m, m) *)
Definition with_offset (m : nat) (l : list nat) : list nat := zip_with plus l (map (fun i => i * m) (seq 0 (length l))).
(** _get_last_date_feature — utils.py:1002-1025; [last] are the last times of the series *)
Definition last_date (last : list stamp) : option (list (list bool)) :=
  let n := length last in
  let m := 7 + 27 + 31 in
  let indices := with_offset m (map iso_day last) ++ with_offset m (map (fun s => (iso_week s - 1) / 2 + 7) last)
                 ++ with_offset m (map (fun s => day s + 6 + 27) last) in
  option_map (chunks n m) (ones_at (n * m) indices).
(** _get_last_hour_feature — utils.py:1028-1041 *)
Definition last_hour (last : list stamp) : option (list (list bool)) :=
  option_map (chunks (length last) 24) (ones_at (length last * 24) (with_offset 24 (map hour last))).
(** _get_last_month_feature — utils.py:1044-1056 *)
Definition last_month (last : list stamp) : option (list (list bool)) :=
  option_map (chunks (length last) 12) (ones_at (length last * 12) (with_offset 12 (map month last))).
(** _get_last_hour_minute_feature — utils.py:1068-1082 *)
Definition last_hour_minute (last : list stamp) : list (list nat) := map (fun s => [hour s + 1; minute s + 1]) last.
(** _get_date_feature — utils.py:969-999: per series the times of its window; dayofweek is iso_day - 1 *)
Definition simple_date (times : list (list stamp)) : list (list nat) :=
  map (fun ts => map S (map day ts ++ map month ts ++ map (fun s => iso_day s - 1) ts ++ map dayofyear ts)) times.

Inductive feature := FTsfeatures | FTs2vec | FLastDate | FSimpleDate | FLastHour | FLastHourMinute | FLastMonth.
(** get_feature_size — utils.py:908-930 *)
Definition feature_size1 (ts_length : nat) (f : feature) : nat :=
  match f with
  | FTsfeatures => 40 | FTs2vec => 0 | FLastDate => 7 + 27 + 31 | FLastHour => 24 | FLastHourMinute => 2 | FLastMonth => 12
  | FSimpleDate => 4 * ts_length
  end.
Definition feature_size (fs : list feature) (ts_length : nat) : nat := fold_right plus 0 (map (feature_size1 ts_length) fs).
Definition b2n (b : bool) : nat := if b then 1 else 0.
(** one feature for all series — utils.py:1128-1141; [Some None]: not computed on the fly, [None]: it raises *)
Definition on_the_fly1 (times : list (list stamp)) (d : stamp) (f : feature) : option (option (list (list nat))) :=
  let lasts := map (fun ts => last ts d) times in
  match f with
  | FTsfeatures | FTs2vec => Some None
  | FLastDate => option_map (fun r => Some (map (map b2n) r)) (last_date lasts)
  | FLastHour => option_map (fun r => Some (map (map b2n) r)) (last_hour lasts)
  | FLastMonth => option_map (fun r => Some (map (map b2n) r)) (last_month lasts)
  | FLastHourMinute => Some (Some (last_hour_minute lasts))
  | FSimpleDate => Some (Some (simple_date times))
  end.
(** torch.cat(features, 1) *)
Definition cat2 (a b : list (list nat)) : list (list nat) := zip_with (@app nat) a b.
(** get_on_the_fly_features — utils.py:1113-1145; [Some None]: there is none *)
Fixpoint on_the_fly (times : list (list stamp)) (d : stamp) (fs : list feature) : option (option (list (list nat))) :=
  match fs with
  | [] => Some None
  | f :: fs =>
      match on_the_fly1 times d f, on_the_fly times d fs with
      | Some None, r => r
      | Some (Some a), Some None => Some (Some a)
      | Some (Some a), Some (Some b) => Some (Some (cat2 a b))
      | _, _ => None
      end
  end.
