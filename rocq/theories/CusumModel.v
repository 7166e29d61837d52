(** Model of the CUSUM change point search (kats/detectors/cusum_detection.py) and of the online
    CUSUM model (kats/detectors/cusum_model.py). Values are exact rationals; NaN is None. *)
From Verif Require Import Common PySlice.
Open Scope Z_scope.

Inductive direction := Increase | Decrease.

(** np.mean: NaN on an empty slice. *)
Definition qmean (l : list Q) : option Q :=
  match l with [] => None | _ => Some (qsum l / inject_Z (Z.of_nat (length l)))%Q end.

(** np.cumsum *)
Fixpoint cumsum_from (acc : Q) (l : list Q) : list Q :=
  match l with [] => [] | x :: t => (acc + x)%Q :: cumsum_from (acc + x)%Q t end.

(** np.argmin / np.argmax: index of the first extreme element. [best i b l]: b is the best value
    so far, found at index i; l starts at index j. *)
Definition better (d : direction) (x b : Q) : bool :=
  match d with Increase => negb (Qle_bool b x) | Decrease => negb (Qle_bool x b) end.
Fixpoint arg_from (d : direction) (i : nat) (b : Q) (j : nat) (l : list Q) : nat :=
  match l with
  | [] => i
  | x :: t => if better d x b then arg_from d j x (S j) t else arg_from d i b (S j) t
  end.
Definition arg_best (d : direction) (l : list Q) : nat :=
  match l with [] => O | b :: t => arg_from d O b 1 t end.

(** changepoint_func(np.cumsum(ts_int - mean)); with a NaN mean every entry is NaN and
    argmin/argmax return 0. *)
Definition cusum_arg (d : direction) (ts : list Q) (mean : option Q) : Z :=
  match mean with
  | None => 0
  | Some m => Z.of_nat (arg_best d (cumsum_from 0 (map (fun x => x - m)%Q ts)))
  end.

Definition half_sum (a b : option Q) : option Q :=
  match a, b with Some x, Some y => Some ((x + y) / 2)%Q | _, _ => None end.

(** cusum_detection.py:377-382 one update of the change point. *)
Definition cp_update (d : direction) (ts : list Q) (cp : Z) : Z :=
  let mu0 := qmean (py_slice ts None (Some (cp + 1))) in
  let mu1 := qmean (py_slice ts (Some (cp + 1)) None) in
  Z.max 1 (Z.min (cusum_arg d ts (half_sum mu0 mu1)) (Z.of_nat (length ts) - 2)).

(** cusum_detection.py:375-385 the loop: at most fuel = max_iter - n further iterations; returns
    the change point and whether the loop ended with n <> max_iter (lines 387-391). *)
Fixpoint cp_loop (d : direction) (ts : list Q) (fuel : nat) (cp : Z) : Z * bool :=
  match fuel with
  | O => (cp, false)
  | S fuel' =>
      let nxt := cp_update d ts cp in
      if nxt =? cp then (cp, negb (Nat.eqb fuel' 0)) else cp_loop d ts fuel' nxt
  end.

(** cusum_detection.py:367-371 starting point. An empty series makes argmin raise. *)
Definition cp_start (d : direction) (ts : list Q) (start_point : option Z) : option Z :=
  match start_point with
  | Some s => Some s
  | None =>
      match ts with
      | [] => None
      | _ => Some (Z.min (cusum_arg d ts (qmean ts)) (Z.of_nat (length ts) - 2))
      end
  end.

(** cusum_detection.py:344-423 _get_change_point: (changepoint, mu0, mu1, stable). The
    log-likelihood of the interest window is left out. max_iter is a natural number. *)
Record change_point := { cp_index : Z; cp_mu0 : option Q; cp_mu1 : option Q; cp_stable : bool }.
Definition get_change_point (d : direction) (ts : list Q) (window : option (Z * Z)) (max_iter : nat)
    (start_point : option Z) : option change_point :=
  let ts_int := match window with Some (a, b) => py_slice ts (Some a) (Some b) | None => ts end in
  match cp_start d ts_int start_point with
  | None => None
  | Some s =>
      let r := cp_loop d ts_int max_iter s in
      let cp := match window with Some (a, _) => fst r + a | None => fst r end in
      Some {| cp_index := cp; cp_mu0 := qmean (py_slice ts None (Some (cp + 1)));
              cp_mu1 := qmean (py_slice ts (Some (cp + 1)) None); cp_stable := snd r |}
  end.

(** cusum_detection.py:635-656 the regression decision; the two likelihood tests, the magnitude
    test and the standard deviation of the points before the change point are inputs.
    Comparisons with NaN are False. *)
Definition regression_detected (d : direction) (cp : change_point) (sig sig_int mag : bool)
    (min_abs_change std delta_std_ratio : Q) : bool :=
  match cp_mu0 cp, cp_mu1 cp with
  | Some m0, Some m1 =>
      sig && sig_int &&
      match d with
      | Increase => negb (Qle_bool m1 (m0 + min_abs_change))
      | Decrease => negb (Qle_bool m0 (m1 + min_abs_change))
      end &&
      negb (Qle_bool (Qabs (m1 - m0)) (std * delta_std_ratio)) && mag
  | _, _ => false
  end.

(** ** The online model *)

(** cusum_model.py:58-60 *)
Definition NORMAL_TOLERENCE : Z := 1.
Definition CHANGEPOINT_RETENTION : Z := 7 * 24 * 60 * 60.
Definition MAX_CHANGEPOINT : nat := 10.

(** cusum_model.py:246-254 the mutable part of the model. *)
Record state := {
  cps : list Z; alert_fired : bool; pre_mean : option Q; pre_std : option Q;
  number_of_normal_scan : Z; alert_direction : option direction }.
Definition init : state :=
  {| cps := []; alert_fired := false; pre_mean := Some 0%Q; pre_std := Some 1%Q;
     number_of_normal_scan := 0; alert_direction := None |}.

(** cusum_model.py:319-321 _set_alert_off *)
Definition set_alert_off (s : state) : state :=
  {| cps := cps s; alert_fired := false; pre_mean := pre_mean s; pre_std := pre_std s;
     number_of_normal_scan := 0; alert_direction := alert_direction s |}.

(** cusum_model.py:323-329 _set_alert_on *)
Definition set_alert_on (s : state) (mean std : option Q) (d : direction) : state :=
  {| cps := cps s; alert_fired := true; pre_mean := mean; pre_std := std;
     number_of_normal_scan := number_of_normal_scan s; alert_direction := Some d |}.

(** Which directions the user watches: None is both. *)
Definition watches (dirs : option (list direction)) (d : direction) : bool :=
  match dirs with
  | None => true
  | Some l => existsb (fun x => match x, d with Increase, Increase | Decrease, Decrease => true | _, _ => false end) l
  end.

(** check * pre_std where check is a number or +inf (None): inf * 0 is NaN. Result: None is NaN,
    Some None is +inf, Some (Some q) a number. pre_std is never negative. *)
Definition times_std (check : option Q) (std : Q) : option (option Q) :=
  match check with
  | Some c => Some (Some (c * std)%Q)
  | None => if Qeq_bool std 0 then None else Some None
  end.

(** cusum_model.py:331-359 _if_normal; None is the UnboundLocalError when no direction is stored.
    A NaN baseline or mean makes both comparisons False. *)
Definition if_normal (s : state) (cur_mean : option Q) (dirs : option (list direction)) (ratio : Q) : option bool :=
  match alert_direction s with
  | None => None
  | Some d =>
      let inc := watches dirs Increase in
      let dec := watches dirs Decrease in
      let ci := match d with Increase => if inc then Some 0%Q else None
                           | Decrease => if inc then Some ratio else None end in
      let cd := match d with Increase => if dec then Some ratio else None
                           | Decrease => if dec then Some 0%Q else None end in
      Some (match pre_mean s, pre_std s, cur_mean with
            | Some m, Some sd, Some c =>
                (match times_std cd sd with
                 | None => false | Some None => true | Some (Some q) => Qle_bool (m - q) c end)
                && (match times_std ci sd with
                    | None => false | Some None => true | Some (Some q) => Qle_bool c (m + q) end)
            | _, _, _ => false
            end)
  end.

(** One change point found by the detector: time, direction, mean and std of the values up to it. *)
Record found := { f_time : Z; f_dir : direction; f_mean : option Q; f_std : option Q }.

(** sorted(changepoints, key=start_time)[0]: the earliest, the first one among ties. *)
Fixpoint earliest (f : found) (l : list found) : found :=
  match l with [] => f | g :: t => if f_time g <? f_time f then earliest g t else earliest f t end.

(** What one scan sees: enough points in the scan window, the detector's change points, the mean of
    the scan window, mean and std of the history, and the time of the last point. *)
Record scan := { s_enough : bool; s_found : list found; s_cur_mean : option Q;
                 s_hist_mean : option Q; s_hist_std : option Q; s_time : Z }.

(** list.pop(0) when the list is longer than the maximum. *)
Definition push_cp (l : list Z) (t : Z) : list Z :=
  let l' := l ++ [t] in if Nat.ltb MAX_CHANGEPOINT (length l') then tl l' else l'.

(** cusum_model.py:415-500 _fit; None is an exception. *)
Definition fit (dirs : option (list direction)) (ratio : Q) (adapted : bool) (s : state) (sc : scan) : option state :=
  if negb (alert_fired s) then
    if negb (s_enough sc) then Some s
    else match s_found sc with
         | [] => Some s
         | f :: fs =>
             let cp := earliest f fs in
             Some (set_alert_on
                     {| cps := push_cp (cps s) (f_time cp); alert_fired := alert_fired s;
                        pre_mean := pre_mean s; pre_std := pre_std s;
                        number_of_normal_scan := number_of_normal_scan s;
                        alert_direction := alert_direction s |}
                     (f_mean cp) (f_std cp) (f_dir cp))
         end
  else
    let s1 := if adapted then
                {| cps := cps s; alert_fired := alert_fired s; pre_mean := s_hist_mean sc;
                   pre_std := s_hist_std sc; number_of_normal_scan := number_of_normal_scan s;
                   alert_direction := alert_direction s |}
              else s in
    match if_normal s1 (s_cur_mean sc) dirs ratio with
    | None => None
    | Some normal =>
        let s2 :=
          if normal then
            let s' := {| cps := cps s1; alert_fired := alert_fired s1; pre_mean := pre_mean s1;
                         pre_std := pre_std s1; number_of_normal_scan := number_of_normal_scan s1 + 1;
                         alert_direction := alert_direction s1 |} in
            if NORMAL_TOLERENCE <=? number_of_normal_scan s' then set_alert_off s' else s'
          else {| cps := cps s1; alert_fired := alert_fired s1; pre_mean := pre_mean s1;
                  pre_std := pre_std s1; number_of_normal_scan := 0;
                  alert_direction := alert_direction s1 |} in
        match rev (cps s2) with
        | [] => None (* IndexError *)
        | last :: _ => Some (if CHANGEPOINT_RETENTION <? s_time sc - last then set_alert_off s2 else s2)
        end
    end.

(** A history of scans. *)
Fixpoint run dirs ratio adapted (s : state) (l : list scan) : option state :=
  match l with
  | [] => Some s
  | sc :: t => match fit dirs ratio adapted s sc with None => None | Some s' => run dirs ratio adapted s' t end
  end.

(** ** Block processing *)

(** Python range(start, stop, step) for a positive step. *)
Definition py_range (start stop step : Z) : list Z :=
  map (fun k => start + Z.of_nat k * step) (seq 0 (Z.to_nat ((stop - start + step - 1) / step))).

(** cusum_model.py:973-996 _reorganize_big_data: the columns. *)
Definition reorganize_big_data {A} (org : list A) (multi_ts_len n_step : Z) : list (list A) :=
  py_slice org None (Some multi_ts_len)
  :: map (fun i => py_slice org (Some (i - multi_ts_len + n_step)) (Some (i + n_step)))
         (py_range multi_ts_len (Z.of_nat (length org)) n_step).

(** cusum_model.py:862-865 the rows handed to _predict: the last n_step rows of each column. *)
Definition last_rows {A} (n_step : Z) (cols : list (list A)) : list (list A) :=
  map (fun c => py_slice c (Some (- n_step)) None) cols.

(** cusum_model.py:1026-1038 values.T.reshape(-1): column after column. *)
Definition reorganize_back {A} (cols : list (list A)) : list A := concat cols.

(** cusum_model.py:742-753 window sizes in points, in exact arithmetic: ceil(a/f). *)
Definition ceil_div (a f : Z) : Z := - ((- a) / f).
Definition n_hist_win_pts (hw freq : Z) : Z := ceil_div hw freq.
Definition multi_ts_len (hw sw freq : Z) : Z := ceil_div (hw + sw) freq.

(** ** The step loop of fit_predict *)

(** cusum_model.py:1042-1053 _time2idx on times: "right" first index with time >= t, "left" last
    index with time < t; min/max of an empty array raises. *)
Fixpoint first_ge (times : list Z) (t : Z) (i : Z) : option Z :=
  match times with [] => None | x :: r => if t <=? x then Some i else first_ge r t (i + 1) end.
Fixpoint last_lt (times : list Z) (t : Z) (i : Z) (acc : option Z) : option Z :=
  match times with [] => acc | x :: r => last_lt r t (i + 1) (if x <? t then Some i else acc) end.
Definition time2idx_right (times : list Z) (t : Z) : option Z := first_ge times t 0.
Definition time2idx_left (times : list Z) (t : Z) : option Z := last_lt times t 0 None.

(** pd.date_range(start, end, freq=step) for a positive step. *)
Definition date_range (start stop step : Z) : list Z :=
  if stop <? start then [] else map (fun k => start + Z.of_nat k * step) (seq 0 (Z.to_nat ((stop - start) / step + 1))).

(** cusum_model.py:880-928: the index ranges (of the concatenated history and data) scored by the
    loop; None is an exception. A window without data is skipped. *)
Fixpoint step_ranges (times : list Z) (hw step : Z) (starts : list Z) : option (list (Z * Z)) :=
  match starts with
  | [] => Some []
  | s :: r =>
      match time2idx_right times (s - hw), time2idx_right times s, time2idx_left times (s + step) with
      | Some _, Some he, Some se =>
          match step_ranges times hw step r with
          | None => None
          | Some l => Some (if se + 1 <=? he then l else (he, se + 1) :: l)
          end
      | _, _, _ => None
      end
  end.

Definition range_len (l : list (Z * Z)) : Z := fold_right (fun p acc => snd p - fst p + acc) 0 l.

(** cusum_model.py:594-971 fit_predict, which rows are scored when the vectorised path is not
    taken: [zeros] leading rows with zero score, then the ranges of rows of history ++ data. [org_hist_len]
    is the length of the given history, times those of history ++ data. Early returns (series shorter
    than the windows) score everything at once. The last component is None if the call raises. *)
Definition scored_rows (times : list Z) (org_hist_len : Z) (hw scan_w step freq : Z)
  : option (Z * list (Z * Z)) :=
  let n := Z.of_nat (length times) in
  let t0 := nth 0 times 0 in
  let tl_ := nth (Z.to_nat (n - 1)) times 0 in
  let d0 := nth (Z.to_nat org_hist_len) times 0 in
  let data_times := skipn (Z.to_nat org_hist_len) times in
  let start := Z.max (t0 + hw) d0 in
  let m := n - org_hist_len in
  if tl_ <? start then Some (0, [(org_hist_len, n)])
  else
    match time2idx_right data_times start with
    | None => None
    | Some a =>
        let start' := nth (Z.to_nat a) data_times 0 in
        if tl_ - t0 + freq <? scan_w then Some (0, [(org_hist_len, n)])
        else
          match step_ranges times hw step (date_range start' (Z.min (tl_ + freq - step) tl_) step) with
          | None => None
          | Some rs =>
              let remain := m - (a + range_len rs) in
              if 0 <? remain then
                let he := n - remain in
                match time2idx_left times (nth (Z.to_nat he) times 0 - hw) with
                | None => None
                | Some _ => Some (a, rs ++ [(he, n)])
                end
              else Some (a, rs)
          end
    end.

(** cusum_model.py:753-797, 862-872: the rows of history ++ data scored by the vectorised path, whose
    first scored row is [p] = anomaly_start_idx + org_hist_len, followed by the rows left to the
    "remaining data" branch (lines 931-957). Scoring itself is one score per row, so the rows stand
    for their scores. *)
Definition vec_dim {A} (vals : list A) (p n_step : Z) : Z := (Z.of_nat (length vals) - p) / n_step.
Definition vectorised_rows {A} (vals : list A) (p n_hist n_step : Z) : list A * list A :=
  let e := p + vec_dim vals p n_step * n_step in
  let block := py_slice vals (Some (Z.max (p - n_hist) 0)) (Some e) in
  let scored := reorganize_back (last_rows n_step (reorganize_big_data block (n_hist + n_step) n_step)) in
  (scored, py_slice vals (Some (p + Z.of_nat (length scored))) None).
