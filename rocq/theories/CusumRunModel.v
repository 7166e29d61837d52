(** Model of a whole call of the CUSUM models (kats/detectors/cusum_model.py): scans with the
    detector of CusumDetModel.v and the state of CusumModel.v, scores, the loop over the steps,
    the vectorised path of [CUSUMDetectorModel] and [VectorizedCUSUMDetectorModel].

    Times are nanoseconds; values exact rationals; an exception is [None].  Simplifications:
    the data are complete (no NaN), sorted by time, after 1970 and not de-seasonalised;
    [std] is np.std (a parameter, since it is irrational). *)
From Verif Require Import Common PySlice CusumModel CusumDetModel.
Require Import Reals.
Require Import String List.
Open Scope Z_scope.

Definition second : Z := 1000000000.
(** [int(t.value / 1e9)], [t.value // 10**9] *)
Definition secs (t : Z) : Z := t / second.

(** ** Scores *)

(** floating point numbers: NaN, infinities, numbers *)
Inductive value := VNaN | VInf (negative : bool) | V (q : Q).
Definition div_value (x y : Q) : value :=
  if Qeq_bool y 0 then
    if Qeq_bool x 0 then VNaN else VInf (negb (Qle_bool 0 x))
  else V (x / y).
Inductive score_kind := Change | Percentage | ZScore.
(** change, percentage_change, z_score — cusum_model.py:65-126 *)
Definition score (k : score_kind) (mean std : option Q) (x : Q) : value :=
  match k, mean, std with
  | Change, Some m, _ => V (x - m)
  | Percentage, Some m, _ => div_value (x - m) m
  | ZScore, Some m, Some s => div_value (x - m) s
  | _, _, _ => VNaN
  end.

(** ** Configuration *)

(** the parameters of [CUSUMDetectorModel] — cusum_model.py:181-288; windows in nanoseconds. *)
Record config := MkConfig {
  g_threshold : R; g_std_ratio : Q; g_magnitude : option (list Q -> option Q); g_mag_ratio : Q;
  g_dirs : option (list dname); g_scan : Z; g_hist : Z; g_step : option Z;
  g_adapted : bool; g_vectorized : bool; g_score : score_kind }.
(** the call of the detector — cusum_model.py:456-464, and its defaults, cusum_detection.py:64-76 *)
Definition det_args (g : config) (w : Z * Z) : args :=
  MkArgs (g_threshold g) 10 (g_std_ratio g) 0 None (Some w) (g_magnitude g) (g_mag_ratio g) (1 # 2) false.
Definition det_dirs (g : config) : dir_arg := match g_dirs g with None => DNone | Some l => DList l end.
(** "increase" in change_directions, "decrease" in change_directions *)
Definition watched (g : config) : option (list direction) :=
  option_map (flat_map (fun s => match dir_of s with Some d => [d] | None => [] end)) (g_dirs g).

(** ** One scan *)

(** the first row of the scan window — cusum_model.py:446-451 *)
Definition scan_index (g : config) (times : list Z) : option Z :=
  time2idx_right times (last times 0 - g_scan g).
(** [sorted(changepoints, key=start_time)[0]] *)
Fixpoint first_meta (r : direction * meta) (l : list (direction * meta)) : direction * meta :=
  match l with
  | [] => r
  | x :: l => if m_time (snd x) <? m_time (snd r) then first_meta x l else first_meta r l
  end.
Definition first_of (l : list (direction * meta)) : option (direction * meta) :=
  match l with [] => None | r :: l => Some (first_meta r l) end.
Definition found_of (std : list Q -> option Q) (vals : list Q) (t : Z) (r : direction * meta) : found :=
  {| f_time := t; f_dir := fst r;
     f_mean := qmean (py_slice vals None (Some (m_index (snd r) + 1)));
     f_std := std (py_slice vals None (Some (m_index (snd r) + 1))) |}.
(** what a scan of a window sees; [t] is the time of the last row in seconds *)
Definition seen (std : list Q -> option Q) (vals : list Q) (i t : Z) (fs : list found) : scan :=
  {| s_enough := 1 <? Z.of_nat (length vals) - i; s_found := fs;
     s_cur_mean := qmean (py_slice vals (Some i) None);
     s_hist_mean := qmean (py_slice vals None (Some i)); s_hist_std := std (py_slice vals None (Some i));
     s_time := t |}.
(** [_fit] — cusum_model.py:415-500: the window is history and data together; the state is
    changed by [fit] of CusumModel.v. *)
Definition fit_scan (g : config) (std : list Q -> option Q) (s : state) (times : list Z) (vals : list Q)
  : option state :=
  match scan_index g times with
  | None => None
  | Some i =>
      let n := Z.of_nat (length vals) in
      let go fs := fit (watched g) (g_std_ratio g) (g_adapted g) s (seen std vals i (secs (last times 0)) fs) in
      if negb (alert_fired s) && (1 <? n - i) then
        match detector (det_args g (i, n)) (det_dirs g) times vals with
        | None => None
        | Some l =>
            go (match first_of l with
                | None => []
                | Some r => [found_of std vals (secs (m_time (snd r))) r]
                end)
        end
      else go []
  end.

(** the rows up to and including row [i] are zero *)
Definition zero_until (i : Z) (f : Q -> value) (vals : list Q) : list value :=
  map (fun _ => V 0) (py_slice vals None (Some (i + 1))) ++ map f (py_slice vals (Some (i + 1)) None).
(** [_predict] — cusum_model.py:502-546 *)
Definition predict (k : score_kind) (s : state) (times : list Z) (vals : list Q) : option (list value) :=
  let f := score k (pre_mean s) (pre_std s) in
  if alert_fired s then
    match rev (cps s), times with
    | cp :: _, t0 :: _ =>
        if t0 <=? cp * second then
          option_map (fun i => zero_until i f vals) (find_time times (cp * second) 0)
        else Some (map f vals)
    | _, _ => None
    end
  else Some (map (fun _ => V 0) vals).

(** ** The loop over the steps *)

(** one step: [_fit] on the rows [hs, he) and [he, se), scores for the rows [he, se) —
    cusum_model.py:905-928 *)
Definition one_step (g : config) (std : list Q -> option Q) (times : list Z) (vals smooth : list Q)
    (hs he se : Z) (s : state) : option (state * list value) :=
  match fit_scan g std s
          (py_slice times (Some hs) (Some he) ++ py_slice times (Some he) (Some se))
          (py_slice vals (Some hs) (Some he) ++ py_slice vals (Some he) (Some se)) with
  | None => None
  | Some s' =>
      option_map (pair s')
        (predict (g_score g) s' (py_slice times (Some he) (Some se)) (py_slice smooth (Some he) (Some se)))
  end.
(** cusum_model.py:874-928 *)
Fixpoint loop_path (g : config) (std : list Q -> option Q) (times : list Z) (vals smooth : list Q)
    (step : Z) (starts : list Z) (s : state) : option (state * list value) :=
  match starts with
  | [] => Some (s, [])
  | t :: r =>
      match time2idx_right times (t - g_hist g), time2idx_right times t, time2idx_left times (t + step) with
      | Some hs, Some he, Some se =>
          if se + 1 <=? he then loop_path g std times vals smooth step r s
          else match one_step g std times vals smooth hs he (se + 1) s with
               | None => None
               | Some (s', v) =>
                   option_map (fun p => (fst p, v ++ snd p)) (loop_path g std times vals smooth step r s')
               end
      | _, _, _ => None
      end
  end.

(** ** The vectorised path *)

(** the change point of every column, from a fresh [VectorizedCUSUMDetectorModel] —
    cusum_model.py:827-838, 1297-1333 *)
Definition vec_found (g : config) (ctimes : list Z) (cols : list (list Q))
  : option (list (option (direction * meta))) :=
  match scan_index g ctimes with
  | None => None
  | Some i =>
      let n := Z.of_nat (length ctimes) in
      if 1 <? n - i then option_map (map first_of) (vec_detector (det_args g (i, n)) (det_dirs g) ctimes cols)
      else Some (map (fun _ => None) cols)
  end.
(** [_fit_vec_row] — cusum_model.py:361-413: the new state and the change point found, in the
    times of the first column. The branch of an alert that is on is that of [_fit]. *)
Definition fit_vec_row (g : config) (std : list Q -> option Q) (s : state) (ctimes : list Z) (vals : list Q)
    (found : option (direction * meta)) (adjust : Z) : option (state * option Z) :=
  match scan_index g ctimes with
  | None => None
  | Some i =>
      if negb (alert_fired s) then
        match found with
        | None => Some (s, None)
        | Some r =>
            let f := found_of std vals (secs (m_time (snd r) + adjust)) r in
            Some (set_alert_on
                    {| cps := push_cp (cps s) (f_time f); alert_fired := alert_fired s;
                       pre_mean := pre_mean s; pre_std := pre_std s;
                       number_of_normal_scan := number_of_normal_scan s;
                       alert_direction := alert_direction s |}
                    (f_mean f) (f_std f) (f_dir f), Some (secs (m_time (snd r))))
        end
      else option_map (fun s => (s, None))
             (fit (watched g) (g_std_ratio g) (g_adapted g) s (seen std vals i (secs (last ctimes 0 + adjust)) []))
  end.
(** one column of [VectorizedCUSUMDetectorModel._predict] — cusum_model.py:1418-1456: [cp] is
    the last change point; zero counts as none. *)
Definition predict_col (k : score_kind) (fired : bool) (mean std : option Q) (cp : option Z)
    (times : list Z) (vals : list Q) : option (list value) :=
  match times with
  | [] => None
  | t0 :: _ =>
      let idx := match cp with
                 | None | Some 0 => Some None
                 | Some c => if t0 <=? c * second then option_map Some (find_time times (c * second) 0)
                             else Some None
                 end in
      option_map (fun i =>
        if fired then match i with
                      | None => map (score k mean std) vals
                      | Some i => zero_until i (score k mean std) vals
                      end
        else map (fun _ => V 0) vals) idx
  end.
(** cusum_model.py:840-872: the columns one after the other; [c] is the number of the column. *)
Fixpoint vec_rows (g : config) (std : list Q -> option Q) (step : Z) (ctimes ptimes : list Z) (c : Z)
    (cols pcols : list (list Q)) (founds : list (option (direction * meta))) (s : state)
  : option (state * list value) :=
  match cols, pcols, founds with
  | v :: cols, p :: pcols, f :: founds =>
      match fit_vec_row g std s ctimes v f (c * step) with
      | None => None
      | Some (s', res) =>
          match predict_col (g_score g) (alert_fired s') (pre_mean s') (pre_std s') res ptimes p,
                vec_rows g std step ctimes ptimes (c + 1) cols pcols founds s' with
          | Some v, Some (s'', w) => Some (s'', v ++ w)
          | _, _ => None
          end
      end
  | _, _, _ => Some (s, [])
  end.
(** cusum_model.py:780-879: [p] is the first scored row, [dim] the number of columns. *)
Definition vec_path (g : config) (std : list Q -> option Q) (times : list Z) (vals smooth : list Q)
    (step : Z) (p n_hist n_step dim : Z) (s : state) : option (state * list value) :=
  let block {A} (l : list A) := py_slice l (Some (Z.max (p - n_hist) 0)) (Some (p + dim * n_step)) in
  let cols := reorganize_big_data (block vals) (n_hist + n_step) n_step in
  let pcols := last_rows n_step (reorganize_big_data (block smooth) (n_hist + n_step) n_step) in
  let ctimes := py_slice (block times) None (Some (n_hist + n_step)) in
  match vec_found g ctimes cols with
  | None => None
  | Some founds => vec_rows g std step ctimes (py_slice ctimes (Some (- n_step)) None) 0 cols pcols founds s
  end.

(** ** The whole call *)

(** [np.convolve(x, np.ones(w), mode="full")[: 1 - w] / w] — cusum_model.py:670-681 *)
Definition smoothed (w : nat) (vals : list Q) : list Q :=
  map (fun i => (qsum (skipn (S i - w) (firstn (S i) vals)) / inject_Z (Z.of_nat w))%Q)
      (seq 0 (length vals)).
Definition smooth_window (g : config) (freq : Z) : nat := Z.to_nat (g_scan g / freq).
Definition smooth_of (g : config) (freq : Z) (vals : list Q) : list Q :=
  if (1 <? smooth_window g freq)%nat then smoothed (smooth_window g freq) vals else vals.

(** [_check_window_sizes] — cusum_model.py:558-591 *)
Definition windows_ok (g : config) (freq : Z) : bool :=
  match g_step g with
  | Some st => negb (g_scan g <=? st) && negb (st <? freq)
  | None => true
  end && negb ((g_scan g <? 2 * freq) || (g_hist g <? 2 * freq)).
(** cusum_model.py:724-733 *)
Definition step_of (g : config) (first last freq : Z) : Z :=
  match g_step g with Some st => st | None => Z.min (g_scan g / 2) (last - first + freq) end.

(** the rows left over — cusum_model.py:930-957; [done] rows of the data have a score *)
Definition rest_path (g : config) (std : list Q -> option Q) (times : list Z) (vals smooth : list Q)
    (org done : Z) (s : state) : option (state * list value) :=
  let n := Z.of_nat (length times) in
  let remain := n - org - done in
  if 0 <? remain then
    let he := n - remain in
    match time2idx_left times (nth (Z.to_nat he) times 0 - g_hist g) with
    | None => None
    | Some hs => one_step g std times vals smooth hs he n s
    end
  else Some (s, []).

(** [fit_predict] — cusum_model.py:594-971: [times], [vals] are those of history and data,
    [org] is the length of the history, [freq] the frequency, [regular] whether pandas infers
    one.  The scores of the data. *)
Definition fit_predict (g : config) (std : list Q -> option Q) (freq : Z) (regular : bool)
    (times : list Z) (vals : list Q) (org : Z) (s : state) : option (state * list value) :=
  if negb (windows_ok g freq) then None else
  let n := Z.of_nat (length times) in
  let smooth := smooth_of g freq vals in
  let first := nth 0 times 0 in
  let final := last times 0 in
  let data_times := py_slice times (Some org) None in
  let start := Z.max (first + g_hist g) (nth 0 data_times 0) in
  let whole := option_map (pair s) (predict (g_score g) s data_times (py_slice smooth (Some org) None)) in
  if final <? start then whole else
  match time2idx_right data_times start with
  | None => None
  | Some a =>
      let start := nth (Z.to_nat a) data_times 0 in
      if final - first + freq <? g_scan g then whole else
      let step := step_of g (nth 0 data_times 0) final freq in
      let n_hist := n_hist_win_pts (g_hist g) freq in
      let n_step := multi_ts_len (g_hist g) step freq - n_hist in
      let dim := (n - (a + org)) / n_step in
      let main :=
        if g_vectorized g && (step mod freq =? 0) && (g_hist g mod freq =? 0) && regular && (2 <=? dim)
        then vec_path g std times vals smooth step (a + org) n_hist n_step dim s
        else loop_path g std times vals smooth step
               (date_range start (Z.min (final + freq - step) final) step) s in
      match main with
      | None => None
      | Some (s', v) =>
          let head := map (fun _ => V 0) (py_slice data_times None (Some a)) in
          option_map (fun p => (fst p, head ++ v ++ snd p))
            (rest_path g std times vals smooth org (Z.of_nat (length (head ++ v))) s')
      end
  end.

(** ** VectorizedCUSUMDetectorModel *)

(** the arrays of the state are kept column by column.  [_if_back_to_normal] —
    cusum_model.py:1230-1258: a column without a direction is compared with its mean. *)
Definition normal_multi (s : state) (cur : option Q) (dirs : option (list direction)) (ratio : Q) : bool :=
  match if_normal s cur dirs ratio with
  | Some b => b
  | None => match pre_mean s, pre_std s, cur with
            | Some m, Some _, Some c => Qle_bool m c && Qle_bool c m
            | _, _, _ => false
            end
  end.
(** Series.combine_first *)
Definition combine_first (x old : option Q) : option Q := match x with Some v => Some v | None => old end.
(** case 1 — cusum_model.py:1323-1369: a column whose alert is off and that has a change *)
Definition on_multi (std : list Q -> option Q) (s : state) (vals : list Q) (cp : option (direction * meta)) : state :=
  match cp with
  | None => s
  | Some r =>
      let f := found_of std vals (secs (m_time (snd r))) r in
      set_alert_on {| cps := push_cp (cps s) (f_time f); alert_fired := alert_fired s;
                      pre_mean := pre_mean s; pre_std := pre_std s;
                      number_of_normal_scan := number_of_normal_scan s; alert_direction := alert_direction s |}
        (combine_first (f_mean f) (pre_mean s)) (combine_first (f_std f) (pre_std s)) (f_dir f)
  end.
(** case 2 — cusum_model.py:1376-1416: [fired] is the mark before the scan *)
Definition off_multi (g : config) (std : list Q -> option Q) (fired : bool) (s : state) (vals : list Q) (i t : Z) : state :=
  let cur := if fired then qmean (py_slice vals (Some i) None) else None in
  let s1 := if g_adapted g && fired then
              {| cps := cps s; alert_fired := alert_fired s;
                 pre_mean := combine_first (qmean (py_slice vals None (Some i))) (pre_mean s);
                 pre_std := combine_first (std (py_slice vals None (Some i))) (pre_std s);
                 number_of_normal_scan := number_of_normal_scan s; alert_direction := alert_direction s |}
            else s in
  let normal := normal_multi s1 cur (watched g) (g_std_ratio g) in
  let count := number_of_normal_scan s1 + (if normal then 1 else 0) in
  let set_count c x := {| cps := cps x; alert_fired := alert_fired x; pre_mean := pre_mean x; pre_std := pre_std x;
                          number_of_normal_scan := c; alert_direction := alert_direction x |} in
  let s2 := set_count count s1 in
  let s3 := if fired && (NORMAL_TOLERENCE <=? count) && normal then set_alert_off s2 else s2 in
  let s4 := if normal then s3 else set_count 0 s3 in
  match rev (cps s4) with
  | cp :: _ => if fired && (CHANGEPOINT_RETENTION <? t - cp) then set_alert_off s4 else s4
  | [] => s4
  end.
(** [VectorizedCUSUMDetectorModel._fit] — cusum_model.py:1260-1416 *)
Definition fit_multi (g : config) (std : list Q -> option Q) (sts : list state) (times : list Z) (cols : list (list Q))
  : option (list state) :=
  match scan_index g times with
  | None => None
  | Some i =>
      let n := Z.of_nat (length times) in
      let on s := negb (alert_fired s) && (1 <? n - i) in
      let cps := if existsb on sts then
                   option_map (zip_with (fun s l => if on s then first_of l else None) sts)
                     (vec_detector (det_args g (i, n)) (det_dirs g) times cols)
                 else Some (map (fun _ => None) sts) in
      match cps with
      | None => None
      | Some cps =>
          let sts1 := zip_with (fun sv cp => on_multi std (fst sv) (snd sv) cp) (combine sts cols) cps in
          Some (if existsb alert_fired sts then
                  zip_with (fun s0 sv => off_multi g std (alert_fired s0) (fst sv) (snd sv) i (secs (last times 0)))
                    sts (combine sts1 cols)
                else sts1)
      end
  end.
(** [VectorizedCUSUMDetectorModel._predict] — cusum_model.py:1418-1456 *)
Fixpoint all_some {A} (l : list (option A)) : option (list A) :=
  match l with
  | [] => Some []
  | x :: l => match x, all_some l with Some x, Some r => Some (x :: r) | _, _ => None end
  end.
Definition predict_multi (k : score_kind) (sts : list state) (times : list Z) (cols : list (list Q))
  : option (list (list value)) :=
  all_some (zip_with (fun s v =>
    predict_col k (alert_fired s) (pre_mean s) (pre_std s)
      (match rev (cps s) with [] => None | c :: _ => Some c end) times v) sts cols).

(** a frame: named columns.  [TimeSeriesData.extend] concatenates frames — consts.py:655-692: the
    columns of both, missing cells are NaN; an empty [TimeSeriesData()] has a column "value". *)
Definition frame := list (string * list value).
Definition rows (f : frame) : nat := match f with [] => O | (_, c) :: _ => length c end.
Definition lookup (f : frame) (name : string) : option (list value) :=
  option_map snd (find (fun c => String.eqb (fst c) name) f).
Definition cells (f : frame) (name : string) : list value :=
  match lookup f name with Some c => c | None => repeat VNaN (rows f) end.
Definition extend (a b : frame) : frame :=
  map (fun name => (name, cells a name ++ cells b name))
    (map fst a ++ filter (fun x => negb (existsb (String.eqb x) (map fst a))) (map fst b)).
Definition value_name : string := "value"%string.
(** [_zeros_ts] — cusum_model.py:1458-1467 *)
Definition zeros_frame (names : list string) (n : nat) : frame :=
  match n with
  | O => [(value_name, [])]
  | _ => map (fun x => (x, repeat (V 0) n)) names
  end.

Definition one_step_multi (g : config) (std : list Q -> option Q) (names : list string) (times : list Z)
    (cols smooths : list (list Q)) (hs he se : Z) (sts : list state) : option (list state * frame) :=
  match fit_multi g std sts
          (py_slice times (Some hs) (Some he) ++ py_slice times (Some he) (Some se))
          (map (fun v => py_slice v (Some hs) (Some he) ++ py_slice v (Some he) (Some se)) cols) with
  | None => None
  | Some sts' =>
      option_map (fun v => (sts', combine names v))
        (predict_multi (g_score g) sts' (py_slice times (Some he) (Some se))
           (map (fun v => py_slice v (Some he) (Some se)) smooths))
  end.
(** cusum_model.py:1637-1690 *)
Fixpoint loop_multi (g : config) (std : list Q -> option Q) (names : list string) (times : list Z)
    (cols smooths : list (list Q)) (step : Z) (starts : list Z) (sts : list state) (acc : frame)
  : option (list state * frame) :=
  match starts with
  | [] => Some (sts, acc)
  | t :: r =>
      match time2idx_right times (t - g_hist g), time2idx_right times t, time2idx_left times (t + step) with
      | Some hs, Some he, Some se =>
          if se + 1 <=? he then loop_multi g std names times cols smooths step r sts acc
          else match one_step_multi g std names times cols smooths hs he (se + 1) sts with
               | None => None
               | Some (sts', f) => loop_multi g std names times cols smooths step r sts' (extend acc f)
               end
      | _, _, _ => None
      end
  end.
(** [VectorizedCUSUMDetectorModel.fit_predict] for several columns — cusum_model.py:1488-1734: the
    state is made anew; returned with the frame of scores. *)
Definition fit_predict_multi (g : config) (std : list Q -> option Q) (freq : Z) (names : list string)
    (times : list Z) (cols : list (list Q)) (org : Z) : option (list state * frame) :=
  let sts := map (fun _ => init) cols in
  if negb (windows_ok g freq) then None else
  let n := Z.of_nat (length times) in
  let smooths := map (smooth_of g freq) cols in
  let first := nth 0 times 0 in
  let final := last times 0 in
  let data_times := py_slice times (Some org) None in
  let start := Z.max (first + g_hist g) (nth 0 data_times 0) in
  let whole := option_map (fun v => (sts, combine names v))
                 (predict_multi (g_score g) sts data_times (map (fun v => py_slice v (Some org) None) smooths)) in
  if final <? start then whole else
  match time2idx_right data_times start with
  | None => None
  | Some a =>
      let start := nth (Z.to_nat a) data_times 0 in
      if final - first + freq <? g_scan g then whole else
      let step := step_of g (nth 0 data_times 0) final freq in
      match loop_multi g std names times cols smooths step
              (date_range start (Z.min (final + freq - step) final) step) sts (zeros_frame names (Z.to_nat a)) with
      | None => None
      | Some (sts', f) =>
          let remain := n - org - Z.of_nat (rows f) in
          if 0 <? remain then
            let he := n - remain in
            match time2idx_left times (nth (Z.to_nat he) times 0 - g_hist g) with
            | None => None
            | Some hs =>
                option_map (fun p => (fst p, extend f (snd p)))
                  (one_step_multi g std names times cols smooths hs he n sts')
            end
          else Some (sts', f)
      end
  end.
