(** utils/simulator.py.

    Real arithmetic.  Random numbers are parameters: [draw k] is the k-th standard normal number drawn in a call.  Positions are
    natural numbers (negative change points, which numpy counts from the end, are left out).  None: an exception. *)
From Coq Require Import Reals Lra List Bool Arith Lia.
Import ListNotations.
Open Scope R_scope.

Fixpoint total (l : list R) : R := match l with [] => 0 | x :: l => x + total l end.
(** numpy: values [start:stop] += f *)
Definition add_slice (start stop : nat) (f : nat -> R) (y : list R) : list R :=
  map (fun k => if (start <=? k)%nat && (k <? stop)%nat then nth k y 0 + f k else nth k y 0) (seq 0 (length y)).
(** numpy: values [start:stop] = f *)
Definition set_slice (start stop : nat) (f : nat -> R) (y : list R) : list R :=
  map (fun k => if (start <=? k)%nat && (k <? stop)%nat then f k else nth k y 0) (seq 0 (length y)).
Definition upd (k : nat) (v : R) (y : list R) : list R := set_slice k (S k) (fun _ => v) y.

(** simulator.py:33-46 — moving_average, n >= 1: ret[n:] = ret[n:] - ret[:-n] of the running sums *)
Definition cumsum (a : list R) : list R := map (fun k => total (firstn (S k) a)) (seq 0 (length a)).
Definition moving_average (a : list R) (n : nat) : list R :=
  let c := cumsum a in
  let r := map (fun k => if (n <=? k)%nat then nth k c 0 - nth (k - n) c 0 else nth k c 0) (seq 0 (length c)) in
  map (fun x => x / INR n) (skipn (n - 1) r).

(** sorted(l) *)
Fixpoint insert (x : nat) (l : list nat) : list nat :=
  match l with [] => [x] | y :: l' => if (x <=? y)%nat then x :: l else y :: insert x l' end.
Fixpoint sort (l : list nat) : list nat := match l with [] => [] | x :: l => insert x (sort l) end.
Fixpoint sortedb (l : list nat) : bool :=
  match l with x :: ((y :: _) as l') => (x <=? y)%nat && sortedb l' | _ => true end.
(** simulator.py:663-707 — _check_arr_inputs; len(loc) - len(param) must be diff *)
Definition check_arr (len : nat) (loc : list nat) (param : list R) (diff : nat) : bool :=
  negb (length loc =? 0)%nat && negb (length param =? 0)%nat && sortedb loc && (last loc 0 <? len)%nat
  && (length loc =? length param + diff)%nat.

(** simulator.py:709-742 — inject_level_shift, both arrays given *)
Definition inject_level_shift (ts : list R) (cps : list nat) (levels : list R) : option (list R) :=
  if check_arr (length ts) cps levels 1 then
    Some (fold_left (fun y i => add_slice (nth i cps 0%nat) (nth (S i) cps 0%nat) (fun _ => nth i levels 0) y)
      (seq 0 (length cps - 1)) ts)
  else None.
(** simulator.py:744-782 — inject_trend_shift; add_arr[-1] of an empty segment raises *)
Definition trend_step (cps : list nat) (trends : list R) (acc : option (list R)) (i : nat) : option (list R) :=
  match acc with
  | None => None
  | Some y =>
      let start := nth i cps 0%nat in let stop := nth (S i) cps 0%nat in
      let add := fun k => nth i trends 0 * INR (k - start) in
      let y := add_slice start stop add y in
      if (start <? stop)%nat then Some (add_slice stop (length y) (fun _ => add (stop - 1)%nat) y) else None
  end.
Definition inject_trend_shift (ts : list R) (cps : list nat) (trends : list R) : option (list R) :=
  if check_arr (length ts) cps trends 1 then fold_left (trend_step cps trends) (seq 0 (length cps - 1)) (Some ts) else None.
(** simulator.py:784-834 — inject_spikes; the deviation of fewer than three values is NaN, here None as well *)
Definition np_std (l : list R) : option R :=
  match l with
  | [] => None
  | _ => let m := total l / INR (length l) in Some (sqrt (total (map (fun x => (x - m) * (x - m)) l) / INR (length l)))
  end.
Fixpoint minus (a b : list R) : list R := match a, b with x :: a, y :: b => (x - y) :: minus a b | _, _ => [] end.
Definition inject_spikes (ts : list R) (locs : list nat) (zs : list R) (eps : R) : option (list R) :=
  if check_arr (length ts) locs zs 0 then
    match np_std (minus (skipn 2 ts) (moving_average ts 3)) with
    | None => None
    | Some sd => Some (fold_left (fun y az => add_slice (fst az) (S (fst az)) (fun _ => snd az * (sd + eps)) y) (combine locs zs) ts)
    end
  else None.

(** The simulator object: simulator.py:60-82 *)
Record simulator := { n_of : nat; time_of : nat (* number of times *); series_of : list R }.
Definition new_simulator (n : nat) : simulator := {| n_of := n; time_of := n; series_of := repeat 0 n |}.
(** simulator.py:325-335 — _adjust_length *)
Definition adjust_length (s : simulator) (n : nat) : simulator := {| n_of := n; time_of := n; series_of := series_of s |}.
(** simulator.py:302-323 — stl_sim: TimeSeriesData raises if the lengths differ *)
Definition stl_sim (s : simulator) : option (list R) := if (length (series_of s) =? time_of s)%nat then Some (series_of s) else None.

(** sin((pi / period) * arange(n)) *)
Definition season (magnitude : R) (period : nat) (k : nat) : R := magnitude * sin ((PI / INR period) * INR k).
(** simulator.py:397-407 — while y_idx > cp_arr[seg_idx]: seg_idx += 1 *)
Fixpoint find_seg (cps : list nat) (y : nat) : nat :=
  match cps with [] => 0%nat | c :: cps => if (c <? y)%nat then S (find_seg cps y) else 0%nat end.
(** levels[i - 1] with Python's index -1 for i = 0 *)
Definition level_before (levels : list R) (i : nat) : R := match i with O => last levels 0 | S i => nth i levels 0 end.
(** simulator.py:337-414 — _get_level_shift_y_val *)
Definition level_values (draw : nat -> R) (n : nat) (cps : list nat) (levels : list R) (noise : R) (period : nat) (magnitude : R)
    (anomalies : list nat) (zs : list R) : option (list R) :=
  let cps := sort cps in
  if negb (length levels =? S (length cps))%nat then None
  else if negb (length cps =? 0)%nat && (n <=? last cps 0)%nat then None
  else
    let cuts := 0%nat :: cps ++ [n] in
    let y := fold_left (fun y i => set_slice (nth i cuts 0%nat) (nth (S i) cuts 0%nat) (fun k => nth i levels 0 + noise * draw k) y)
      (seq 0 (length cuts - 1)) (repeat 1 n) in
    if negb (length anomalies =? length zs)%nat then None
    else if forallb (fun a => (a <? n)%nat) anomalies then
      let y := fold_left (fun y az => upd (fst az) (level_before levels (find_seg cuts (fst az)) + snd az * noise) y)
        (combine anomalies zs) y in
      Some (add_slice 0 n (season magnitude period) y)
    else None.
(** simulator.py:416-489 — level_shift_sim: the simulator afterwards, and the values; the generator is seeded, so the numbers
    drawn depend on the seed only.  period is positive. *)
Definition level_shift_sim (normals : nat -> nat -> R) (s : simulator) (seed : nat) (cps : list nat) (levels : list R) (noise : R)
    (period : nat) (magnitude : R) (anomalies : list nat) (zs : list R) : simulator * option (list R) :=
  let top := fold_right Nat.max 0%nat cps in
  let s := if negb (length cps =? 0)%nat && (n_of s <? top)%nat then adjust_length s top else s in
  (s, level_values (normals seed) (n_of s) cps levels noise period magnitude anomalies zs).

(** simulator.py:555-661 — trend_shift_sim: random_seed is not used, the numbers come from the generator as it is.
    y[b - 1] with b = 0 is the last value. *)
Definition trend_pass (cuts : list nat) (trends : list R) (y : list R) (i : nat) : list R :=
  let b := nth i cuts 0%nat in let e := nth (S i) cuts 0%nat in
  let y := add_slice b e (fun k => nth i trends 0 * INR k) y in
  match i with
  | O => y
  | _ => let before := match b with O => last y 0 | S b => nth b y 0 end in
         let delta := nth b y 0 - before in
         add_slice b e (fun _ => - delta) y
  end.
Definition trend_shift_sim (draw : nat -> R) (s : simulator) (seed : nat) (cps : list nat) (trends : list R) (intercept noise : R)
    (period : nat) (magnitude : R) (anomalies : list nat) (zs : list R) : option (list R) :=
  let n := n_of s in
  let cps := sort cps in
  if negb (length trends =? S (length cps))%nat then None
  else if negb (length cps =? 0)%nat && (n <=? last cps 0)%nat then None
  else
    let cuts := 0%nat :: cps ++ [n] in
    let y := fold_left (trend_pass cuts trends) (seq 0 (length cuts - 1)) (repeat intercept n) in
    let y := add_slice 0 n (season magnitude period) y in
    if negb (length anomalies =? length zs)%nat then None
    else if forallb (fun a => (a <? n)%nat) anomalies then
      let noises := fold_left (fun v az => upd (fst az) (snd az * noise) v) (combine anomalies zs) (map (fun k => noise * draw k) (seq 0 n)) in
      Some (add_slice 0 n (fun k => nth k noises 0) y)
    else None.

(** simulator.py:84-178 — arima_sim with sigma > 0 and n >= 1; [eps k] the k-th error *)
Fixpoint dot (a b : list R) : R := match a, b with x :: a, y :: b => x * y + dot a b | _, _ => 0 end.
(** x[i]; both slices end before or at i and are flipped *)
Definition arma_value (ar ma1 : list R) (t : R) (eps : nat -> R) (x : list R) (i : nat) : R :=
  let p := Nat.min i (length ar) in
  let q := Nat.min i (length ma1 - 1) in
  dot (firstn p ar) (rev (firstn p (skipn (i - p) x)))
  + dot (firstn (Nat.min (i + 1) (length ma1)) ma1) (rev (map eps (seq (i - q) (S q)))) + t.
Fixpoint arma_path (ar ma1 : list R) (t : R) (eps : nat -> R) (len : nat) : list R :=
  match len with
  | O => []
  | S O => [eps 0%nat]
  | S len => let x := arma_path ar ma1 t eps len in x ++ [arma_value ar ma1 t eps x len]
  end.
(** simulator.py:153-165 — the first pass reads the ARMA values, later ones read the array they write (ARMA is a view of temp) *)
Definition first_pass (arma temp : list R) : list R :=
  fold_left (fun temp j => upd (S j) (nth j arma 0 + nth j temp 0) temp) (seq 0 (length arma)) temp.
Definition view_pass (m : nat) (temp : list R) : list R :=
  fold_left (fun temp j => upd (S j) (nth (S j) temp 0 + nth j temp 0) temp) (seq 0 m) temp.
Fixpoint passes (m k : nat) (temp : list R) : list R := match k with O => temp | S k => view_pass m (passes m k temp) end.
Definition arima_sim (eps : nat -> R) (n : nat) (ar ma : list R) (burnin d : nat) (t : R) : list R :=
  let ma1 := 1 :: ma in
  let len := (n + Nat.max (length ar) (length ma1) + burnin)%nat in
  let x := arma_path ar ma1 t eps len in
  let arma := skipn (len - n) x in
  match d with
  | O => arma
  | S d => skipn 1 (passes n d (first_pass arma (repeat 0 (S n))))
  end.

(** simulator.py:276-300 — _add_component: the component by position *)
Definition add_component (s : simulator) (multiply : bool) (c : nat -> R) : simulator :=
  {| n_of := n_of s; time_of := time_of s;
     series_of := map (fun k => if multiply then nth k (series_of s) 0 * (1 + c k) else nth k (series_of s) 0 + c k) (seq 0 (length (series_of s))) |}.
(** simulator.py:180-206, 232-274 — components; times in seconds, [tiny] is the machine epsilon *)
Definition linear_trend (time : nat -> R) (n : nat) (tiny magnitude : R) (k : nat) : R :=
  magnitude * ((time k - time 0%nat) / (time (n - 1)%nat - time 0%nat + tiny)).
Definition sine (time : nat -> R) (magnitude period : R) (k : nat) : R := magnitude * sin (2 * PI * ((time k - time 0%nat) / period)).
