(** Preparing the series of the global model — globalmodel/utils.py:53-215 and 1584-1705: filling holes, splitting a dataset,
    cutting off a validation part, padding.

    A series is the list of its rows (time, value) in ascending order of time, [None] is NaN; times are numbers, freq a positive
    step.  The time column is called "time": with another name utils.py:126 raises. *)
From Coq Require Import List Bool Arith ZArith QArith.
Import ListNotations.
Open Scope nat_scope.

(** ** Filling holes *)
(** the inner loop — utils.py:69-72: how many of the next elements are missing *)
Fixpoint run_length (na : list bool) : nat := match na with true :: t => S (run_length t) | _ => 0 end.
(** get_filters — utils.py:53-82: whether to keep the corresponding element; [fuel] bounds the while loop, which consumes at
    least one element per turn *)
Fixpoint filters_from (fuel : nat) (na : list bool) (s : nat) : list bool :=
  match fuel with
  | O => []
  | S fuel =>
      match na with
      | [] => []
      | true :: t =>
          let cnt := S (run_length t) in
          let rest := skipn (run_length t) t in
          (if s <=? cnt then repeat true (cnt mod s) ++ repeat false (cnt - cnt mod s) else repeat true cnt) ++ filters_from fuel rest s
      | false :: t => true :: filters_from fuel t s
      end
  end.
Definition get_filters (na : list bool) (s : nat) : list bool := filters_from (length na) na s.

Notation row := (Z * option Q)%type.
(** df.loc[mask] *)
Fixpoint keep {A} (mask : list bool) (l : list A) : list A :=
  match mask, l with
  | true :: m, x :: t => x :: keep m t
  | false :: m, _ :: t => keep m t
  | _, _ => []
  end.
Definition is_na (r : row) : bool := match snd r with None => true | Some _ => false end.
(** pd.date_range(start, end, freq=freq) *)
Definition date_range (a b freq : Z) : list Z := map (fun k => a + Z.of_nat k * freq)%Z (seq 0 (Z.to_nat ((b - a) / freq + 1))).
(** all_ds.merge(df, on=time, how="left") *)
Definition merge_left (grid : list Z) (ts : list row) : list row :=
  flat_map (fun g => match filter (fun r => Z.eqb (fst r) g) ts with [] => [(g, None)] | l => l end) grid.
(** fill_missing_value_na — utils.py:85-134; [None]: an empty series, IndexError *)
Definition fill_missing (ts : list row) (s : nat) (freq : Z) : option (list row) :=
  match ts with
  | [] => if s =? 1 then Some [] else None
  | (a, _) :: _ =>
      let b := fst (last ts (a, None)) in
      if Z.eqb (Z.of_nat (length ts - 1) * freq) (b - a) || (s =? 1) then Some ts
      else let all := merge_left (date_range a b freq) ts in
           Some (keep (get_filters (map is_na all) s) all)
  end.

(** ** Splitting a dataset *)
Section Split.
Context {V : Type}.
(** a dictionary of series: its keys, numbers, and series in order; a list has the keys 0, 1, ... *)
Local Notation dict := (list (nat * V)%type).
Definition lookup (d : dict) (k : nat) : option V := option_map snd (find (fun e => fst e =? k) d).
(** {t: d[t] for t in keys}; [None]: KeyError *)
Fixpoint pick (d : dict) (ks : list nat) : option dict :=
  match ks with
  | [] => Some []
  | k :: t => match lookup d k, pick d t with Some v, Some r => Some ((k, v) :: r) | _, _ => None end
  end.
Definition pick_valid (d : option dict) (ks : list nat) : option (option dict) :=
  match d with None => Some None | Some d => option_map Some (pick d ks) end.
Definition pick_both (train : dict) (valid : option dict) (ks : list nat) : option (dict * option dict) :=
  match pick train ks, pick_valid valid ks with Some a, Some b => Some (a, b) | _, _ => None end.
Fixpoint all_some {A} (l : list (option A)) : option (list A) :=
  match l with
  | [] => Some []
  | Some x :: t => option_map (cons x) (all_some t)
  | None :: _ => None
  end.
(** the separators — utils.py:180-184 *)
Definition separators (n splits : nat) : list nat :=
  let m := n / splits in
  let seps := map (fun k => k * m) (seq 0 ((n + m - 1) / m)) in
  if length seps =? splits + 1 then removelast seps ++ [n] else seps ++ [n].
(** the mask of part i — utils.py:185-189 *)
Definition mask (n : nat) (seps : list nat) (i : nat) : list bool :=
  map (fun p => (nth i seps 0 <=? p) && (p <? nth (S i) seps 0)) (seq 0 n).
(** split — utils.py:138-215; [None] if it raises *)
Definition split (splits : nat) (overlap : bool) (train : dict) (valid : option dict) : option (list (dict * option dict)) :=
  let n := length train in
  let keys := map fst train in
  if splits =? 1 then all_some [pick_both train valid keys]
  else if (splits =? 0) || (n / splits =? 0) then None
  else let seps := separators n splits in
       all_some (map (fun i => let mk := mask n seps i in
                               pick_both train valid (keep (if overlap then map negb mk else mk) keys)) (seq 0 splits)).
End Split.

(** ** Cutting off a validation part *)
Record lens := { input_window : nat; fcst_window : nat; fcst_step_num : nat; min_training_step_num : nat; step_length : nat;
                 validation_step_num : nat; seasonality : nat }.
Inductive gmode := Train | Test.
(** the length of the validation part and the length a series needs — utils.py:1603-1617 *)
Definition valid_length (p : lens) (m : gmode) (valid_set : bool) : nat :=
  match m with
  | Train => if valid_set then fcst_window p * validation_step_num p else 0
  | Test => fcst_step_num p * fcst_window p
  end.
Definition needed (p : lens) (m : gmode) (valid_set : bool) : nat :=
  match m with
  | Train => input_window p + fcst_window p * fcst_step_num p + min_training_step_num p * step_length p + valid_length p m valid_set
  | Test => valid_length p m valid_set + seasonality p
  end.
(** ts[:-k] and ts[-k:] for a positive k *)
Definition but_last {A} (k : nat) (l : list A) : list A := firstn (length l - k) l.
Definition last_part {A} (k : nat) (l : list A) : list A := skipn (length l - k) l.
(** gmpreprocess — utils.py:1584-1643: the training and the validation series by key; [None] if it raises *)
Fixpoint preprocess (p : lens) (m : gmode) (valid_set : bool) (freq : Z) (data : list (nat * list row))
    : option (list (nat * list row) * list (nat * list row)) :=
  match data with
  | [] => Some ([], [])
  | (k, ts0) :: rest =>
      match fill_missing ts0 (seasonality p) freq, preprocess p m valid_set freq rest with
      | Some ts, Some (tr, va) =>
          if needed p m valid_set <=? length ts then
            if valid_set then Some ((k, but_last (valid_length p m valid_set) ts) :: tr, (k, last_part (valid_length p m valid_set) ts) :: va)
            else Some ((k, ts) :: tr, va)
          else Some (tr, va)
      | _, _ => None
      end
  end.

(** ** Padding *)
(** pad_ts — utils.py:1675-1705; [None]: n < 1, or no value to pad with.  The new row comes last and TimeSeriesData sorts by
    time; its time lies before all others. *)
Definition pad_ts (ts : list row) (n : Z) (freq : Z) : option (list row) :=
  if (n <? 1)%Z then None else
  match ts, flat_map (fun r => match snd r with Some v => [v] | None => [] end) ts with
  | (t0, _) :: _, v :: _ => Some ((t0 - n * freq, Some v)%Z :: ts)
  | _, _ => None
  end.
