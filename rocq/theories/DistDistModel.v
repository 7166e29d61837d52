(** Model of the distribution distance detector
    (kats/detectors/distribution_distance_model.py).

    Values are exact rationals; exceptions are [None].  Not modelled: missing values, the
    distances themselves (scipy's cdist and jensenshannon, parameters here), the
    constructor's checks. *)
From Verif Require Import Common TSDataModel.
Open Scope Z_scope.

Definition qlt (a b : Q) : bool := negb (Qle_bool b a).

(** ** Percentiles *)

(** [_merge_percentile] — distribution_distance_model.py:59-73.  The accumulator holds
    (l1_merge, l1_perc) with its last entry first; [prev] is l1[i - 1]. *)
Fixpoint merge_go (n_perc prev : Q) (acc : list (Q * Q)) (l : list Q) : list (Q * Q) :=
  match l with
  | [] => rev acc
  | x :: t =>
      match acc with
      | [] => merge_go n_perc x [(x, n_perc)] t
      | (v, p) :: r => if qlt prev x then merge_go n_perc x ((x, n_perc) :: acc) t
                       else merge_go n_perc x ((v, p + n_perc)%Q :: r) t
      end
  end.
Definition n_perc (l : list Q) : Q := (1 / inject_Z (Z.of_nat (length l)))%Q.
Definition merge_percentile (l : list Q) : list (Q * Q) := merge_go (n_perc l) 0 [] l.

(** np.cumsum *)
Fixpoint cumsum_from (s : Q) (l : list Q) : list Q :=
  match l with [] => [] | x :: t => (s + x)%Q :: cumsum_from (s + x) t end.
Definition cumsum (l : list Q) : list Q := cumsum_from 0 l.

(** np.where(x < l2_merge)[0][0] *)
Fixpoint first_above (x : Q) (l : list Q) (i : nat) : option nat :=
  match l with [] => None | y :: t => if qlt x y then Some i else first_above x t (S i) end.
(** the loop over j — distribution_distance_model.py:112-115: the first later entry that
    differs from the first *)
Fixpoint first_other (y : Q) (l : list Q) : option Q :=
  match l with [] => None | z :: t => if Qeq_bool z y then first_other y t else Some z end.

(** The loop of [_percentile_to_prob] — distribution_distance_model.py:101-136: the
    cumulative values; after the break the remaining ones keep the initial 1.0. *)
Fixpoint projected (s2 c2 : list Q) (np : Q) (s1 : list Q) : list Q :=
  match s1 with
  | [] => []
  | x :: t =>
      match first_above x s2 0 with
      | None => repeat 1%Q (S (length t))
      | Some O =>
          (match first_other (nth 0 s2 0%Q) (tl s2) with
           | None => 0%Q
           | Some z => let v := (0 + np * (x - nth 0 s2 0) / (z - nth 0 s2 0))%Q in
                       if qlt v 0 then 0%Q else v
           end) :: projected s2 c2 np t
      | Some (S i) =>
          (let v := (nth i c2 0 + np * (x - nth i s2 0) / (nth (S i) s2 0 - nth i s2 0))%Q in
           if qlt v 0 then 0%Q else v) :: projected s2 c2 np t
      end
  end.
(** differences of the cumulative values, l. 138-139 *)
Fixpoint steps_of (prev : Q) (l : list Q) : list Q :=
  match l with [] => [] | x :: t => (x - prev)%Q :: steps_of x t end.
Definition differences (l : list Q) : list Q := match l with [] => [] | x :: t => x :: steps_of x t end.

(** [_percentile_to_prob] — distribution_distance_model.py:76-144 *)
Definition percentile_to_prob (l1 l2 : list Q) : option (list Q * list Q) :=
  if Nat.eqb (length l1) (length l2) && Nat.ltb 1 (length l1)
  then let m1 := merge_percentile l1 in
       let m2 := merge_percentile l2 in
       let project a b := differences (projected (map fst b) (cumsum (map snd b)) (n_perc l1) (map fst a)) in
       if Nat.ltb (length m1) (length m2) then Some (project m2 m1, map snd m2)
       else Some (map snd m1, project m1 m2)
  else None.

(** ** The detector *)
Section Detector.
(** [distance.cdist] of two single rows *)
Variable metric : list Q -> list Q -> option Q.
(** [distance.jensenshannon] with the base of the model *)
Variable jensenshannon : list Q -> list Q -> option Q.

Record dcfg := MkDcfg { window_size_sec : Z; is_jsd : bool; check_monotonic : bool }.
Definition ns : Z := 1000000000.
Definition vrow := (Z * list Q)%type.

Fixpoint nondecreasing (l : list Q) : bool :=
  match l with x :: t => match t with [] => true | y :: _ => Qle_bool x y && nondecreasing t end | [] => true end.
Fixpoint increasing_times (l : list Z) : bool :=
  match l with x :: t => match t with [] => true | y :: _ => (x <=? y) && increasing_times t end | [] => true end.

(** the rolling aggregation — distribution_distance_model.py:284-296: the oldest row of
    the closed window, if it is older than 0.9 windows.  Rolling over an unsorted index
    raises (see [dist_fit_predict]). *)
Definition comparator (w : Z) (all : list vrow) (t : Z) : option (list Q) :=
  match filter (fun r => t - w * ns <=? fst r) all with
  | [] => None
  | r :: _ => if 9 * (w * ns) <? 10 * (t - fst r) then Some (snd r) else None
  end.

(** [_js_div_func], and the choice of the distance —
    distribution_distance_model.py:252-255, 309-331 *)
Definition score (c : dcfg) (old new : list Q) : option (option Q) :=
  if is_jsd c
  then option_map (fun p => jensenshannon (fst p) (snd p)) (percentile_to_prob old new)
  else Some (metric old new).

(** the scores of the rows from the start on: a row without comparator raises
    ([_validate_data_granularity]), and so does a failing assertion *)
Fixpoint scores_of (c : dcfg) (all l : list vrow) : option (list (option Q)) :=
  match l with
  | [] => Some []
  | r :: t =>
      match comparator (window_size_sec c) all (fst r) with
      | None => None
      | Some o => match score c o (snd r), scores_of c all t with
                  | Some v, Some vs => Some (v :: vs)
                  | _, _ => None
                  end
      end
  end.

(** [fit_predict] — distribution_distance_model.py:257-346; the history is copied (sorted)
    before it is extended. *)
Definition dist_fit_predict (c : dcfg) (data : series (list Q)) (hist : option (series (list Q)))
  : option (series (option Q)) :=
  let total := match hist with
               | Some h => rows (append_rows (getitem h None None) data)
               | None => rows (getitem data None None)
               end in
  match total with
  | [] => None
  | r0 :: _ =>
      if last (map fst total) 0 - fst r0 <? window_size_sec c * ns then None
      else if check_monotonic c && negb (forallb (fun r => nondecreasing (snd r)) total) then None
      else if negb (increasing_times (map fst total)) then None
      else match filter (fun r => match comparator (window_size_sec c) total (fst r) with Some _ => true | None => false end) total,
                 rows data with
           | v :: _, d0 :: _ =>
               let start := Z.max (fst v) (fst d0) in
               match scores_of c total (filter (fun r => start <=? fst r) total) with
               | None => None
               | Some sc =>
                   of_columns true false (map fst (rows data))
                     (repeat (Some 0%Q) (length (rows data) - length sc) ++ sc)
               end
           | _, _ => None
           end
  end.
End Detector.
