(** Model of the dynamic time warping change point detector (kats/detectors/dtwcpd.py).

    Values are rationals.  Simplification: distances are kept squared (the code takes
    [np.sqrt] of both the distance and the bound at the end, which preserves every
    comparison); an infinite distance is [None]. *)
From Verif Require Import Common.
Open Scope nat_scope.

(** ** Extended comparison: None is infinity *)
Definition elt (a b : option Q) : bool :=
  match a, b with
  | Some x, Some y => negb (Qle_bool y x)
  | Some _, None => true
  | None, _ => false
  end.
Definition emin (a b : option Q) : option Q := if elt b a then b else a.

(** ** DTWDistance — dtwcpd.py:218-244 *)

(** The dictionary [DTW]; key (i, j) of the code is (i+1, j+1) here. *)
Definition table := nat -> nat -> option Q.
Definition init_table : table := fun i j => match i, j with O, O => Some 0%Q | _, _ => None end.
Definition set_cell (T : table) (i j : nat) (v : option Q) : table :=
  fun a b => if Nat.eqb a i && Nat.eqb b j then v else T a b.

(** [(s1[i] - s2[j]) ** 2] *)
Definition sq_diff (s1 s2 : list Q) (i j : nat) : Q :=
  let d := (nth i s1 0 - nth j s2 0)%Q in (d * d)%Q.

(** one assignment of the inner loop — dtwcpd.py:240-243 *)
Definition dtw_cell (s1 s2 : list Q) (i : nat) (T : table) (j : nat) : table :=
  set_cell T (S i) (S j)
    (option_map (Qplus (sq_diff s1 s2 i j))
       (emin (emin (T i (S j)) (T (S i) j)) (T i j))).

(** [range(max(0, i - w), min(len(s2), i + w))] — dtwcpd.py:239 *)
Definition band_range (w n2 i : nat) : list nat :=
  let lo := i - w in let hi := Nat.min n2 (i + w) in seq lo (hi - lo).

Definition dtw_row (s1 s2 : list Q) (w : nat) (T : table) (i : nat) : table :=
  fold_left (dtw_cell s1 s2 i) (band_range w (length s2) i) T.

(** dtwcpd.py:231: the band is at least the difference of the lengths *)
Definition band_width (s1 s2 : list Q) (w : nat) : nat :=
  Nat.max w ((length s1 - length s2) + (length s2 - length s1)).

Definition dtw (s1 s2 : list Q) (w : nat) : option Q :=
  fold_left (dtw_row s1 s2 (band_width s1 s2 w)) (seq 0 (length s1)) init_table
            (length s1) (length s2).

(** ** LB_Keogh — dtwcpd.py:246-274 *)

(** Python's [min]/[max] of a list; None is the ValueError for an empty one. *)
Fixpoint list_min (l : list Q) : option Q :=
  match l with
  | [] => None
  | x :: t => match list_min t with
              | None => Some x
              | Some m => Some (if Qle_bool x m then x else m)
              end
  end.
Fixpoint list_max (l : list Q) : option Q :=
  match l with
  | [] => None
  | x :: t => match list_max t with
              | None => Some x
              | Some m => Some (if Qle_bool m x then x else m)
              end
  end.

(** [s2[max(ind - w, 0) : ind + w]] *)
Definition keogh_window (s2 : list Q) (w ind : nat) : list Q :=
  let lo := ind - w in firstn (ind + w - lo) (skipn lo s2).

(** the contribution of one point of s1 *)
Definition keogh_term (s2 : list Q) (w ind : nat) (x : Q) : option Q :=
  match list_min (keogh_window s2 w ind), list_max (keogh_window s2 w ind) with
  | Some lower, Some upper =>
      Some (if Qle_bool x upper
            then if Qle_bool lower x then 0%Q else ((x - lower) * (x - lower))%Q
            else ((x - upper) * (x - upper))%Q)
  | _, _ => None
  end.
Fixpoint keogh_from (s2 : list Q) (w ind : nat) (s1 : list Q) (acc : Q) : option Q :=
  match s1 with
  | [] => Some acc
  | x :: t => match keogh_term s2 w ind x with
              | None => None
              | Some d => keogh_from s2 w (S ind) t (acc + d)%Q
              end
  end.
Definition lb_keogh (s1 s2 : list Q) (w : nat) : option Q := keogh_from s2 w 0 s1 0%Q.

(** ** Nearest neighbour search — dtwcpd.py:276-347 *)

(** [min(l, key=distance)] / [max(l, key=distance)]: the first extreme element; None is
    the ValueError for an empty list. *)
Section Extreme.
  Context {A : Type} (key : A -> option Q).
  Fixpoint first_min_from (best : A) (l : list A) : A :=
    match l with
    | [] => best
    | x :: t => first_min_from (if elt (key x) (key best) then x else best) t
    end.
  Definition first_min (l : list A) : option A :=
    match l with [] => None | x :: t => Some (first_min_from x t) end.
  Fixpoint first_max_from (best : A) (l : list A) : A :=
    match l with
    | [] => best
    | x :: t => first_max_from (if elt (key best) (key x) then x else best) t
    end.
  Definition first_max (l : list A) : option A :=
    match l with [] => None | x :: t => Some (first_max_from x t) end.
End Extreme.

(** subsequences of one series: start index and values; all series by name *)
Definition subs := list (nat * list Q).
Definition all_subs := list (nat * subs).

(** [DTWSubsequenceMatch] — dtwcpd.py:76-82 *)
Record dmatch := MkMatch {
  m_name : nat; m_index : nat; o_name : nat; o_index : nat; m_dist : option Q }.

(** the overlap test — dtwcpd.py:297-307 *)
Definition overlap (win inda indb : nat) : bool :=
  (Nat.leb indb inda && Nat.leb inda (indb + win - 1))
  || (Nat.leb indb (inda + win - 1) && Nat.leb (inda + win - 1) (indb + win - 1)).

(** candidates for a subsequence, in loop order — dtwcpd.py:288-308 *)
Definition candidates (win : nat) (same : bool) (all : all_subs) (name inda : nat)
  : list (nat * nat * list Q) :=
  flat_map (fun b =>
    if negb (Nat.eqb name (fst b)) || same then
      map (fun s => (fst b, fst s, snd s))
          (filter (fun s => negb (Nat.eqb name (fst b) && overlap win inda (fst s))) (snd b))
    else []) all.

(** the pruned inner loop — dtwcpd.py:310-337; None is a ValueError of [LB_Keogh] *)
Fixpoint pruned (a : list Q) (name inda : nat) (cands : list (nat * nat * list Q))
         (bsf : option Q) : option (list dmatch) :=
  match cands with
  | [] => Some []
  | (nb, ib, b) :: t =>
      let w := length b / 3 in
      match lb_keogh a b w with
      | None => None
      | Some lb =>
          let d := if elt (Some lb) bsf then dtw a b w else None in
          let bsf' := if elt d bsf then d else bsf in
          option_map (cons (MkMatch name inda nb ib d)) (pruned a name inda t bsf')
      end
  end.

(** closest match of one subsequence: None = exception, Some None = no candidate *)
Definition closest (win : nat) (same : bool) (all : all_subs) (name inda : nat) (a : list Q)
  : option (option dmatch) :=
  option_map (first_min m_dist) (pruned a name inda (candidates win same all name inda) None).

(** Python's loop, stopping at an exception *)
Fixpoint mapM {A B} (f : A -> option B) (l : list A) : option (list B) :=
  match l with
  | [] => Some []
  | x :: t => match f x with
              | None => None
              | Some y => option_map (cons y) (mapM f t)
              end
  end.
Fixpoint keep_some {A} (l : list (option A)) : list A :=
  match l with [] => [] | Some x :: t => x :: keep_some t | None :: t => keep_some t end.

(** [_calculate_distances_for_all_subsequences] — dtwcpd.py:276-347 *)
Definition farthest_of (win : nat) (same : bool) (all : all_subs) (a : nat * subs)
  : option (nat * dmatch) :=
  match mapM (fun s => closest win same all (fst a) (fst s) (snd s)) (snd a) with
  | None => None
  | Some l => option_map (pair (fst a)) (first_max m_dist (keep_some l))
  end.
Definition max_min_dists (win : nat) (same : bool) (all : all_subs)
  : option (list (nat * dmatch)) := mapM (farthest_of win same all) all.

(** ** Subsequences and anomalies *)

(** [range(0, n, step)] *)
Definition range_step (n step : nat) : list nat :=
  if Nat.eqb n 0 then [] else map (fun k => k * step) (seq 0 ((n - 1) / step + 1)).

(** [_get_nonzero_subsequences] — dtwcpd.py:186-194; needs [win >= 1], [skip >= 1] *)
Definition nonzero_subs (win skip : nat) (min_value : Q) (ts : list Q) : subs :=
  flat_map (fun ind => let s := firstn win (skipn ind ts) in
              match list_max s with
              | Some m => if negb (Qle_bool m min_value) then [(ind, s)] else []
              | None => []
              end)
           (range_step (length ts - win + 1) skip).

(** [_get_all_nonzero_subsequences] — dtwcpd.py:196-216 *)
Definition all_nonzero_subs (win skip : nat) (min_value : Q) (data : list (nat * list Q)) : all_subs :=
  filter (fun p => negb (Nat.eqb (length (snd p)) 0))
         (map (fun c => (fst c, nonzero_subs win skip min_value (snd c))) data).

(** [_find_subsequences_anomalies] — dtwcpd.py:349-378: positions of the reported series
    among the (real, not squared) distances.  [med] is the median; a zero mean deviation
    makes every score NaN, and NaN exceeds nothing. *)
Definition mean_dev (med : Q) (dists : list Q) : Q :=
  (qsum (map (fun v => Qabs (med - v)) dists) / inject_Z (Z.of_nat (length dists)))%Q.
Definition anomalous (med cutoff : Q) (dists : list Q) (v : Q) : bool :=
  let mad := mean_dev med dists in
  if Qeq_bool mad 0 then false else negb (Qle_bool (Qabs (med - v) / mad) cutoff).
Definition anomalies (med cutoff : Q) (dists : list (nat * Q)) : list (nat * Q) :=
  filter (fun p => anomalous med cutoff (map snd dists) (snd p)) dists.

(** [detector] — dtwcpd.py:146-184: the change points (series name, start index)
    returned, which are also the new [self.outliers]; [old] is the previous value.
    [rest] stands for the comparison branch, which does not look at [old].  None is an
    exception. *)
Definition detector (win skip : nat) (min_value : Q) (data : list (nat * list Q))
  (rest : all_subs -> option (list (nat * nat))) (old : list (nat * nat))
  : option (list (nat * nat)) :=
  match all_nonzero_subs win skip min_value data with
  | [] => Some old
  | [(name, ss)] =>
      match ss with
      | [] => None
      | s :: t => Some (old ++ [(name, fold_left Nat.min (map fst t) (fst s))])
      end
  | all => rest all
  end.
