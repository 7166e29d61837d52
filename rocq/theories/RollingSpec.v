(** What the rolling statistics are meant to be. *)
From Verif Require Import Common MedianSpec.
From Verif Require RollingModel.
From Coq Require Import Permutation Sorted.
Open Scope nat_scope.

(** the [k] entries that end at position [p], or all entries up to [p] if there are fewer *)
Definition trailing {A} (k : nat) (l : list A) (p : nat) : list A :=
  skipn (S p - k) (firstn (S p) l).
(** the values of the rows whose time lies in [lo, hi] *)
Definition between {A} (lo hi : Z) (l : list (Z * A)) : list A :=
  map snd (filter (fun r => Z.leb lo (fst r) && Z.leb (fst r) hi) l).

(** the numbers among possibly missing values *)
Fixpoint observed (l : list (option Q)) : list Q :=
  match l with [] => [] | Some x :: t => x :: observed t | None :: t => observed t end.

(** the k-th quartile: linear interpolation at rank k(n-1)/4 of the sample in order *)
Definition quartile_of (k : nat) (l : list Q) (v : Q) : Prop :=
  exists s i r, Permutation l s /\ StronglySorted Qle s /\ k * (length l - 1) = 4 * i + r /\ r < 4
    /\ (v == nth i s 0 + inject_Z (Z.of_nat r) * (nth (S i) s 0 - nth i s 0) / 4)%Q.
Definition mean_of (l : list Q) (m : Q) : Prop := (m * inject_Z (Z.of_nat (length l)) == qsum l)%Q.
Definition variance_of (l : list Q) (v : Q) : Prop :=
  exists m, mean_of l m /\ mean_of (map (fun x => (x - m) * (x - m))%Q l) v.
Definition mad_of (l : list Q) (v : Q) : Prop :=
  exists m, median_of l m /\ median_of (map (fun x => Qabs (x - m)) l) v.
Definition iqr_of (l : list Q) (v : Q) : Prop :=
  exists a b, quartile_of 1 l a /\ quartile_of 3 l b /\ (v == b - a)%Q.

(** two possibly missing numbers, equal as numbers *)
Definition same (a b : option Q) : Prop :=
  match a, b with Some x, Some y => (x == y)%Q | None, None => True | _, _ => False end.

(** [v] = [num] / [den], with 0 for a zero denominator *)
Definition ratio (num : option Q) (den : Q) (v : option Q) : Prop :=
  ((den == 0)%Q /\ same v (Some 0%Q)) \/
  (~ (den == 0)%Q /\ match num, v with Some n, Some v => (v * den == n)%Q | None, None => True | _, _ => False end).
Definition difference (x : option Q) (c : Q) : option Q := option_map (fun x => x - c)%Q x.

(** the sign of the IQR rule: +1 at or above q3 + base*(q3-q1), -1 below q1 - base*(q3-q1) *)
Definition rule_sign (base q1 q3 x : Q) (s : Q) : Prop :=
  ((x < q1 - base * (q3 - q1))%Q /\ s = (-1)%Q) \/
  ((q1 - base * (q3 - q1) <= x)%Q /\ (q3 + base * (q3 - q1) <= x)%Q /\ s = 1%Q) \/
  ((q1 - base * (q3 - q1) <= x)%Q /\ (x < q3 + base * (q3 - q1))%Q /\ s = 0%Q).

Notation kind := RollingModel.statistic.
(** the statistic of a window whose last entry [x] is the current point; for the z-score
    [v] is z*|z| *)
Definition statistic_of (k : kind) (base : Q) (win : list (option Q)) (v : option Q) : Prop :=
  let h := observed (removelast win) in
  let x := last win None in
  match k with
  | RollingModel.Iqr => (observed win = [] /\ v = None) \/ (observed win <> [] /\ exists a, v = Some a /\ iqr_of (observed win) a)
  | RollingModel.Mad => (observed win = [] /\ v = None) \/ (observed win <> [] /\ exists a, v = Some a /\ mad_of (observed win) a)
  | RollingModel.ZScore => (h = [] /\ v = None) \/
          (h <> [] /\ exists m s2, mean_of h m /\ variance_of h s2 /\
             ratio (option_map (fun e => e * Qabs e)%Q (difference x m)) s2 v)
  | RollingModel.ModZMad => (h = [] /\ v = None) \/
          (h <> [] /\ exists m d, median_of h m /\ mad_of h d /\ ratio (difference x m) d v)
  | RollingModel.ModZIqr => (h = [] /\ v = None) \/
          (h <> [] /\ exists m d, median_of h m /\ iqr_of h d /\ ratio (difference x m) d v)
  | RollingModel.IqrMedianDeviation => (h = [] /\ v = None) \/
          (h <> [] /\ exists m q1 q3 u, median_of h m /\ quartile_of 1 h q1 /\ quartile_of 3 h q3 /\
             ratio (option_map Qabs (difference x m)) m u /\
             match x with
             | Some x => exists s, rule_sign base q1 q3 x s /\ same v (option_map (Qmult s) u)
             | None => same v (option_map (Qmult 0) u)
             end)
  end.
(** a score: the statistic times [b]; a z-score is carried squared, so its factor is b*|b| *)
Definition score_of (k : kind) (base b : Q) (win : list (option Q)) (v : option Q) : Prop :=
  exists u, statistic_of k base win u /\
    same v (option_map (Qmult (match k with RollingModel.ZScore => b * Qabs b | _ => b end)%Q) u).
(** how many points a window of [w] points takes: the current one is counted by the IQR and
    MAD and comes on top of the window otherwise *)
Definition window_points (k : kind) (w : Z) : nat :=
  match k with RollingModel.Iqr | RollingModel.Mad => Z.to_nat w | _ => Z.to_nat (w + 1) end.
