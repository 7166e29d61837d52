(** What the hourly ratio detector is meant to compute. *)
From Verif Require Import Common MedianSpec.
From Coq Require Import Permutation Sorted.
Open Scope Z_scope.

(** the non-missing observations with a time in [lo, hi), in the order given *)
Fixpoint seen_between (lo hi : Z) (data : list (Z * option Q)) : list (Z * Q) :=
  match data with
  | [] => []
  | (t, Some v) :: r => if (lo <=? t) && (t <? hi) then (t, v) :: seen_between lo hi r else seen_between lo hi r
  | (t, None) :: r => seen_between lo hi r
  end.
(** those of day d, counted from 1970-01-01, and those of hour h of day d *)
Definition seen (data : list (Z * option Q)) (d : Z) : list (Z * Q) :=
  seen_between (d * 86400000000000) ((d + 1) * 86400000000000) data.
Definition seen_hour (data : list (Z * option Q)) (d h : Z) : list (Z * Q) :=
  seen_between ((24 * d + h) * 3600000000000) ((24 * d + h + 1) * 3600000000000) data.
Definition total (l : list (Z * Q)) : Q := qsum (map snd l).
Definition chronological (l : list (Z * Q)) : Prop := StronglySorted Z.le (map fst l).

(** the share of v in a total: missing when the total is zero *)
Definition share_of (v tot : Q) (r : option Q) : Prop :=
  ((tot == 0)%Q /\ r = None) \/ (~ (tot == 0)%Q /\ exists x, r = Some x /\ (x * tot == v)%Q).
(** the aggregate of a non-empty group *)
Definition minimum_of (l : list Q) (v : Q) : Prop := In v l /\ forall x, In x l -> (v <= x)%Q.
Definition maximum_of (l : list Q) (v : Q) : Prop := In v l /\ forall x, In x l -> (x <= v)%Q.
Definition mean_of (l : list Q) (v : Q) : Prop := (v * inject_Z (Z.of_nat (length l)) == qsum l)%Q.
(** the day of the week, Monday = 0: 1970-01-01 (day 0) was a Thursday *)
Definition falls_on (w d : Z) : Prop := exists k, d = 7 * k + w - 3 /\ 0 <= w < 7.
(** the quadratic form x' P x *)
Definition quadratic (p : list (list Q)) (x : list Q) : Q :=
  sumn (length x) (fun i => sumn (length x) (fun j => nth i x 0 * (nth j (nth i p []) 0 * nth j x 0))%Q).
(** the number in a cell, 0 for a missing one *)
Definition number (o : option Q) : Q := match o with Some x => x | None => 0%Q end.
