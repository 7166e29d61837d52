(** Specification vocabulary for C20-C23, C77-C79, independent of [DTWModel]. *)
From Verif Require Import Common.
Open Scope nat_scope.

Definition cell := (nat * nat)%type.
(** a warping path moves by one in either or both series *)
Definition path_step (a b : cell) : Prop :=
  b = (S (fst a), snd a) \/ b = (fst a, S (snd a)) \/ b = (S (fst a), S (snd a)).
(** from the first pair to the last pair of two series of lengths n1, n2, inside [band] *)
Definition warping_path (band : cell -> Prop) (n1 n2 : nat) (p : list cell) : Prop :=
  hd_error p = Some (0, 0)
  /\ (exists q, p = q ++ [(n1 - 1, n2 - 1)])
  /\ (forall l a b r, p = l ++ a :: b :: r -> path_step a b)
  /\ Forall band p.
(** the band of width [w]: up to w behind, fewer than w ahead *)
Definition in_band (w : nat) (c : cell) : Prop := fst c <= snd c + w /\ snd c < fst c + w.
(** the cost of a path: sum of squared differences of the paired values *)
Definition path_cost (s1 s2 : list Q) (p : list cell) : Q :=
  qsum (map (fun c => let d := (nth (fst c) s1 0 - nth (snd c) s2 0)%Q in (d * d)%Q) p).

(** [r] (None = infinity) is the least cost of the paths in [P] *)
Definition least_cost (s1 s2 : list Q) (P : list cell -> Prop) (r : option Q) : Prop :=
  match r with
  | None => forall p, ~ P p
  | Some d => (exists p, P p /\ (path_cost s1 s2 p == d)%Q)
              /\ forall p, P p -> (d <= path_cost s1 s2 p)%Q
  end.

(** a <= b with None as infinity *)
Definition le_inf (a b : option Q) : Prop :=
  match a, b with _, None => True | None, Some _ => False | Some x, Some y => (x <= y)%Q end.
(** equal up to representation of rationals *)
Definition eq_inf (a b : option Q) : Prop :=
  match a, b with None, None => True | Some x, Some y => (x == y)%Q | _, _ => False end.

(** ** C22: closest and farthest windows *)
Section Nearest.
  (** the distance used to compare two windows; None is infinity *)
  Variable D : list Q -> list Q -> option Q.
  (** the windows of each series, by start index *)
  Variable all : list (nat * list (nat * list Q)).
  Variables (win : nat) (same : bool).

  Definition has_window (name ind : nat) (v : list Q) : Prop :=
    exists ss, In (name, ss) all /\ In (ind, v) ss.
  (** another series' window, or one of the same series that shares no point (when
      matching inside a series is allowed) *)
  Definition admissible (name ind name' ind' : nat) (v' : list Q) : Prop :=
    has_window name' ind' v'
    /\ (name' <> name \/ (same = true /\ (ind + win <= ind' \/ ind' + win <= ind))).
  (** all windows, series by series *)
  Definition windows : list (nat * nat * list Q) :=
    flat_map (fun b => map (fun s => (fst b, fst s, snd s)) (snd b)) all.
  (** the window (name', ind') is the first of the closest admissible ones, at distance d *)
  Definition is_nearest (name ind : nat) (v : list Q) (name' ind' : nat) (d : option Q) : Prop :=
    exists before v' after,
      windows = before ++ (name', ind', v') :: after
      /\ admissible name ind name' ind' v' /\ d = D v v'
      /\ (forall n i u, In (n, i, u) before -> admissible name ind n i u -> ~ le_inf (D v u) d)
      /\ (forall n i u, In (n, i, u) after -> admissible name ind n i u -> le_inf d (D v u)).
  (** among the windows of a series that have a candidate, (ind, name', ind') is one whose
      closest match is farthest away *)
  Definition is_farthest (name : nat) (ss : list (nat * list Q)) (ind name' ind' : nat) (d : option Q) : Prop :=
    (exists v, In (ind, v) ss /\ is_nearest name ind v name' ind' d)
    /\ forall i u n' i' e, In (i, u) ss -> is_nearest name i u n' i' e -> le_inf e d.
End Nearest.

(** ** C77 *)
(** the windows of [win] consecutive values starting at multiples of [skip] with a value
    above [low] *)
Definition active_window (win skip : nat) (low : Q) (ts : list Q) (ind : nat) (v : list Q) : Prop :=
  (exists k, ind = k * skip)
  /\ length v = win
  /\ (exists before after, ts = before ++ v ++ after /\ length before = ind)
  /\ exists x, In x v /\ (low < x)%Q.
