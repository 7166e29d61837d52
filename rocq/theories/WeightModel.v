(** kats/detectors/interval_detector.py:907-1116: the probability of a run of rejections of correlated tests.

    Simplifications: the normal integral is a parameter: [mvn k lower upper] is _mvn_mvnun for the covariances cov[k:, k:], the
    probability that the test statistics number k, k+1, ... lie between the bounds.  [z] is z_crit.  Numbers are real. *)
From Coq Require Import Reals.
From Coq Require Import List ZArith Bool.
Import ListNotations.
Open Scope R_scope.

Inductive ext := NegInf | Fin (r : R) | PosInf.
Inductive test_type := Upper | Lower | TwoSided.

(** np.array([a] * (m - 1) + [b]) *)
Definition but_last {A} (m : nat) (a b : A) : list A := repeat a (m - 1) ++ [b].
(** range(m - 1, -1, -1) *)
Definition down (m : nat) : list nat := rev (seq 0 m).

(** interval_detector.py:972-1001 (_w_one_tailed) *)
Definition w_one_tailed (mvn : nat -> list ext -> list ext -> R) (m : nat) (z : R) (t : test_type) : option (list R) :=
  match t with
  | Upper =>
      let fl := but_last m (Fin z) NegInf in let fu := but_last m PosInf (Fin z) in
      let rl := repeat (Fin z) m in let ru := repeat PosInf m in
      Some (map (fun k => mvn k (skipn k fl) (skipn k fu)) (down m) ++ [mvn 0%nat rl ru])
  | Lower =>
      let fl := but_last m NegInf (Fin (- z)) in let fu := but_last m (Fin (- z)) PosInf in
      let rl := repeat NegInf m in let ru := repeat (Fin (- z)) m in
      Some (map (fun k => mvn k (skipn k fl) (skipn k fu)) (down m) ++ [mvn 0%nat rl ru])
  | TwoSided => None
  end.

(** itertools.product("lh", repeat=n); true is "l" *)
Fixpoint product (n : nat) : list (list bool) :=
  match n with O => [[]] | S n => flat_map (fun r => map (cons r) (product n)) [true; false] end.
Definition rsum (l : list R) : R := fold_left Rplus l 0.
(** interval_detector.py:1003-1050 (_w_two_tailed) *)
Definition w_two_tailed (mvn : nat -> list ext -> list ext -> R) (m : nat) (z : R) : list R :=
  let low (r : bool) := if r then NegInf else Fin z in
  let upp (r : bool) := if r then Fin (- z) else PosInf in
  map (fun k => rsum (map (fun regions => mvn k (map low regions ++ [Fin (- z)]) (map upp regions ++ [Fin z])) (product (m - 1 - k)))) (down m)
  ++ [rsum (map (fun regions => mvn 0%nat (map low regions) (map upp regions)) (product m))].

(** interval_detector.py:967-969 (_w_independent) *)
Definition w_independent (m : nat) (p : R) : list R := map (fun k => p ^ k * (if (k <? m)%nat then 1 - p else 1)) (seq 0 (S m)).
(** interval_detector.py:1052-1064 (_w) *)
Definition weights (mvn : option (nat -> list ext -> list ext -> R)) (m : nat) (p z : R) (t : test_type) : option (list R) :=
  match mvn with
  | None => Some (w_independent m p)
  | Some mvn => match t with TwoSided => Some (w_two_tailed mvn m z) | _ => w_one_tailed mvn m z t end
  end.

(** interval_detector.py:1101-1111: the matrix A and r @ matrix_power(A, n - m + 1); the power is applied to the row step by step *)
Definition entry (m : nat) (w : list R) (i j : nat) : R :=
  if ((i =? m) && (j =? m))%nat%bool then 1
  else if ((S i =? m) && (j =? m))%nat%bool then 0
  else if (j =? 0)%nat then nth i w 0
  else if (j =? S i)%nat then 1 else 0.
Definition step (m : nat) (w : list R) (r : list R) : list R :=
  map (fun j => rsum (map (fun i => nth i r 0 * entry m w i j) (seq 0 (S m)))) (seq 0 (S m)).
Definition start (m : nat) : list R := repeat 0 m ++ [1].
(** interval_detector.py:1066-1116 *)
Definition run_probability (mvn : option (nat -> list ext -> list ext -> R)) (p z : R) (n m : nat) (t : test_type) : option R :=
  if (m =? 0)%nat then None else if (n =? 0)%nat then None else if (n <? m)%nat then None
  else match weights mvn m p z t with
       | None => None
       | Some w => Some (nth 0 (Nat.iter (n - m + 1) (step m w) (start m)) 0)
       end.
