(** The Bollinger band columns of models/nowcasting/feature_extraction.py, over the reals (the standard deviation needs a
    square root).  The rolling window is the one of FeatModel. *)
From Coq Require Import Reals List.
From Verif Require Import FeatModel.
Import ListNotations.
Open Scope R_scope.

Definition rsum (l : list R) : R := fold_right Rplus 0 l.
Definition rmean (w : list R) : option R := match w with [] => None | _ => Some (rsum w / INR (length w)) end.
(** rolling(n).std(): divisor n - 1, missing for windows of one *)
Definition rstd (w : list R) : option R :=
  match w with
  | [] | [_] => None
  | _ => let m := rsum w / INR (length w) in
         Some (sqrt (rsum (map (fun x => (x - m) * (x - m)) w) / (INR (length w) - 1)))
  end.
Definition rdiv (a b : option R) : option R :=
  match a, b with Some a, Some b => if Req_EM_T b 0 then None else Some (a / b) | _, _ => None end.
(** feature_extraction.py:326-335 *)
Definition band1 (n : nat) (close : list (option R)) : list (option R) :=
  map2 rdiv (map (option_map (fun s => 4 * s)) (rolling rstd n close)) (rolling rmean n close).
Definition band2 (n : nat) (close : list (option R)) : list (option R) :=
  let ma := rolling rmean n close in
  let msd := rolling rstd n close in
  let num := map2 (fun cm s => match cm, s with Some d, Some s => Some (d + 2 * s) | _, _ => None end)
               (map2 (fun c m => match c, m with Some c, Some m => Some (c - m) | _, _ => None end) close ma) msd in
  map2 rdiv num (map (option_map (fun s => 4 * s)) msd).
