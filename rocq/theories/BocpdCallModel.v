(** Model of a whole call of BOCPD — kats/detectors/bocpd.py:285-680: the choice of the priors by a
    search, the construction of the predictive model, the change points of every series and their
    grouping; and of the empirical priors of the normal model, bocpd.py:1206-1342.

    The predictive densities are a parameter [build] of what the three models read from the parameter
    object: which model, [known_prec_multiplier], and whether [setup()] has been called.  It gives the
    density of point [t] of column [c] for run length [r], or [None] if the model raises.  The other
    fields of the parameter object never change and are part of [build].  Log probabilities are
    modelled by probabilities, as in BocpdModel. *)
From Verif Require Import Common BocpdModel.
Require Import String.
Require Import List. Import ListNotations.
Open Scope nat_scope.

Inductive model_type := NormalKnown | TrendChange | Poisson.
Definition eqb_type (a b : model_type) : bool :=
  match a, b with NormalKnown, NormalKnown => true | TrendChange, TrendChange => true | Poisson, Poisson => true | _, _ => false end.
Inductive search_method := Random | Gridsearch | OtherSearch.
Definition arm := list (string * Q).
(** BOCPDModelParameters and its three subclasses — bocpd.py:126-258 *)
Record params := { kind : model_type; cp_prior : Q; multiplier : Q; method : search_method }.
Fixpoint lookup {A} (k : string) (l : list (string * A)) : option A :=
  match l with [] => None | (n, v) :: r => if String.eqb n k then Some v else lookup k r end.
Definition or_else {A} (o : option A) (d : A) : A := match o with Some x => x | None => d end.
(** [set_prior] — bocpd.py:149-163 and, for the normal model, 196-216 *)
Definition set_prior (p : params) (a : arm) : params :=
  {| kind := kind p; cp_prior := or_else (lookup "cp_prior" a) (cp_prior p);
     multiplier := match kind p with NormalKnown => or_else (lookup "known_prec_multiplier" a) (multiplier p) | _ => multiplier p end;
     method := method p |}.
(** the series, with the names of its columns and the times of its rows *)
Record series := { names : list string; times : list Z; univariate : bool }.
Definition is_multivariate (m : model_type) : bool := match m with NormalKnown => true | _ => false end.
Definition builder := model_type -> Q -> bool -> option (nat -> nat -> nat -> Q).

(** [eval_fn] — bocpd.py:584-615.  The score is the mean over the columns of sums of logarithms: here
    the product over the columns, the exponential of that mean times the number of columns.  The
    search object does not aggregate run lengths and has lag 3, out of bounds for three points or
    fewer (IndexError). *)
Fixpoint qprod (l : list Q) : Q := match l with [] => 1%Q | x :: t => (x * qprod t)%Q end.
Definition eval_fn (build : builder) (d : series) (p : params) (a : arm) : option Q :=
  match lookup "cp_prior" a with
  | None => None
  | Some h =>
      let p' := set_prior p a in
      match build (kind p') (multiplier p') false with
      | None => None
      | Some pred =>
          if 3 <? List.length (times d)
          then Some (qprod (map (fun c => posterior_predictive h (pred c) (List.length (times d))) (seq 0 (List.length (names d)))))
          else None
      end
  end.
(** all scores, in the order of the tries; one exception ends the search *)
Fixpoint scores (f : arm -> option Q) (l : list arm) : option (list (arm * Q)) :=
  match l with
  | [] => Some []
  | a :: r => match f a, scores f r with Some q, Some s => Some ((a, q) :: s) | _, _ => None end
  end.
(** [sort_values(by="mean", ascending=False)] and its first row *)
Fixpoint best (l : list (arm * Q)) : option (arm * Q) :=
  match l with
  | [] => None
  | x :: r => match best r with
              | None => Some x
              | Some y => if Qle_bool (snd y) (snd x) then Some x else Some y
              end
  end.
(** [_choose_priors] — bocpd.py:506-582.  [arms] are the values tried by the search (all for a grid,
    twelve draws for the random search); [None]: an exception. *)
Definition choose_priors (build : builder) (d : series) (arms : list arm) (p : params) : option (Q * params) :=
  match method p with
  | OtherSearch => None
  | _ => match scores (eval_fn build d p) arms with
         | None => None
         | Some s => match best s with
                     | None => None
                     | Some (a, _) => match lookup "cp_prior" a with
                                      | None => None
                                      | Some h => Some (h, set_prior p a)
                                      end
                     end
         end
  end.
(** BOCPDChangePoint — bocpd.py:84-124 *)
Record change := { at_time : Z; to_time : Z; confidence : Q; by_model : model_type; series_name : string }.
(** one series of the results — bocpd.py:441-456 *)
Definition changes_of (d : series) (m : model_type) (name : string) (o : output) : list change :=
  map (fun i => {| at_time := nth i (times d) 0%Z; to_time := nth i (times d) 0%Z; confidence := nth i (change_prob o) 0%Q;
                   by_model := m; series_name := name |}) (change_points o).
Fixpoint all_some {A} (l : list (option A)) : option (list A) :=
  match l with
  | [] => Some []
  | Some x :: t => match all_some t with Some r => Some (x :: r) | None => None end
  | None :: _ => None
  end.
(** what a call leaves: the change points, the probabilities of [get_change_prob], the matrices of
    [get_run_length_matrix] and the caller's parameter object *)
Record result := { changes : list change; probs : list (string * list Q); matrices : list (string * list (list Q)); after : params }.
(** [detector] — bocpd.py:310-459; thresholds and priors are one number for all series *)
Definition call (build : builder) (d : series) (arms : list arm) (m : model_type) (p : params) (lag : nat)
    (choose : bool) (prior threshold : Q) (agg : bool) : option result :=
  if negb (eqb_type (kind p) m) then None else
  match (if choose then choose_priors build d arms p else Some (prior, p)) with
  | None => None
  | Some (h, p') =>
      if negb (univariate d) && negb (is_multivariate m) then None else
      match build m (multiplier p') true with
      | None => None
      | Some pred =>
          match all_some (map (fun c => detector agg threshold h lag (pred c) (List.length (times d))) (seq 0 (List.length (names d)))) with
          | None => None
          | Some os => Some {| changes := concat (map (fun no => changes_of d m (fst no) (snd no)) (combine (names d) os));
                               probs := map (fun no => (fst no, change_prob (snd no))) (combine (names d) os);
                               matrices := map (fun no => (fst no, run_length_prob (snd no))) (combine (names d) os);
                               after := p' |}
          end
      end
  end.
(** [group_changepoints_by_timeseries] — bocpd.py:617-646: a dict of the names; [None] for a change
    point with another name (KeyError) *)
Fixpoint append_to (c : change) (g : list (string * list change)) : option (list (string * list change)) :=
  match g with
  | [] => None
  | (n, l) :: r => if String.eqb n (series_name c) then Some ((n, l ++ [c]) :: r)
                   else match append_to c r with Some r' => Some ((n, l) :: r') | None => None end
  end.
Definition group (d : series) (cs : list change) : option (list (string * list change)) :=
  fold_left (fun acc c => match acc with Some g => append_to c g | None => None end) cs (Some (map (fun n => (n, [])) (names d))).

(** ** Empirical priors of the normal model — [_find_empirical_prior], bocpd.py:1299-1342 *)
Definition qmean (l : list Q) : Q := (qsum l / inject_Z (Z.of_nat (List.length l)))%Q.
(** pandas' [var]: the sum of squared deviations over one less than the count *)
Definition qvar (l : list Q) : Q :=
  (qsum (map (fun x => (x - qmean l) * (x - qmean l)) l) / inject_Z (Z.of_nat (List.length l - 1)))%Q.
(** [rolling(10).var()[9:]] *)
Definition windows (l : list Q) : list Q := map (fun i => qvar (firstn 10 (skipn i l))) (seq 0 (List.length l - 9)).
(** mu_0, lambda_0 and lambda_val; [None] for fewer than ten points (check_data raises, 1143-1162)
    and for a division by zero (infinity) *)
Definition qinv (c x : Q) : option Q := if Qeq_bool x 0 then None else Some (c / x)%Q.
Definition empirical (mult : Q) (l : list Q) : option (Q * Q * Q) :=
  if List.length l <? 10 then None else
  match qinv 1 (qvar l), qinv mult (qmean (windows l)) with
  | Some l0, Some lv => Some (qmean l, l0, lv)
  | _, _ => None
  end.
