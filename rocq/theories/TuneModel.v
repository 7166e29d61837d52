(** Parameter tuning — utils/time_series_parameter_tuning.py: the size of a search space, evaluating arms, arms within the outcome
    constraints, the nevergrad search and searches over several spaces.

    Values are exact rationals, [None] is NaN; names of parameters, metrics, arms and models are numbers.  Ax and nevergrad are
    represented by what they are asked for: Ax's factorial generator gives the combinations of the values, a pool maps in order. *)
From Coq Require Import List Bool Arith ZArith QArith.
From Verif Require Import Common.
Import ListNotations.
Open Scope nat_scope.

(** ** The search space *)
(** a dictionary of the parameter list: type "choice" with values, "fixed" with value, "range" with bounds, or with two values *)
Inductive spec := Choice (values : list Q) | Fixed (v : Q) | Range (bounds : option (list Q)) (values : option (list Q)) (int : bool).
Definition is_range (s : spec) : bool := match s with Range _ _ _ => true | _ => false end.
(** compute_search_cardinality — time_series_parameter_tuning.py:60-71; [None]: infinite *)
Definition cardinality (space : list (nat * spec)) : option nat :=
  if existsb (fun p => is_range (snd p)) space then None
  else Some (fold_left (fun res p => match snd p with Choice vs => res * length vs | _ => res end) space 1).
(** the arms of GridSearch — time_series_parameter_tuning.py:804-827 *)
Definition options (s : spec) : list Q := match s with Choice vs => vs | Fixed v => [v] | Range _ _ _ => [] end.
Fixpoint grid (space : list (nat * spec)) : list (list (nat * Q)) :=
  match space with
  | [] => [[]]
  | (n, s) :: r => flat_map (fun v => map (fun a => (n, v) :: a) (grid r)) (options s)
  end.
(** validate_parameters_format — time_series_parameter_tuning.py:376-422: [None] is the default argument, replaced by [{}] (325);
    an empty dictionary is [None] in the list *)
Definition valid_format {A} (parameters : option (list (option A))) : bool :=
  let l := match parameters with None => [None] | Some l => l end in
  negb (length l =? 0) && forallb (fun d => match d with Some _ => true | None => false end) l.

(** ** Evaluating the arms of a trial *)
Section Evaluate.
Variable A : Type.
(** what the evaluation function gives: a number, a pair, a dictionary, something else, or it raises *)
Inductive outcome := ONum (m : Q) | OPair (m s : Q) | ODict (l : list (nat * (Q * Q))) | OOther | ORaise.
Record record := { r_metric : nat; r_arm : A; r_mean : Q; r_sem : Q; r_trial : nat }.
(** evaluate_arm — time_series_parameter_tuning.py:158-211; trial_index is added at 249.  A dictionary gives a list of records *)
Definition evaluate_arm (name trial : nat) (eval : A -> outcome) (a : A) : option (record + list record) :=
  match eval a with
  | ODict l => Some (inr (map (fun kv => {| r_metric := fst kv; r_arm := a; r_mean := fst (snd kv); r_sem := snd (snd kv); r_trial := trial |}) l))
  | ONum m => Some (inl {| r_metric := name; r_arm := a; r_mean := m; r_sem := 0; r_trial := trial |})
  | OPair m s => Some (inl {| r_metric := name; r_arm := a; r_mean := m; r_sem := s; r_trial := trial |})
  | OOther | ORaise => None
  end.
Fixpoint all_some {B} (l : list (option B)) : option (list B) :=
  match l with [] => Some [] | Some x :: r => option_map (cons x) (all_some r) | None :: _ => None end.
(** lines 245-250: flattened if the first is a list; then every record is updated, which a list does not allow, and a record cannot
    be flattened into records: its keys are strings.  [None]: Err *)
Definition flatten (l : list (record + list record)) : option (list record) :=
  match l with
  | [] => None
  | inr _ :: _ => option_map (@concat _) (all_some (map (fun r => match r with inr x => Some x | inl _ => None end) l))
  | inl _ :: _ => all_some (map (fun r => match r with inl x => Some x | inr _ => None end) l)
  end.
(** the number of processes — lines 145-146, 225-229; [Serial] False, [All] True *)
Inductive multi := Serial | All | Processes (n : Z).
Definition as_int (m : multi) : Z := match m with Serial => 0 | All => -1 | Processes n => n end.
Definition processes (m : multi) (arms cpus : nat) : nat :=
  let n := if (as_int m <? 0)%Z then 150 else Z.to_nat (as_int m) in Nat.min arms (Nat.min n cpus).
(** whether a pool is used — lines 231-244; if the pool raises, it is asked again *)
Definition pooled (m : multi) (arms cpus : nat) : bool := negb (as_int m =? 0)%Z && (1 <? processes m arms cpus).
(** pool.map: worker w computes the arms w, w + k, ...; the results are put back in order *)
Definition pool_map {B C} (k : nat) (f : B -> C) (l : list B) : list C :=
  let parts := map (fun w => map (fun p => (fst p, f (snd p))) (filter (fun p => fst p mod k =? w) (combine (seq 0 (length l)) l))) (seq 0 k) in
  flat_map (fun i => map snd (filter (fun p => fst p =? i) (concat parts))) (seq 0 (length l)).
(** fetch_trial_data — time_series_parameter_tuning.py:214-254 *)
Definition fetch (name trial : nat) (m : multi) (cpus : nat) (eval : A -> outcome) (arms : list A) : option (list record) :=
  let f := evaluate_arm name trial eval in
  match all_some (if pooled m (length arms) cpus then pool_map (processes m (length arms) cpus) f arms else map f arms) with
  | Some l => flatten l
  | None => None
  end.
End Evaluate.
Arguments r_metric {A}. Arguments r_arm {A}. Arguments r_mean {A}. Arguments r_sem {A}. Arguments r_trial {A}.

(** ** Arms that satisfy the outcome constraints *)
Record constraint := { c_metric : nat; c_leq : bool; c_bound : Q }.
Record score := { s_arm : nat; s_metric : nat; s_mean : option Q }.
Definition meets (c : constraint) (v : option Q) : bool :=
  match v with Some v => if c_leq c then Qle_bool v (c_bound c) else Qle_bool (c_bound c) v | None => false end.
Definition zscores (d : list score) : list (nat * score) := combine (seq 0 (length d)) d.
(** one entry of boolean_indices — lines 600-614: a series of truth values over the rows of the metric *)
Definition checked (d : list score) (c : constraint) : list (nat * bool) :=
  map (fun r => (fst r, meets c (s_mean (snd r)))) (filter (fun r => s_metric (snd r) =? c_metric c) (zscores d)).
Definition at_index (s : list (nat * bool)) (i : nat) : option bool := option_map snd (find (fun r => fst r =? i) s).
(** x & y of pandas: the indices are aligned, what is in one of them only becomes False — line 615 *)
Definition land (x y : list (nat * bool)) : list (nat * bool) :=
  map (fun r => (fst r, snd r && match at_index y (fst r) with Some b => b | None => false end)) x ++
  map (fun r => (fst r, false)) (filter (fun r => match at_index x (fst r) with Some _ => false | None => true end) y).
(** filter_violating_arms — lines 596-621; [None]: reduce of an empty list *)
Definition legit (d : list score) (cs : list constraint) (arms : list nat) : option (list nat) :=
  match map (checked d) cs with
  | [] => None
  | s :: r =>
      let ok := fold_left land r s in
      let names := flat_map (fun p : nat * bool => if snd p then match nth_error d (fst p) with Some row => [s_arm row] | None => [] end else []) ok in
      Some (filter (fun a => existsb (Nat.eqb a) names) arms)
  end.

(** ** NevergradOptSearch *)
(** get_nevergrad_param_from_ax — lines 1235-1262: the parameters nevergrad chooses; [None]: raises *)
Inductive instrument := IChoice (values : list Q) | IScalar (lower upper : Q) (int : bool) | IConst (v : Q).
Definition instrument1 (get_fixed : bool) (s : spec) : option (list instrument) :=
  match s with
  | Choice vs => Some [IChoice vs]
  | Range (Some (a :: b :: _)) _ i => Some [IScalar a b i]
  | Range (Some _) _ _ => None
  | Range None (Some [a; b]) i => Some [IScalar a b i]
  | Range None _ _ => None
  | Fixed v => Some (if get_fixed then [IConst v] else [])
  end.
Fixpoint instrumentation (get_fixed : bool) (space : list (nat * spec)) : option (list (nat * instrument)) :=
  match space with
  | [] => Some []
  | (n, s) :: r => match instrument1 get_fixed s, instrumentation get_fixed r with
                   | Some l, Some i => Some (map (pair n) l ++ i) | _, _ => None end
  end.
(** get_fixed_param_from_ax — lines 1265-1269 *)
Definition fixed_params (space : list (nat * spec)) : list (nat * Q) := flat_map (fun p => match snd p with Fixed v => [(fst p, v)] | _ => [] end) space.
(** num_workers — lines 1323-1329 *)
Definition workers (m : multi) (cpus : nat) : nat :=
  Nat.max 1 (match m with Serial => 1 | All => cpus | Processes n => Z.to_nat (Z.min (Z.of_nat cpus) n) end).
(** the budget — lines 1330-1332 *)
Definition budget (b : Z) : Z := if (b <? 0)%Z then 100%Z else b.
(** the options after create_search_method — lines 741-749: the argument multiprocessing is never None *)
Definition factory_multi (argument options : multi) : multi := argument.
(** generate_evaluate_new_parameter_values — lines 1359-1381: [minimize f] is the point nevergrad recommends for the function f of
    the parameters it chooses; the evaluation gets the fixed ones in addition.  The parameters reported *)
Definition nevergrad (in_space : bool) (space : list (nat * spec)) (minimize : (list (nat * Q) -> Q) -> list (nat * Q)) (eval : list (nat * Q) -> Q) : list (nat * Q) :=
  let fixed := if in_space then [] else fixed_params space in
  minimize (fun p => eval (p ++ fixed)).

(** ** SearchForMultipleSpaces — lines 1384-1475 *)
Inductive method := GridM | UniformM | SobolM | BayesM | NevergradM.
Section Spaces.
Variable S : Type. (** the state of one search *)
Variable start : list (nat * spec) -> method -> option S.
Variable advance : S -> nat -> S.
(** create_search_method — lines 700-757: BAYES_OPT needs an evaluation function *)
Definition create (space : list (nat * spec)) (m : method) (has_eval : bool) : option S :=
  match m with BayesM => if has_eval then start space m else None | _ => start space m end.
(** the constructor — lines 1416-1425: no evaluation function is passed on *)
Fixpoint spaces (m : method) (l : list (nat * list (nat * spec))) : option (list (nat * S)) :=
  match l with
  | [] => Some []
  | (k, sp) :: r => match create sp m false, spaces m r with Some s, Some d => Some ((k, s) :: d) | _, _ => None end
  end.
(** generate_evaluate_new_parameter_values of one model — lines 1427-1447; [None]: KeyError *)
Definition generate (d : list (nat * S)) (k arm_count : nat) : option (list (nat * S)) :=
  if existsb (fun e => fst e =? k) d then Some (map (fun e => if fst e =? k then (k, advance (snd e) arm_count) else e) d) else None.
End Spaces.
