(** Pipelines: kats/utils/cupik.py.

    Step objects live in a heap: [heap l] is the state of the object at location [l], and the pipeline refers
    to objects by location.  The library's methods are parameters: assigning the attribute data, running a
    detector, removing outliers, transforming and fitting, each with the exceptions they may raise ([None]).
    Steps from scikit-learn are not modelled. *)
From Coq Require Import List String Bool Arith.
Import ListNotations.
Open Scope string_scope.
Open Scope list_scope.

(** the attributes __type__ and __subtype__ of a step object, if it has them *)
Record class := Class { c_type : option string; c_subtype : option string }.
(** model.py:46, detector.py:93, theta.py:91, trend_mk.py:176: the attributes the library's own classes set;
    every other detector inherits only "detector", every other model only "model", and TsFeatures sets none *)
Definition mk_detector := Class (Some "detector") (Some "trend_detector").
Definition other_detector := Class (Some "detector") None.
Definition theta_model := Class (Some "model") (Some "theta").
Definition other_model := Class (Some "model") None.
Definition ts_features := Class None None.

Section Pipeline.
Variables state series output features dict : Type.
Variable set_data : state -> series -> state.
Variable univariate : series -> bool.
Variable detect : dict -> state -> option (state * output).
Variable remover : state -> option (state * series).
Variable transform : state -> series -> option (state * features).
Variable fit_model : dict -> state -> option state.
Variable no_params : dict.
Variable with_pipe : dict -> dict.      (* extra_params["pipe"] = True *)

(** what the list passed from step to step contains *)
Inductive item := ISeries (d : series) | IFeatures (f : features) | IObject (l : nat).
Inductive meta := MOutput (o : output) | MFeatures (f : features).
Definition heap := nat -> state.
Definition put (h : heap) (l : nat) (s : state) : heap := fun k => if Nat.eqb k l then s else h k.

(** __detect__ — cupik.py:89-132; one object [l] stands for every element of the list of steps.  Returns the heap,
    the step's parameters, the list of data (assigned in place) and the metadata. *)
Fixpoint detect_all (remove : bool) (c : class) (l : nat) (h : heap) (p : dict) (data : list item)
    : option (heap * dict * list item * list meta) :=
  match data with
  | [] => Some (h, p, [], [])
  | ISeries d :: rest =>
      let s := set_data (h l) d in
      if univariate d then
        match c_subtype c with
        | None => None
        | Some sub =>
            let p := if String.eqb sub "outlier" then with_pipe p else p in
            match detect p s with
            | None => None
            | Some (s, o) =>
                match (if remove && String.eqb sub "outlier" then remover s else Some (s, d)) with
                | None => None
                | Some (s, d) =>
                    match detect_all remove c l (put h l s) p rest with
                    | None => None
                    | Some (h, p, data, ms) => Some (h, p, ISeries d :: data, MOutput o :: ms)
                    end
                end
            end
        end
      else None
  | _ :: _ => None
  end.
(** __transform__ — cupik.py:133-164 *)
Fixpoint transform_all (l : nat) (h : heap) (data : list item) : option (heap * list features) :=
  match data with
  | [] => Some (h, [])
  | ISeries d :: rest =>
      match transform (h l) d with
      | None => None
      | Some (s, f) => match transform_all l (put h l s) rest with None => None | Some (h, fs) => Some (h, f :: fs) end
      end
  | _ :: _ => None
  end.
(** __model__ — cupik.py:166-199 *)
Fixpoint model_all (l : nat) (h : heap) (p : dict) (data : list item) : option (heap * list item) :=
  match data with
  | [] => Some (h, [])
  | ISeries d :: rest =>
      let s := set_data (h l) d in
      if univariate d then
        match fit_model p s with
        | None => None
        | Some s => match model_all l (put h l s) p rest with None => None | Some (h, r) => Some (h, IObject l :: r) end
        end
      else None
  | _ :: _ => None
  end.

(** the state of a run: the heap, the caller's dictionary of parameters, the caller's list, the list passed on
    when it is not the caller's, and the metadata saved so far *)
Record run := Run { r_heap : heap; r_params : list (string * dict); r_caller : list item; r_own : option (list item); r_meta : list (string * list meta) }.
Definition current (r : run) : list item := match r_own r with Some l => l | None => r_caller r end.
Fixpoint lookup (n : string) (ps : list (string * dict)) : option dict :=
  match ps with [] => None | (k, p) :: t => if String.eqb k n then Some p else lookup n t end.
Fixpoint replace {A} (n : string) (p : A) (ps : list (string * A)) : list (string * A) :=
  match ps with [] => [] | (k, q) :: t => if String.eqb k n then (k, p) :: t else (k, q) :: replace n p t end.
(** a dictionary assignment *)
Fixpoint save {A} (n : string) (m : A) (ms : list (string * A)) : list (string * A) :=
  match ms with [] => [(n, m)] | (k, q) :: t => if String.eqb k n then (k, m) :: t else (k, q) :: save n m t end.
(** the list of data after a step that assigns to it in place *)
Definition in_place (r : run) (data : list item) : list item * option (list item) :=
  match r_own r with Some _ => (r_caller r, Some data) | None => (data, None) end.

(** __fit__ — cupik.py:229-267 *)
Definition run_step (remove use_features : bool) (n : string) (c : class) (l : nat) (r : run) : option run :=
  let p := match lookup n (r_params r) with Some p => p | None => no_params end in
  match c_type c with
  | None => None
  | Some t =>
      if String.eqb t "detector" then
        match detect_all remove c l (r_heap r) p (current r) with
        | None => None
        | Some (h, p, data, ms) =>
            let (caller, own) := in_place r data in
            Some (Run h (replace n p (r_params r)) caller own (save n ms (r_meta r)))
        end
      else if String.eqb t "transformer" then
        match transform_all l (r_heap r) (current r) with
        | None => None
        | Some (h, fs) => Some (Run h (r_params r) (r_caller r) (if use_features then Some (map IFeatures fs) else r_own r) (save n (map MFeatures fs) (r_meta r)))
        end
      else if String.eqb t "model" then
        match model_all l (r_heap r) p (current r) with
        | None => None
        | Some (h, res) => Some (Run h (r_params r) (r_caller r) (Some res) (r_meta r))
        end
      else None
  end.
Fixpoint run_steps (remove use_features : bool) (steps : list (string * (class * nat))) (r : run) : option run :=
  match steps with
  | [] => Some r
  | (n, (c, l)) :: rest => match run_step remove use_features n c l r with None => None | Some r => run_steps remove use_features rest r end
  end.
(** fit — cupik.py:269-329, with a list of series, or a single one (first result, IndexError impossible) *)
Definition fit (remove use_features : bool) (steps : list (string * (class * nat))) (params : list (string * dict)) (h : heap) (data : list series) : option run :=
  run_steps remove use_features steps (Run h params (map ISeries data) None []).
Definition fit_one (remove use_features : bool) (steps : list (string * (class * nat))) (params : list (string * dict)) (h : heap) (d : series) : option (run * item) :=
  match run_steps remove use_features steps (Run h params [] (Some [ISeries d]) []) with
  | None => None
  | Some r => match current r with [] => None | x :: _ => Some (r, x) end
  end.
End Pipeline.
Arguments ISeries {series features}.
Arguments IFeatures {series features}.
Arguments IObject {series features}.
Arguments MOutput {output features}.
Arguments MFeatures {output features}.
Arguments Run {state series output features dict}.
Arguments r_heap {state series output features dict}.
Arguments r_params {state series output features dict}.
Arguments r_caller {state series output features dict}.
Arguments r_own {state series output features dict}.
Arguments r_meta {state series output features dict}.
Arguments current {state series output features dict}.
