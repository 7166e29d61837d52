(** The registry of the detector classes and isinstance on them — detectors/detector.py:37-77, with the parts of Python it relies on
    (inspect.isabstract and ABCMeta of the standard library).

    A class statement gives a name, the bases, the classes that attributes are looked up in after the class itself (the rest of its
    __mro__, which Python computes from the bases and which is an input here), the attributes in the body, each with its
    __isabstractmethod__, and the metaclass.  Classes are numbered in the order of their statements. *)
From Coq Require Import List Bool Arith String.
From Verif Require Import Common.
Import ListNotations.
Open Scope nat_scope.

(** DetectorModelRegistry, ABCMeta, type *)
Inductive meta := Reg | Abc | Plain.
Record cls := { c_name : string; c_bases : list nat; c_mro : list nat; c_own : list (string * bool); c_meta : meta }.

Fixpoint get {A} (k : string) (d : list (string * A)) : option A :=
  match d with [] => None | (k', v) :: d => if String.eqb k' k then Some v else get k d end.
Fixpoint put {A} (k : string) (v : A) (d : list (string * A)) : list (string * A) :=
  match d with [] => [(k, v)] | (k', w) :: d => if String.eqb k' k then (k', v) :: d else (k', w) :: put k v d end.
(** getattr of a class: whether the attribute found is abstract *)
Fixpoint inherited (cs : list cls) (mro : list nat) (n : string) : option bool :=
  match mro with
  | [] => None
  | b :: mro => match nth_error cs b with
                | Some c => match get n (c_own c) with Some a => Some a | None => inherited cs mro n end
                | None => inherited cs mro n
                end
  end.
Definition attribute (cs : list cls) (c : cls) (n : string) : option bool :=
  match get n (c_own c) with Some a => Some a | None => inherited cs (c_mro c) n end.
(** the abstract ones of the methods in the body, and of those in __abstractmethods__ of the bases *)
Definition own_abstract (c : cls) : list string := map fst (filter snd (c_own c)).
Definition base_abstract (cs : list cls) (abs : list (option (list string))) (c : cls) : list string :=
  flat_map (fun b => match nth_error abs b with
                     | Some (Some l) => filter (fun n => match attribute cs c n with Some a => a | None => false end) l
                     | _ => []
                     end) (c_bases c).
(** __abstractmethods__, set by ABCMeta.__new__ only: detector.py:53 calls type.__new__ instead *)
Definition abstract_methods (cs : list cls) (abs : list (option (list string))) (c : cls) : option (list string) :=
  match c_meta c with Abc => Some (own_abstract c ++ base_abstract cs abs c) | _ => None end.
(** inspect.isabstract of a class without __abstractmethods__ — detector.py:55: the body first, then __abstractmethods__ of the bases *)
Definition is_abstract (cs : list cls) (abs : list (option (list string))) (c : cls) : bool :=
  match own_abstract c ++ base_abstract cs abs c with [] => false | _ => true end.

(** the classes so far, their __abstractmethods__, and REGISTRY (detector.py:47) *)
Record state := { classes : list cls; abs : list (option (list string)); registry : list (string * nat) }.
Definition start : state := {| classes := []; abs := []; registry := [] |}.
(** a class statement; for a detector DetectorModelRegistry.__new__ — detector.py:50-61 *)
Definition define (s : state) (c : cls) : state :=
  {| classes := classes s ++ [c];
     abs := abs s ++ [abstract_methods (classes s) (abs s) c];
     registry := match c_meta c with
                 | Reg => if is_abstract (classes s) (abs s) c then registry s else put (c_name c) (List.length (classes s)) (registry s)
                 | _ => registry s
                 end |}.
Definition program (cs : list cls) : state := fold_left define cs start.
(** get_detector_model_by_name — detector.py:68-77; [None]: it raises InternalError *)
Definition by_name (s : state) (name : string) : option nat := get name (registry s).

(** ** isinstance(x, C) for a detector class C and an x of the class [o]

    ABCMeta.__instancecheck__ needs C._abc_impl, which type.__new__ does not make.  A class that has no base made by ABCMeta has
    none, and the check raises; a class that derives from ABC finds that of ABC, with its caches, and shares it with all others. *)
Record caches := { pos : list nat; neg : list nat }.
Definition no_caches : caches := {| pos := []; neg := [] |}.
Definition member (x : nat) (l : list nat) : bool := existsb (Nat.eqb x) l.
(** the __mro__ of a class *)
Definition mro_of (cs : list cls) (o : nat) : list nat := match nth_error cs o with Some c => o :: c_mro c | None => [o] end.
(** some class in the __mro__ was made by ABCMeta.__new__ *)
Definition has_impl (cs : list cls) (c : nat) : bool :=
  existsb (fun b => match nth_error cs b with Some k => match c_meta k with Abc => true | _ => false end | None => false end) (mro_of cs c).
(** isinstance: the exact class first, then the cache, the negative cache and the __mro__; [None]: AttributeError.
    C is taken to find the _abc_impl of ABC itself, the only class made by ABCMeta that detectors derive from in the library.
    Left out: register() of other classes, and issubclass on the subclasses of C, which finds nothing new. *)
Definition instance (cs : list cls) (k : caches) (o c : nat) : caches * option bool :=
  if o =? c then (k, Some true)
  else if negb (has_impl cs c) then (k, None)
  else if member o (pos k) then (k, Some true)
  else if member o (neg k) then (k, Some false)
  else if member c (mro_of cs o) then ({| pos := o :: pos k; neg := neg k |}, Some true)
  else ({| pos := pos k; neg := o :: neg k |}, Some false).
Fixpoint ask (cs : list cls) (k : caches) (l : list (nat * nat)) : caches * list (option bool) :=
  match l with
  | [] => (k, [])
  | (o, c) :: l => let '(k, a) := instance cs k o c in let '(k, r) := ask cs k l in (k, a :: r)
  end.
(** CUSUMDetectorModel.__eq__ — cusum_model.py:291-310; [same] compares two such models, [c] is the class and [o] that of other *)
Definition cusum_eq (cs : list cls) (k : caches) (c o : nat) (same : bool) : option bool :=
  option_map (fun b : bool => if b then same else false) (snd (instance cs k o c)).
