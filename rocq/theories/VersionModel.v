(** Versions of libraries — kats/compat/compat.py:26-110 — compared by the keys of the packaging library (PEP 440).

    Parsing is left out: a parsed version has an epoch, a release, and optionally a pre-release (letter 0, 1, 2 for a, b, rc
    and number), a post-release, a development number and local segments (numbers or strings, the latter as lists of character
    codes).  A string argument is looked up as the name of a library first. *)
From Coq Require Import List Arith Bool.
Import ListNotations.

Inductive segment := Num (n : nat) | Word (w : list nat).
Record version := Ver { epoch : nat; release : list nat; pre : option (nat * nat); post : option nat; dev : option nat; local : option (list segment) }.
(** packaging's Infinity and NegativeInfinity around the values *)
Inductive ext (A : Type) := NegInf | Fin (a : A) | Inf.
Arguments NegInf {A}. Arguments Fin {A} a. Arguments Inf {A}.
(** packaging.version._cmpkey *)
Fixpoint drop_zeros (l : list nat) : list nat := match l with 0 :: t => drop_zeros t | _ => l end.
Definition key_release (v : version) : list nat := rev (drop_zeros (rev (release v))).
Definition key_pre (v : version) : ext (nat * nat) :=
  match pre v, post v, dev v with
  | None, None, Some _ => NegInf
  | None, _, _ => Inf
  | Some p, _, _ => Fin p
  end.
Definition key_post (v : version) : ext nat := match post v with None => NegInf | Some n => Fin n end.
Definition key_dev (v : version) : ext nat := match dev v with None => Inf | Some n => Fin n end.
Definition key_segment (s : segment) : ext nat * list nat := match s with Num n => (Fin n, []) | Word w => (NegInf, w) end.
Definition key_local (v : version) : ext (list (ext nat * list nat)) :=
  match local v with None => NegInf | Some l => Fin (map key_segment l) end.
(** Python's comparisons of numbers, infinities, tuples *)
Definition cmp_ext {A} (c : A -> A -> comparison) (x y : ext A) : comparison :=
  match x, y with
  | NegInf, NegInf => Eq | NegInf, _ => Lt | _, NegInf => Gt
  | Fin a, Fin b => c a b
  | Fin _, Inf => Lt | Inf, Fin _ => Gt | Inf, Inf => Eq
  end.
Definition then_cmp (c d : comparison) : comparison := match c with Eq => d | _ => c end.
Definition cmp_pair {A B} (c : A -> A -> comparison) (d : B -> B -> comparison) (x y : A * B) : comparison :=
  then_cmp (c (fst x) (fst y)) (d (snd x) (snd y)).
Fixpoint cmp_list {A} (c : A -> A -> comparison) (x y : list A) : comparison :=
  match x, y with
  | [], [] => Eq | [], _ => Lt | _, [] => Gt
  | a :: x, b :: y => then_cmp (c a b) (cmp_list c x y)
  end.
Definition cmp_key (v w : version) : comparison :=
  then_cmp (Nat.compare (epoch v) (epoch w))
    (then_cmp (cmp_list Nat.compare (key_release v) (key_release w))
      (then_cmp (cmp_ext (cmp_pair Nat.compare Nat.compare) (key_pre v) (key_pre w))
        (then_cmp (cmp_ext Nat.compare (key_post v) (key_post w))
          (then_cmp (cmp_ext Nat.compare (key_dev v) (key_dev w))
            (cmp_ext (cmp_list (cmp_pair (cmp_ext Nat.compare) (cmp_list Nat.compare))) (key_local v) (key_local w)))))).
(** __lt__, __le__, __eq__, __ge__, __gt__, __ne__ — compat.py:71-96 *)
Inductive op := LT | LE | EQ | GE | GT | NE.
Definition holds (o : op) (c : comparison) : bool :=
  match o, c with
  | LT, Lt => true | LE, (Lt | Eq) => true | EQ, Eq => true | GE, (Gt | Eq) => true | GT, Gt => true | NE, (Lt | Gt) => true
  | _, _ => false
  end.
Section Names.
Variable text : Type.
(** importlib.metadata.version and pv.parse; the latter raises for texts that are not versions *)
Variable installed : text -> option text.
Variable parse : text -> option version.
(** [statsmodels] and [sklearn] report their version through an attribute — compat.py:54-62 *)
Variable special : text -> option text.
(** _parse — compat.py:53-69 *)
Definition parse_name (s : text) : option version :=
  match special s with
  | Some v => parse v
  | None => match installed s with Some v => parse v | None => parse s end
  end.
(** what can be compared: a text, a version, anything else (NotImplemented) *)
Inductive operand := Text (s : text) | Parsed (v : version) | Other.
(** __init__ — compat.py:38-51 *)
Definition make (x : operand) : option version :=
  match x with Text s => parse_name s | Parsed v => Some v | Other => None end.
(** _compare — compat.py:98-107: None where it raises or returns NotImplemented *)
Definition compare_versions (o : op) (self : version) (other : operand) : option bool :=
  match other with
  | Other => None
  | _ => match make other with Some w => Some (holds o (cmp_key self w)) | None => None end
  end.
End Names.
