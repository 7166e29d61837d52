(** Model of loading a serialized Prophet model — kats/detectors/prophet_detector.py:317-328, 410-420.

    A text is a list of characters (bytes).  The parser of the library is a parameter; [None] is its TypeError. *)
From Coq Require Import List Ascii Bool Arith.
Import ListNotations.
Open Scope char_scope.

Definition is (c x : ascii) : bool := Ascii.eqb c x.
(** \d and \w of a pattern of bytes *)
Definition digit (c : ascii) : bool := let n := nat_of_ascii c in ((48 <=? n) && (n <=? 57))%nat%bool.
Definition word (c : ascii) : bool :=
  let n := nat_of_ascii c in (digit c || ((65 <=? n) && (n <=? 90)) || ((97 <=? n) && (n <=? 122)) || (n =? 95))%nat%bool.
Definition quote : ascii := ascii_of_nat 34.
Definition backslash : ascii := ascii_of_nat 92.

Fixpoint span (p : ascii -> bool) (l : list ascii) : list ascii * list ascii :=
  match l with [] => ([], []) | c :: l' => if p c then let (a, b) := span p l' in (c :: a, b) else ([], l) end.
(** \d+ when a character that is no digit must follow: no backtracking *)
Definition digits (l : list ascii) : option (list ascii * list ascii) :=
  match span digit l with ([], _) => None | (ds, r) => Some (ds, r) end.
Definition lit (c : ascii) (l : list ascii) : option (list ascii) :=
  match l with x :: r => if is c x then Some r else None | [] => None end.
Definition bind {A B} (o : option A) (f : A -> option B) : option B := match o with Some a => f a | None => None end.
(** digits and the character after them *)
Definition field (c : ascii) (l : list ascii) : option (list ascii * list ascii) :=
  bind (digits l) (fun p => bind (lit c (snd p)) (fun r => Some (fst p ++ [c], r))).
(** the pattern up to the fraction of the second — line 324: the text before the fraction, its digits, and the rest *)
Definition stamp (l : list ascii) : option (list ascii * list ascii * list ascii) :=
  bind (lit quote l) (fun l =>
  bind (field "-" l) (fun y => bind (field "-" (snd y)) (fun m => bind (field "T" (snd m)) (fun d =>
  bind (field ":" (snd d)) (fun h => bind (field ":" (snd h)) (fun mi => bind (field "." (snd mi)) (fun s =>
  bind (digits (snd s)) (fun f =>
  Some (quote :: fst y ++ fst m ++ fst d ++ fst h ++ fst mi ++ fst s, fst f, snd f))))))))).
(** the end of the pattern, a \w, a backslash and a quotation mark — line 324: the first group of the match and the text after it.  \d+ first takes all the digits;
    if no \w follows, it gives one back *)
Definition match_at (l : list ascii) : option (list ascii * list ascii) :=
  bind (stamp l) (fun p =>
  let '(h, f, r) := p in
  match r with
  | c :: b :: q :: r' =>
      if word c && is backslash b && is quote q then Some (h ++ f, r')
      else if is backslash c && is quote b && (2 <=? List.length f)%nat then Some (h ++ removelast f, q :: r') else None
  | [c; b] => if is backslash c && is quote b && (2 <=? List.length f)%nat then Some (h ++ removelast f, []) else None
  | _ => None
  end).
(** re.sub — line 326: the first group, a backslash and a quotation mark (an unknown escape of a template stands for itself).  The number bounds the
    characters left *)
Fixpoint sub (n : nat) (l : list ascii) : list ascii :=
  match n, l with
  | S n, c :: t => match match_at l with Some (g, r) => g ++ backslash :: quote :: sub n r | None => c :: sub n t end
  | _, _ => l
  end.
Definition strip (l : list ascii) : list ascii := sub (List.length l) l.
(** load_model_from_json — lines 317-328 *)
Definition load {M} (parse : list ascii -> option M) (localize : M -> M) (text : list ascii) : option M :=
  match parse text with Some m => Some m | None => option_map localize (parse (strip text)) end.
