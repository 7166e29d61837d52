(** GMDataLoader of the global model — globalmodel/data_processor.py:24-178.

    A dataset is the list of its keys with the lengths of their series, in the order of the dictionary (a Python list has the
    keys 0, 1, ...); keys are numbers.  The random numbers of a regrouping are a parameter of the call: [noise] is
    np.random.uniform(0, 1, num), [perm] the order into which np.random.shuffle puts the rows.  np.argsort need not be stable;
    it is modelled by a stable sort, equal sort keys being broken by [noise] anyway. *)
From Coq Require Import List Bool Arith ZArith QArith.
Import ListNotations.
Open Scope nat_scope.

(** a stable sort by a comparison *)
Fixpoint insert_le {A} (le : A -> A -> bool) (x : A) (l : list A) : list A :=
  match l with [] => [x] | y :: t => if le x y then x :: y :: t else y :: insert_le le x t end.
Definition sort_le {A} (le : A -> A -> bool) (l : list A) : list A := fold_right (insert_le le) [] l.

Record loader := { keys : list nat; lengths : list nat; test_lengths : option (list nat); magnitude : option Q }.
(** the constructor — data_processor.py:40-78; [None] if it raises: an empty dataset (85-88), other keys in the test data *)
Definition make_loader (data : list (nat * nat)) (test : option (list (nat * nat))) (mag : Q) : option loader :=
  match data with
  | [] => None
  | _ =>
      let m := if Qle_bool mag 0 then None else Some mag in
      match test with
      | None => Some {| keys := map fst data; lengths := map snd data; test_lengths := None; magnitude := m |}
      | Some [] => None
      | Some t =>
          if negb (length data =? length t)
             || negb (length (filter (fun k => existsb (Nat.eqb k) (map fst t)) (map fst data)) =? length data)
          then None
          else Some {| keys := map fst data; lengths := map snd data; test_lengths := Some (map snd t); magnitude := m |}
      end
  end.
Definition num (L : loader) : nat := length (keys L).

Record draw := { noise : list Q; perm : list nat }.
Definition qn (n : nat) : Q := inject_Z (Z.of_nat n).
(** the sort keys of series i — data_processor.py:113 and 117-119 *)
Definition noisy_length (L : loader) (d : draw) (i : nat) : Q := (qn (nth i (lengths L) O) + nth i (noise d) 0)%Q.
Definition noisy_test (tl : list nat) (m : Q) (d : draw) (i : nat) : Q := (qn (nth i tl O) + nth i (noise d) 0 * m)%Q.
Definition le_noisy (L : loader) (d : draw) (i j : nat) : bool := Qle_bool (noisy_length L d i) (noisy_length L d j).
(** np.lexsort sorts by its last key first *)
Definition le_lex (L : loader) (tl : list nat) (m : Q) (d : draw) (i j : nat) : bool :=
  (nth i (lengths L) O <? nth j (lengths L) O)
  || ((nth i (lengths L) O =? nth j (lengths L) O) && Qle_bool (noisy_test tl m d i) (noisy_test tl m d j)).
(** _get_new_order — data_processor.py:108-122; self.magnitude is set only if positive: else AttributeError *)
Definition new_order (L : loader) (d : draw) : option (list nat) :=
  match test_lengths L with
  | None => Some (sort_le (le_noisy L d) (seq 0 (num L)))
  | Some tl => match magnitude L with
               | None => None
               | Some m => Some (sort_le (le_lex L tl m d) (seq 0 (num L)))
               end
  end.

(** orders[:n].reshape(-1, batch_size): q rows of b *)
Fixpoint reshape (q b : nat) (l : list nat) : list (list nat) :=
  match q with O => [] | S q => firstn b l :: reshape q b (skipn b l) end.

Record state := { idx : Z; batch_ids : list (list nat); batch_num : Z; batch_size : Z; last_batch : option (list nat) }.
(** data_processor.py:68-73 *)
Definition fresh : state := {| idx := -1; batch_ids := []; batch_num := -1; batch_size := -1; last_batch := None |}.

(** _shuffle_batch_ids — data_processor.py:124-157; [None] if it raises *)
Definition shuffle (L : loader) (b : Z) (d : draw) : option state :=
  if (b <? 1)%Z then None else
  match new_order L d with
  | None => None
  | Some orders =>
      let b' := Z.to_nat b in
      let q := num L / b' in
      let n := q * b' in
      let rows := reshape q b' orders in
      let ids := map (fun r => nth r rows []) (perm d) in
      let key i := nth i (keys L) O in
      Some {| idx := -1; batch_ids := map (map key) ids; batch_num := Z.of_nat (length ids); batch_size := b;
              last_batch := if n <? num L then Some (map key (skipn n orders)) else None |}
  end.

(** the two returns inside get_batch — data_processor.py:170-175 *)
Definition at_idx (s : state) (b : Z) : option (list nat) :=
  if (b =? batch_size s)%Z then
    if (idx s <? batch_num s)%Z then Some (nth (Z.to_nat (idx s)) (batch_ids s) [])
    else if (idx s =? batch_num s)%Z then last_batch s else None
  else None.
Definition step (s : state) : state :=
  {| idx := idx s + 1; batch_ids := batch_ids s; batch_num := batch_num s; batch_size := batch_size s; last_batch := last_batch s |}.
(** get_batch — data_processor.py:159-178: the batch ([None] if it raises) and the state it leaves.  The recursive call after a
    regrouping is unfolded once: it returns at once, since a loader has at least one series (GmLoaderProps.first_batch). *)
Definition get_batch (L : loader) (s : state) (b : Z) (d : draw) : option (list nat) * state :=
  let s1 := step s in
  match at_idx s1 b with
  | Some r => (Some r, s1)
  | None => match shuffle L b d with
            | None => (None, s1)
            | Some s2 => let s3 := step s2 in (at_idx s3 b, s3)
            end
  end.
(** a sequence of calls *)
Fixpoint run (L : loader) (s : state) (calls : list (Z * draw)) : list (option (list nat)) * state :=
  match calls with
  | [] => ([], s)
  | (b, d) :: rest => let (r, s1) := get_batch L s b d in let (rs, s2) := run L s1 rest in (r :: rs, s2)
  end.
