(** What the theorems about the [TimeSeriesData] object say, in terms of its times, its
    columns and its cached bounds. *)
From Verif Require Import Common TsObjModel.
Open Scope Z_scope.

(** [m] is the least present value of a column, [None] if there is none. *)
Definition is_least (l : list (option Q)) (m : option Q) : Prop :=
  match m with
  | None => forall x, ~ In (Some x) l
  | Some q => In (Some q) l /\ forall x, In (Some x) l -> (q <= x)%Q
  end.
Definition is_greatest (l : list (option Q)) (m : option Q) : Prop :=
  match m with
  | None => forall x, ~ In (Some x) l
  | Some q => In (Some q) l /\ forall x, In (Some x) l -> (x <= q)%Q
  end.

(** A bound describes the values: for a Series, one number; for a frame, one number per
    column under its name, or the missing number if there are no values at all. *)
Definition describes (is_best : list (option Q) -> option Q -> Prop) (v : vals) (b : bound)
  : Prop :=
  match v, b with
  | VSeries c, BOne m => is_best (cells c) m
  | VSeries _, BMany _ => False
  | VFrame cs, BOne m => m = None /\ forall c, In c cs -> cells c = []
  | VFrame cs, BMany ms =>
      Forall2 (fun c nm => fst nm = cname c /\ is_best (cells c) (snd nm)) cs ms
  end.
Definition bounds_right (o : obj) : Prop :=
  describes is_least (ovals o) (omin o) /\ describes is_greatest (ovals o) (omax o).

(** the columns of a frame have the same number of cells. *)
Definition rect (v : vals) (n : nat) : Prop :=
  forall c, In c (cols_of v) -> length (cells c) = n.

(** Histories: objects that come from the constructor and any number of calls of the
    API, raising or not. *)
Inductive history : obj -> Prop :=
| h_frame sort drop cat tname zone t cs o :
    rect (VFrame cs) (length t) ->
    of_frame sort drop cat tname zone (Some t) cs = Some o -> history o
| h_parts sort drop cat tname argname zone t v n o :
    rect v n -> of_parts sort drop cat tname argname zone t v = Some o -> history o
| h_value o v n : history o -> rect v n -> history (set_value o v)
| h_time o t : history o -> history (set_time o t)
| h_extend regular validate o p n m :
    history o -> history p -> rect (ovals o) n -> rect (ovals p) m ->
    (forall c, In c (cols_of (ovals o)) ->
       exists d, In d (cols_of (ovals p)) /\ cname d = cname c) ->
    history (fst (extend_obj regular validate o p))
| h_convert z o : history o -> history (convert_timezone z o)
| h_zone loc z sort o o' :
    history o -> rect (ovals o) (length (otime o)) ->
    set_timezone loc z sort o = Some o' -> history o'.

(** Two cells that [==] takes for equal: both missing, or at most 1e-8 apart, or at most
    1e-5 of one of them apart. *)
Definition near (a b : option Q) : Prop :=
  match a, b with
  | None, None => True
  | Some x, Some y =>
      (Qabs (x - y) <= 1 # 100000000 \/ Qabs (x - y) <= (1 # 100000) * Qabs x
       \/ Qabs (x - y) <= (1 # 100000) * Qabs y)%Q
  | _, _ => False
  end.
Definition near_cols (c d : col) : Prop :=
  cname c = cname d /\ Forall2 near (cells c) (cells d).
