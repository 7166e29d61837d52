(** The recurrent network of the global model: kats/models/globalmodel/utils.py
    37, 218-647.

    Simplifications: tensors hold exact real numbers (no rounding, no overflow,
    no NaN); a tensor is a batch, i.e. rows of a common width; gradients and the
    just-in-time compilation of the cells are left out; exceptions are [None].
    Weights are arbitrary functions, so every theorem is about every state of
    training. *)
From Coq Require Import ZArith Reals String List Bool Lia.
Import ListNotations.
Open Scope R_scope.

(** A two dimensional torch tensor of shape (number of rows, width).
    kats/models/globalmodel/utils.py 250-259. *)
Record tensor := T { t_width : nat; t_rows : list (list R) }.

(** [x.shape[0]]: kats/models/globalmodel/utils.py 268, 581. *)
Definition t_n (x : tensor) : nat := List.length (t_rows x).

Definition zip {A B C} (f : A -> B -> C) (a : list A) (b : list B) : list C :=
  map (fun p => f (fst p) (snd p)) (combine a b).

(** torch.cat([x, y], dim=1), which raises unless the numbers of rows agree.
    kats/models/globalmodel/utils.py 262-270, 341-349. *)
Definition cat2 (x y : tensor) : option tensor :=
  if Nat.eqb (t_n x) (t_n y)
  then Some (T (t_width x + t_width y) (zip (@app R) (t_rows x) (t_rows y)))
  else None.

(** torch.zeros(n, w), which raises for a negative size.
    kats/models/globalmodel/utils.py 267-269, 346-348, 580-582. *)
Definition zeros (n : nat) (w : Z) : option tensor :=
  if (w <? 0)%Z then None
  else Some (T (Z.to_nat w) (repeat (repeat 0 (Z.to_nat w)) n)).

(** torch.nn.Linear: kats/models/globalmodel/utils.py 231, 308, 457. *)
Record lin := Lin { l_in : nat; l_out : nat; l_w : nat -> nat -> R; l_b : nat -> R }.

Definition dot (a b : list R) : R :=
  fold_right (fun p s => fst p * snd p + s) 0 (combine a b).

(** One output row of a linear layer.
    kats/models/globalmodel/utils.py 272, 351, 639. *)
Definition affine (l : lin) (r : list R) : list R :=
  map (fun o => dot (map (l_w l o) (seq 0 (l_in l))) r + l_b l o) (seq 0 (l_out l)).

(** Calling a linear layer, which raises for an input of another width.
    kats/models/globalmodel/utils.py 272, 351, 639. *)
Definition linear (l : lin) (x : tensor) : option tensor :=
  if Nat.eqb (t_width x) (l_in l)
  then Some (T (l_out l) (map (affine l) (t_rows x))) else None.

(** Elementwise functions: kats/models/globalmodel/utils.py 276-283, 354-356. *)
Definition tmap (f : R -> R) (x : tensor) : tensor :=
  T (t_width x) (map (map f) (t_rows x)).

(** Elementwise operations on two tensors of one shape.  Broadcasting is left
    out: the tensors combined here have been concatenated with each other, or
    are of one origin, so that their shapes agree.
    kats/models/globalmodel/utils.py 281-283, 361-367, 636. *)
Definition tzip (f : R -> R -> R) (x y : tensor) : option tensor :=
  if Nat.eqb (t_n x) (t_n y) && Nat.eqb (t_width x) (t_width y)
  then Some (T (t_width x) (zip (zip f) (t_rows x) (t_rows y))) else None.

(** Columns from .. from + len. *)
Definition piece (x : tensor) (from len : nat) : tensor :=
  T len (map (fun r => firstn len (skipn from r)) (t_rows x)).

(** torch.chunk(gates, 4, dim=1)[i] for a width that is a multiple of four.
    kats/models/globalmodel/utils.py 274, 352. *)
Definition chunk (x : tensor) (i : nat) : tensor :=
  let s := Nat.div (t_width x) 4 in piece x (i * s) s.

(** torch.split(x, [a, b], dim=1): kats/models/globalmodel/utils.py 285-287,
    369-371. *)
Definition split2 (x : tensor) (a b : Z) : option (tensor * tensor) :=
  if (a <? 0)%Z || (b <? 0)%Z || negb (a + b =? Z.of_nat (t_width x))%Z then None
  else Some (piece x 0 (Z.to_nat a), piece x (Z.to_nat a) (Z.to_nat b)).

(** torch.sigmoid: kats/models/globalmodel/utils.py 276-278. *)
Definition sigmoid (x : R) : R := / (1 + exp (- x)).

Definition bind {A B} (a : option A) (f : A -> option B) : option B :=
  match a with Some x => f x | None => None end.
Notation "'do' x <- a ; b" := (bind a (fun x => b)) (at level 200, x pattern, b at level 200).

Inductive kind := K_LSTM | K_LSTM2 | K_S2.

(** A cell: its linear layers and its sizes.  [c_hh] is used by
    torch.nn.LSTMCell only.
    kats/models/globalmodel/utils.py 229-234, 306-312, 451. *)
Record cell := Cell { c_kind : kind; c_lin : lin; c_hh : lin; c_h : Z; c_state : nat }.

(** The default of the arguments for the states, never used.
    kats/models/globalmodel/utils.py 37. *)
Definition noneT : tensor := T 1 [[- powerRZ 10 38]].

(** The gates' input [xh]: kats/models/globalmodel/utils.py 262-270, 341-349. *)
Definition gate_input (c : cell) (x : tensor) (has_prev has_delayed : bool)
    (ph dh : tensor) : option tensor :=
  if has_delayed then do a <- cat2 x ph; cat2 a dh
  else if has_prev then do a <- cat2 x ph; cat2 a ph
  else do e <- zeros (t_n x) (2 * c_h c); cat2 x e.

(** LSTM2Cell.forward: kats/models/globalmodel/utils.py 237-288. *)
Definition lstm2 (c : cell) (x : tensor) (has_prev has_delayed : bool)
    (ph dh cs : tensor) : option (tensor * (tensor * tensor)) :=
  do xh <- gate_input c x has_prev has_delayed ph dh;
  do gates <- linear (c_lin c) xh;
  let forget := tmap (fun v => sigmoid (v + 1)) (chunk gates 0) in
  let ingate := tmap sigmoid (chunk gates 1) in
  let outgate := tmap sigmoid (chunk gates 2) in
  let fresh := tmap tanh (chunk gates 3) in
  do new <- (if has_prev
             then do a <- tzip Rmult forget cs; do b <- tzip Rmult ingate fresh; tzip Rplus a b
             else Some fresh);
  do whole <- tzip Rmult outgate (tmap tanh new);
  do oh <- split2 whole (Z.of_nat (c_state c) - c_h c) (c_h c);
  Some (fst oh, (snd oh, new)).

(** S2Cell.forward: kats/models/globalmodel/utils.py 315-372. *)
Definition s2 (c : cell) (x : tensor) (has_prev has_delayed : bool)
    (ph dh pc dc : tensor) : option (tensor * (tensor * tensor)) :=
  do xh <- gate_input c x has_prev has_delayed ph dh;
  do gates <- linear (c_lin c) xh;
  let forget := tmap (fun v => sigmoid (v + 1)) (chunk gates 0) in
  let fresh := tmap tanh (chunk gates 1) in
  let outgate := tmap sigmoid (chunk gates 3) in
  do new <- (if has_prev
             then do w <- (if has_delayed
                           then let alpha := tmap sigmoid (chunk gates 2) in
                                do a <- tzip Rmult alpha pc;
                                do b <- tzip Rmult (tmap (fun v => 1 - v) alpha) dc;
                                tzip Rplus a b
                           else Some pc);
                  do a <- tzip Rmult forget w;
                  do b <- tzip Rmult (tmap (fun v => 1 - v) forget) fresh;
                  tzip Rplus a b
             else Some fresh);
  do whole <- tzip Rmult outgate new;
  do oh <- split2 whole (Z.of_nat (c_state c) - c_h c) (c_h c);
  Some (fst oh, (snd oh, new)).

(** torch.nn.LSTMCell, as its documentation gives it: input, forget, cell and
    output gates; zero states unless some are given.
    kats/models/globalmodel/utils.py 451, 613-631. *)
Definition lstm (c : cell) (x : tensor) (st : option (tensor * tensor))
    : option (tensor * tensor) :=
  do hc <- (match st with
            | Some hc => Some hc
            | None => do z <- zeros (t_n x) (Z.of_nat (c_state c)); Some (z, z)
            end);
  do a <- linear (c_lin c) x;
  do b <- linear (c_hh c) (fst hc);
  do gates <- tzip Rplus a b;
  let ingate := tmap sigmoid (chunk gates 0) in
  let forget := tmap sigmoid (chunk gates 1) in
  let fresh := tmap tanh (chunk gates 2) in
  let outgate := tmap sigmoid (chunk gates 3) in
  do u <- tzip Rmult forget (snd hc);
  do v <- tzip Rmult ingate fresh;
  do new <- tzip Rplus u v;
  do h <- tzip Rmult outgate (tmap tanh new);
  Some (h, new).

(** The states kept of every call, by layer.
    kats/models/globalmodel/utils.py 410-413, 583-585. *)
Definition store := list (list tensor).
Record memory := M { m_h : store; m_c : store }.

(** [store[i][layer]]: kats/models/globalmodel/utils.py 521-524, 554-556. *)
Definition look (s : store) (i : Z) (layer : nat) : option tensor :=
  if (i <? 0)%Z then None
  else do e <- nth_error s (Z.to_nat i); nth_error e layer.

(** One layer of DilatedRNNStack.forward with _forward_S2Cell and
    _forward_LSTM2Cell; [t] is the number of earlier calls and [ti] the index
    of the delayed state.
    kats/models/globalmodel/utils.py 505-568, 600-631. *)
Definition layer_call (c : cell) (hst cst : store) (t : nat) (ti : Z) (layer : nat)
    (x : tensor) : option (tensor * (tensor * tensor)) :=
  let p := Z.of_nat (t - 1) in
  let has_prev := Nat.ltb 0 t in
  let has_delayed := (0 <=? ti)%Z in
  match c_kind c with
  | K_S2 =>
      if has_delayed then
        do ph <- look hst p layer; do dh <- look hst ti layer;
        do pc <- look cst p layer; do dc <- look cst ti layer;
        s2 c x has_prev has_delayed ph dh pc dc
      else if has_prev then
        do ph <- look hst p layer; do pc <- look cst p layer;
        s2 c x has_prev has_delayed ph noneT pc noneT
      else s2 c x false false noneT noneT noneT noneT
  | K_LSTM2 =>
      if has_delayed then
        do ph <- look hst p layer; do dh <- look hst ti layer;
        do dc <- look cst ti layer;
        lstm2 c x has_prev has_delayed ph dh dc
      else if has_prev then
        do ph <- look hst p layer; do pc <- look cst p layer;
        lstm2 c x has_prev has_delayed ph noneT pc
      else lstm2 c x false false noneT noneT noneT
  | K_LSTM =>
      do hn <- (if has_delayed then
                  do h <- look hst ti layer; do n <- look cst ti layer; lstm c x (Some (h, n))
                else if has_prev then
                  do h <- look hst p layer; do n <- look cst p layer; lstm c x (Some (h, n))
                else lstm c x None);
      Some (fst hn, hn)
  end.

(** DilatedRNNStack: kats/models/globalmodel/utils.py 375-469. *)
Record stack := Stack {
  s_struct : list (list Z); s_cells : list cell; s_adaptor : option lin;
  s_out : nat; s_max : Z }.

(** The layers of one block; the states of the current call are appended one
    by one, so that they stay when a later layer raises.
    kats/models/globalmodel/utils.py 590-635. *)
Fixpoint run_block (cells : list cell) (m : memory) (t : nat) (ds : list Z) (layer : nat)
    (x : tensor) (hc cc : list tensor) : (list tensor * list tensor) * option tensor :=
  match ds with
  | [] => ((hc, cc), Some x)
  | d :: r =>
      match (do c <- nth_error cells layer;
             layer_call c (m_h m ++ [hc]) (m_c m ++ [cc]) t (Z.of_nat t - d) layer x) with
      | None => ((hc, cc), None)
      | Some (o, (h, n)) => run_block cells m t r (S layer) o (hc ++ [h]) (cc ++ [n])
      end
  end.

(** The blocks, with the sum of their outputs handed on.
    kats/models/globalmodel/utils.py 588-636. *)
Fixpoint run_blocks (cells : list cell) (m : memory) (t : nat) (bs : list (list Z)) (layer : nat)
    (x prev : tensor) (hc cc : list tensor) : (list tensor * list tensor) * option tensor :=
  match bs with
  | [] => ((hc, cc), Some prev)
  | ds :: r =>
      match run_block cells m t ds layer x hc cc with
      | ((hc', cc'), None) => ((hc', cc'), None)
      | ((hc', cc'), Some o) =>
          match tzip Rplus o prev with
          | None => ((hc', cc'), None)
          | Some s => run_blocks cells m t r (layer + List.length ds) s s hc' cc'
          end
      end
  end.

(** DilatedRNNStack.forward: the memory afterwards and the output.
    kats/models/globalmodel/utils.py 570-642. *)
Definition forward (s : stack) (m : memory) (x : tensor) : memory * option tensor :=
  match zeros (t_n x) (Z.of_nat (s_out s)) with
  | None => (m, None)
  | Some z =>
      let t := List.length (m_h m) in
      match run_blocks (s_cells s) m t (s_struct s) 0 x z [] [] with
      | ((hc, cc), r) =>
          (M (m_h m ++ [hc]) (m_c m ++ [cc]),
           do prev <- r;
           match s_adaptor s with Some a => linear a prev | None => Some prev end)
      end
  end.

(** DilatedRNNStack.reset_state: kats/models/globalmodel/utils.py 644-647. *)
Definition reset_state (m : memory) : memory := M [] [].

(** Python's [l[-k:]]: everything when k is 0 or at least the length, and
    [l[|k|:]] for a negative k. *)
Definition last_k {A} (k : Z) (l : list A) : list A :=
  if (k <=? 0)%Z then skipn (Z.to_nat (- k)) l
  else skipn (List.length l - Z.to_nat k) l.

(** DilatedRNNStack.prepare_decoder: the memory the decoder gets.
    kats/models/globalmodel/utils.py 493-503. *)
Definition prepare_decoder (s : stack) (m : memory) : memory :=
  M (last_k (s_max s) (m_h m)) (last_k (s_max s) (m_c m)).

(** np.max of the dilations: kats/models/globalmodel/utils.py 415. *)
Definition max_list (l : list Z) : option Z :=
  match l with [] => None | a :: r => Some (fold_left Z.max r a) end.

(** DilatedRNNStack._validate: the size of the output of a cell.
    kats/models/globalmodel/utils.py 471-490. *)
Definition validate (name : string) (state : nat) (h : option Z) : option (kind * Z * nat) :=
  if String.eqb name "LSTM" then Some (K_LSTM, 0%Z, state)
  else if String.eqb name "LSTM2Cell" || String.eqb name "S2Cell" then
    match h with
    | None => None
    | Some hz =>
        if (Z.of_nat state <=? hz)%Z then None
        else Some (if String.eqb name "S2Cell" then K_S2 else K_LSTM2, hz,
                   Z.to_nat (Z.of_nat state - hz))
    end
  else None.

(** torch.nn.Linear(i, o) with arbitrary weights; raises for a negative size.
    kats/models/globalmodel/utils.py 231, 308. *)
Definition new_lin (i : Z) (o : nat) (w : nat -> nat -> R) (b : nat -> R) : option lin :=
  if (i <? 0)%Z then None else Some (Lin (Z.to_nat i) o w b).

(** The entries of a linear layer. *)
Definition weights := ((nat -> nat -> R) * (nat -> R))%type.

(** One cell; [W] gives its weights.
    kats/models/globalmodel/utils.py 427-451. *)
Definition new_cell (k : kind) (h : Z) (state i : nat) (W W' : weights) : option cell :=
  match k with
  | K_LSTM =>
      Some (Cell k (Lin i (4 * state) (fst W) (snd W))
                   (Lin state (4 * state) (fst W') (snd W')) h state)
  | _ =>
      do l <- new_lin (Z.of_nat i + 2 * h) (4 * state) (fst W) (snd W);
      Some (Cell k l (Lin state (4 * state) (fst W') (snd W')) h state)
  end.

(** The cells of the layers from [layer] on: only the very first takes the
    input.  kats/models/globalmodel/utils.py 421-454. *)
Fixpoint new_cells (k : kind) (h : Z) (state out input : nat) (W W' : nat -> weights)
    (layer n : nat) : option (list cell) :=
  match n with
  | O => Some []
  | S n' =>
      do c <- new_cell k h state (if Nat.eqb layer 0 then input else out) (W layer) (W' layer);
      do r <- new_cells k h state out input W W' (S layer) n';
      Some (c :: r)
  end.

(** DilatedRNNStack.__init__ for the initial (or any trained) weights [W], [W']
    of the cells and [A] of the adaptor.
    kats/models/globalmodel/utils.py 389-469. *)
Definition build (struct : list (list Z)) (name : string) (input state : nat)
    (output : option Z) (h : option Z) (W W' : nat -> weights) (A : weights) : option stack :=
  do ms <- fold_right (fun b acc => do a <- acc; do m <- max_list b; Some (m :: a))
                      (Some []) struct;
  do mx <- max_list ms;
  do v <- validate name state h;
  let k := fst (fst v) in let hz := snd (fst v) in let out := snd v in
  do cs <- new_cells k hz state out input W W' 0 (List.length (List.concat struct));
  do ad <- (match output with
            | None => Some None
            | Some o => if (0 <? o)%Z then Some (Some (Lin out (Z.to_nat o) (fst A) (snd A)))
                        else None
            end);
  Some (Stack struct cs ad out mx).

(** A sequence of calls that all succeed: the memory at the end and the
    outputs.  kats/models/globalmodel/model.py 797, 1145, 1174. *)
Fixpoint calls (s : stack) (m : memory) (xs : list tensor) : option (memory * list tensor) :=
  match xs with
  | [] => Some (m, [])
  | x :: r =>
      match forward s m x with
      | (_, None) => None
      | (m', Some y) => do q <- calls s m' r; Some (fst q, y :: snd q)
      end
  end.
