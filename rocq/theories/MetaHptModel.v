(** The hyper-parameter meta-learner — models/metalearner/metalearner_hpt.py:64-152, 190-353, 419-442, 494-519, 576-628, 729-739, 857-886: encoding of the categorical
    parameters, the network's layers, the default models, batches and early stopping.

    Values of categorical parameters are numbers; [None] is NaN or an exception.  The weights, the gradients and the losses are
    parameters. *)
From Coq Require Import List Bool Arith ZArith QArith String.
From Verif Require Import Common.
Import ListNotations.
Open Scope nat_scope.
Local Notation length := List.length.

(** ** _get_target_cat — metalearner_hpt.py:282-302: categories are the distinct values in order, codes their places, NaN is -1 *)
Fixpoint insert_new (v : Z) (l : list Z) : list Z :=
  match l with [] => [v] | x :: r => if (v <? x)%Z then v :: l else if (v =? x)%Z then l else x :: insert_new v r end.
Definition categories (column : list (option Z)) : list Z :=
  fold_right (fun v l => match v with Some v => insert_new v l | None => l end) [] column.
Fixpoint place (v : Z) (l : list Z) : Z := match l with [] => (-1)%Z | x :: r => if (v =? x)%Z then 0%Z else let p := place v r in if (p <? 0)%Z then p else (p + 1)%Z end.
Definition code (column : list (option Z)) (v : option Z) : Z := match v with Some v => place v (categories column) | None => (-1)%Z end.
(** dict(enumerate(categories)) *)
Definition decode (column : list (option Z)) (c : nat) : option Z := nth_error (categories column) c.
(** the loss of a row needs a class between 0 and the number of outputs — metalearner_hpt.py:494-519 (CrossEntropyLoss) *)
Definition target_ok (n_out : nat) (c : Z) : bool := (0 <=? c)%Z && (c <? Z.of_nat n_out)%Z.
(** torch.argmax: the first largest output *)
Fixpoint argmax_from (best : nat) (bv : Q) (i : nat) (l : list Q) : nat :=
  match l with [] => best | x :: r => if Qle_bool x bv then argmax_from best bv (S i) r else argmax_from i x (S i) r end.
Definition argmax (l : list Q) : nat := match l with [] => 0 | x :: r => argmax_from 0 x 1 r end.

(** ** The constructor's checks — metalearner_hpt.py:202-280, 313-331; [None]: raises *)
Record hpt := { h_cat : option (list string); h_num : option (list string); h_out : list nat; h_in : nat }.
Definition empty (l : option (list string)) : bool := match l with None => true | Some [] => true | Some _ => false end.
Definition count (l : option (list string)) : nat := match l with None => 0 | Some l => length l end.
(** [ncats] : the number of categories of a column of data_y, [None] if there is no such column; [dim] columns, [rows] rows *)
Definition construct (cat num : option (list string)) (ncats : string -> option nat) (dim rows nfeat : nat) : option hpt :=
  if empty num && empty cat then None
  else if forallb (fun c => match ncats c with Some _ => true | None => false end) (match num with Some l => l | None => [] end ++ match cat with Some l => l | None => [] end)
  then let outs := match cat with None => [] | Some l => map (fun c => match ncats c with Some n => n | None => 0 end) l end in
       if negb (count cat + count num =? dim) then None
       else match cat with
            | None => None (* enumerate(None) *)
            | Some _ => if existsb (Nat.eqb 1) outs then None else if rows <=? 30 then None else Some {| h_cat := cat; h_num := num; h_out := outs; h_in := nfeat |}
            end
  else None.

(** ** Default models — metalearner_hpt.py:64-152 *)
Local Open Scope string_scope.
Definition defaults : list (string * (list string * list string)) :=
  [("holtwinters", (["trend"; "damped"; "seasonal"; "seasonal_periods"], []));
   ("arima", (["p"; "d"; "q"], []));
   ("sarima", (["seasonal_order"; "trend"; "p"; "d"; "q"], []));
   ("theta", (["m"], []));
   ("stlf", (["method"; "m"], []));
   ("prophet", (["yearly_seasonality"; "weekly_seasonality"; "daily_seasonality"; "seasonality_mode"; "seasonality_prior_scale"; "changepoint_prior_scale"; "changepoint_range"], []));
   ("cusum", (["score_func"], ["delta_std_ratio"; "scan_window"; "historical_window"]));
   ("statsig", ([], ["n_control"; "n_test"]))].
Definition networks : list (string * (list nat * list (list nat) * list nat)) :=
  [("holtwinters", ([20], [[2]; [3]; [5]; [3]], []));
   ("arima", ([40], [[5]; [5]; [5]], []));
   ("sarima", ([40], [[5]; [5]; [5]; [5]; [5]], []));
   ("theta", ([40], [[5]], []));
   ("stlf", ([20], [[5]; [5]], []));
   ("prophet", ([40], [[5]; [5]; [2]; [3]; [5]; [5]; [5]], []));
   ("cusum", ([20], [[3]], [5; 5; 5]));
   ("statsig", ([20], [], [5; 5]))].

Local Close Scope string_scope.
(** ** build_network and MultitaskNet — metalearner_hpt.py:333-353, 419-442, 857-886 *)
Definition layer := (nat * nat)%type.
Fixpoint chain (input : nat) (sizes : list nat) : list layer := match sizes with [] => [] | s :: r => (input, s) :: chain s r end.
Definition zip_sizes (hidden : list (list nat)) (outs : list nat) : list (list nat) := match outs with [] => [] | _ => map (fun i => (nth i hidden [] ++ [nth i outs 0])%list) (seq 0 (length hidden)) end.
Record net := { n_shared : list layer; n_cats : list (list layer); n_num : list layer }.
Definition build (h : hpt) (shared : list nat) (combo : list (list nat)) (numeric : list nat) : option net :=
  if negb (length combo =? length (h_out h)) then None
  else let top := last (h_in h :: shared) 0 in
       Some {| n_shared := chain (h_in h) shared; n_cats := map (chain top) (zip_sizes combo (h_out h));
               n_num := match count (h_num h) with 0 => [] | n => chain top (numeric ++ [n])%list end |}.

(** pred_by_feature: the parameters given for one series — metalearner_hpt.py:729-739; [cats] the outputs of the categorical tasks,
    [decoders] the tables; [None]: raises (numerical_idx None) *)
Definition recommended (h : hpt) (decoders : list (list (option Z))) (cats : list (list Q)) (nums : list Q) : option (list (string * option Z) * list (string * Q)) :=
  match h_cat h, h_num h with
  | Some c, Some n => Some (map (fun j => (nth j c ""%string, decode (nth j decoders []) (argmax (nth j cats [])))) (seq 0 (length c)), combine n nums)
  | _, _ => None
  end.

(** ** Training — metalearner_hpt.py:576-628 *)
(** the batches of an epoch: [perm] is the shuffle *)
Definition batches (bs : nat) (perm : list nat) : list (list nat) :=
  map (fun i => firstn bs (skipn (i * bs) perm)) (seq 0 ((length perm + (bs - 1)) / bs)).
(** early stopping: [val e] is the validation loss after epoch e; [best] = min_val_loss ([None]: inf); returns the number of epochs *)
Fixpoint epochs (val : nat -> Q) (stop : nat) (fuel e : nat) (best : option Q) (idle : nat) : nat :=
  match fuel with
  | 0 => e
  | S f => let improved := match best with None => true | Some b => negb (Qle_bool b (val e)) end in
           let best := if improved then Some (val e) else best in
           let idle := if improved then 0 else S idle in
           if (20 <? e) && (stop <=? idle) then S e else epochs val stop f (S e) best idle
  end.
Definition trained (val : nat -> Q) (stop n_epochs : nat) : nat := epochs val stop n_epochs 0 None 0.
