(** The parameters of a global model and their text form — globalmodel/utils.py:881-906, 1156-1583, and the schedules of
    training, globalmodel/model.py:428-439.

    Numbers are integers or exact rationals, as Python distinguishes int and float; a Timedelta is its number of nanoseconds, and
    freq is taken as already converted to one (_valid_freq, 1488-1508).  json.dumps followed by json.loads is taken as the
    identity on numbers, strings, lists and None; it turns the integer keys of dictionaries into strings, which is modelled. *)
From Coq Require Import List Bool Arith ZArith QArith String Ascii DecimalString DecimalZ.
Import ListNotations.
Open Scope Z_scope.

Inductive num := PInt (z : Z) | PFloat (q : Q).
Definition positive_num (v : num) : bool := match v with PInt z => 0 <? z | PFloat q => negb (Qle_bool q 0) end.
Definition is_int (v : num) : bool := match v with PInt _ => true | PFloat _ => false end.
Definition is_float (v : num) : bool := negb (is_int v).
Inductive union := One (v : num) | Schedule (d : list (Z * num)).
Inductive opt_arg := OptNone | OptName (s : string) | OptDict (name : option string) (params : option (list (string * Q))).
Inductive feat_arg := FeatNone | FeatName (s : string) | FeatList (l : list string).

(** str.lower, on ASCII letters *)
Definition lower1 (c : ascii) : ascii := let n := nat_of_ascii c in if (Nat.leb 65 n && Nat.leb n 90)%bool then ascii_of_nat (n + 32) else c.
Fixpoint lower (s : string) : string := match s with EmptyString => EmptyString | String c s => String (lower1 c) (lower s) end.
Definition member (s : string) (l : list string) : bool := existsb (String.eqb s) l.

(** the attributes (__dict__); K is the type of the keys of the schedules: integers in the object, strings in its text form *)
Record param (K : Type) := Param {
  freq : Z; model_type : string; uplifting_ratio : Q; nn_structure : list (list Z); decoder_nn_structure : list (list Z);
  cell_name : string; state_size : Z; h_size : option Z; batch_size : list (K * num); learning_rate : list (K * num);
  loss_function : string; optimizer : option string * option (list (string * Q));
  quantile : list Q; training_quantile : list Q; quantile_weight : list Q; validation_metric : list string;
  init_seasonality : list Q; init_smoothing_params : list Q; gmfeature : option (list string);
  input_window : Z; fcst_window : Z; seasonality : Z; epoch_num : Z; epoch_size : Z; min_training_step_num : Z;
  min_training_step_length : Z; soft_max_training_step_num : Z; validation_step_num : Z; min_warming_up_step_num : Z;
  fcst_step_num : Z; max_step_delta : Z; jit : bool; gmname : option string }.
Arguments freq {K}. Arguments model_type {K}. Arguments uplifting_ratio {K}. Arguments nn_structure {K}. Arguments decoder_nn_structure {K}. Arguments cell_name {K}.
Arguments state_size {K}. Arguments h_size {K}. Arguments batch_size {K}. Arguments learning_rate {K}. Arguments loss_function {K}. Arguments optimizer {K}.
Arguments quantile {K}. Arguments training_quantile {K}. Arguments quantile_weight {K}. Arguments validation_metric {K}. Arguments init_seasonality {K}. Arguments init_smoothing_params {K}.
Arguments gmfeature {K}. Arguments input_window {K}. Arguments fcst_window {K}. Arguments seasonality {K}. Arguments epoch_num {K}. Arguments epoch_size {K}.
Arguments min_training_step_num {K}. Arguments min_training_step_length {K}. Arguments soft_max_training_step_num {K}. Arguments validation_step_num {K}. Arguments min_warming_up_step_num {K}. Arguments fcst_step_num {K}.
Arguments max_step_delta {K}. Arguments jit {K}. Arguments gmname {K}.
Arguments Param {K}.
(** the arguments of the constructor — utils.py:1199-1234 *)
Record args := {
  a_freq : Z; a_model_type : string; a_uplifting_ratio : Q; a_nn_structure : option (list (list Z));
  a_decoder_nn_structure : option (list (list Z)); a_cell_name : string; a_state_size : Z; a_h_size : option Z;
  a_batch_size : option union; a_learning_rate : option union; a_loss_function : string; a_optimizer : opt_arg;
  a_quantile : option (list Q); a_training_quantile : option (list Q); a_quantile_weight : option (list Q);
  a_validation_metric : option (list string); a_init_seasonality : option (list Q); a_init_smoothing_params : option (list Q);
  a_gmfeature : feat_arg; a_input_window : Z; a_fcst_window : Z; a_seasonality : Z; a_epoch_num : Z; a_epoch_size : Z;
  a_min_training_step_num : Z; a_min_training_step_length : Z; a_soft_max_training_step_num : Z; a_validation_step_num : Z;
  a_min_warming_up_step_num : Z; a_fcst_step_num : Z; a_jit : bool; a_gmname : option string }.

(** _valid_union_dict — utils.py:1445-1478; [ty] is the test of the type of the values *)
Definition valid_union (ty : num -> bool) (u : union) : option (list (Z * num)) :=
  match u with
  | One v => if ty v && positive_num v then Some [(0, v)] else None
  | Schedule d => if existsb (fun kv => fst kv =? 0) d && forallb (fun kv => ty (snd kv) && positive_num (snd kv)) d then Some d else None
  end.
(** _valid_list with lower 0 — utils.py:1429-1444 *)
Definition in01 (q : Q) : bool := negb (Qle_bool 1 q) && negb (Qle_bool q 0).
Definition above0 (q : Q) : bool := negb (Qle_bool q 0).
(** _valid_optimizer — utils.py:1404-1418 *)
Definition valid_optimizer (o : opt_arg) : option (option string * option (list (string * Q))) :=
  match o with
  | OptNone => Some (Some "Adam"%string, Some [("eps"%string, 1 # 10000000)])
  | OptName s => if String.eqb (lower s) "adam" then Some (Some "Adam"%string, None) else None
  | OptDict (Some n) p => if String.eqb (lower n) "adam" then Some (Some n, p) else None
  | OptDict None _ => None
  end.
(** all_possible_gmfeatures and all_validation_metric_name — utils.py:22, 40-48 *)
Definition features : list string := ["last_date"; "simple_date"; "tsfeatures"; "ts2vec"; "last_hour"; "last_hour_minute"; "last_month"]%string.
Definition metrics : list string := ["smape"; "sbias"; "exceed"]%string.
(** _valid_gmfeature — utils.py:1529-1544; GMFeature — 896-906.  The outer [None] if it raises *)
Definition valid_feature (f : feat_arg) : option (option (list string)) :=
  match f with
  | FeatNone => Some None
  | FeatName s => if member s features then Some (Some [s]) else None
  | FeatList l => if forallb (fun s => member s features) l then Some (Some l) else None
  end.
Definition default {A} (d : A) (o : option A) : A := match o with Some v => v | None => d end.
(** the constructor — utils.py:1235-1378; [None] if it raises *)
Definition make (a : args) : option (param Z) :=
  if negb (member (a_model_type a) ["rnn"; "s2s"]%string) then None else
  if negb (Qle_bool 0 (a_uplifting_ratio a)) then None else
  let nn := default [[1; 3]] (a_nn_structure a) in
  let dnn := if String.eqb (a_model_type a) "s2s" then default nn (a_decoder_nn_structure a) else [] in
  match valid_union is_int (default (Schedule [(0, PInt 2); (3, PInt 5); (4, PInt 15); (5, PInt 50); (6, PInt 150); (7, PInt 500)]) (a_batch_size a)),
        valid_union is_float (default (Schedule [(0, PFloat (1 # 1000)); (2, PFloat (1 # 3000))]) (a_learning_rate a)),
        valid_optimizer (a_optimizer a), valid_feature (a_gmfeature a) with
  | Some bs, Some lr, Some opt, Some feat =>
      let loss := lower (a_loss_function a) in
      let q := default [1 # 2; 1 # 20; 19 # 20; 99 # 100] (a_quantile a) in
      let tq := default q (a_training_quantile a) in
      let n := List.length q in
      let qw := default (repeat (1 # Pos.of_nat n) n) (a_quantile_weight a) in
      let vm := default metrics (a_validation_metric a) in
      let ise := default [1 # 10; 10 # 1] (a_init_seasonality a) in
      let ism := default [2 # 5; 3 # 5] (a_init_smoothing_params a) in
      let sl := if a_min_training_step_length a <=? 0 then Z.max 1 (a_seasonality a - 1) else a_min_training_step_length a in
      if member loss ["pinball"; "adjustedpinball"]%string
         && forallb in01 q && match q with [] => false | q0 :: _ => Qeq_bool q0 (1 # 2) end && forallb in01 tq
         && Nat.eqb (List.length qw) n && forallb above0 qw && forallb (fun m => member m metrics) vm
         && forallb above0 ise && forallb above0 ism
         && forallb (fun v => 1 <=? v) [a_input_window a; a_fcst_window a; a_validation_step_num a; a_min_training_step_num a; sl; a_seasonality a;
                                        a_state_size a; a_epoch_num a; a_epoch_size a; a_soft_max_training_step_num a;
                                        a_min_warming_up_step_num a; a_fcst_step_num a]
      then Some {| freq := a_freq a; model_type := a_model_type a; uplifting_ratio := a_uplifting_ratio a; nn_structure := nn;
                   decoder_nn_structure := dnn; cell_name := a_cell_name a; state_size := a_state_size a; h_size := a_h_size a;
                   batch_size := bs; learning_rate := lr; loss_function := loss; optimizer := opt; quantile := q; training_quantile := tq;
                   quantile_weight := qw; validation_metric := vm; init_seasonality := ise; init_smoothing_params := ism; gmfeature := feat;
                   input_window := a_input_window a; fcst_window := a_fcst_window a; seasonality := a_seasonality a;
                   epoch_num := a_epoch_num a; epoch_size := a_epoch_size a; min_training_step_num := a_min_training_step_num a;
                   min_training_step_length := sl; soft_max_training_step_num := a_soft_max_training_step_num a;
                   validation_step_num := a_validation_step_num a; min_warming_up_step_num := a_min_warming_up_step_num a;
                   fcst_step_num := a_fcst_step_num a; max_step_delta := Z.min (a_input_window a) (a_fcst_window a) / sl;
                   jit := a_jit a; gmname := a_gmname a |}
      else None
  | _, _, _, _ => None
  end.
(** GMParam with the entries of a dictionary as keyword arguments, max_step_delta deleted — utils.py:1551-1553, 1567-1582 *)
Definition as_args (p : param Z) : args :=
  {| a_freq := freq p; a_model_type := model_type p; a_uplifting_ratio := uplifting_ratio p; a_nn_structure := Some (nn_structure p);
     a_decoder_nn_structure := Some (decoder_nn_structure p); a_cell_name := cell_name p; a_state_size := state_size p; a_h_size := h_size p;
     a_batch_size := Some (Schedule (batch_size p)); a_learning_rate := Some (Schedule (learning_rate p));
     a_loss_function := loss_function p; a_optimizer := OptDict (fst (optimizer p)) (snd (optimizer p));
     a_quantile := Some (quantile p); a_training_quantile := Some (training_quantile p); a_quantile_weight := Some (quantile_weight p);
     a_validation_metric := Some (validation_metric p); a_init_seasonality := Some (init_seasonality p);
     a_init_smoothing_params := Some (init_smoothing_params p);
     a_gmfeature := match gmfeature p with None => FeatNone | Some l => FeatList l end;
     a_input_window := input_window p; a_fcst_window := fcst_window p; a_seasonality := seasonality p; a_epoch_num := epoch_num p;
     a_epoch_size := epoch_size p; a_min_training_step_num := min_training_step_num p;
     a_min_training_step_length := min_training_step_length p; a_soft_max_training_step_num := soft_max_training_step_num p;
     a_validation_step_num := validation_step_num p; a_min_warming_up_step_num := min_warming_up_step_num p;
     a_fcst_step_num := fcst_step_num p; a_jit := jit p; a_gmname := gmname p |}.
(** copy — utils.py:1545-1553 *)
Definition copy (p : param Z) : option (param Z) := make (as_args p).
(** str(k) and int(s) for integers *)
Definition show (z : Z) : string := NilZero.string_of_int (Z.to_int z).
Definition read (s : string) : option Z := option_map Z.of_int (NilZero.int_of_string s).
Definition with_keys {K K'} (b l : list (K' * num)) (p : param K) : param K' :=
  {| freq := freq p; model_type := model_type p; uplifting_ratio := uplifting_ratio p;
     nn_structure := nn_structure p; decoder_nn_structure := decoder_nn_structure p; cell_name := cell_name p;
     state_size := state_size p; h_size := h_size p; batch_size := b; learning_rate := l;
     loss_function := loss_function p; optimizer := optimizer p; quantile := quantile p;
     training_quantile := training_quantile p; quantile_weight := quantile_weight p;
     validation_metric := validation_metric p; init_seasonality := init_seasonality p;
     init_smoothing_params := init_smoothing_params p; gmfeature := gmfeature p;
     input_window := input_window p; fcst_window := fcst_window p; seasonality := seasonality p;
     epoch_num := epoch_num p; epoch_size := epoch_size p; min_training_step_num := min_training_step_num p;
     min_training_step_length := min_training_step_length p;
     soft_max_training_step_num := soft_max_training_step_num p; validation_step_num := validation_step_num p;
     min_warming_up_step_num := min_warming_up_step_num p; fcst_step_num := fcst_step_num p;
     max_step_delta := max_step_delta p; jit := jit p; gmname := gmname p |}.
(** to_string — utils.py:1510-1517: the dictionary after dumps and loads *)
Definition to_string (p : param Z) : param string :=
  with_keys (map (fun kv => (show (fst kv), snd kv)) (batch_size p)) (map (fun kv => (show (fst kv), snd kv)) (learning_rate p)) p.
(** {int(t): d[t] for t in d}; int raises for other strings *)
Fixpoint int_keys (d : list (string * num)) : option (list (Z * num)) :=
  match d with
  | [] => Some []
  | (s, v) :: d => match read s, int_keys d with Some k, Some r => Some ((k, v) :: r) | _, _ => None end
  end.
(** gmparam_from_string — utils.py:1556-1583 *)
Definition from_string (s : param string) : option (param Z) :=
  match int_keys (batch_size s), int_keys (learning_rate s) with
  | Some b, Some l => make (as_args (with_keys b l s))
  | _, _ => None
  end.

(** the batch size (or learning rate) of each epoch — model.py:428-429, 436-439: the value stays until the epoch is a key *)
Fixpoint lookup (k : Z) (d : list (Z * num)) : option num := match d with [] => None | (k', v) :: d => if k =? k' then Some v else lookup k d end.
Fixpoint epochs (d : list (Z * num)) (cur : num) (e n : nat) : list num :=
  match n with
  | O => []
  | S n => let cur := default cur (lookup (Z.of_nat e) d) in cur :: epochs d cur (S e) n
  end.
Definition training_values (d : list (Z * num)) (n : nat) : option (list num) := option_map (fun v => epochs d v 0 n) (lookup 0 d).
