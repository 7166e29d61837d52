(** kats/models/neuralprophet.py:265-527: the checks of the regressors, the table handed to the library for training and the
    frame handed to it for forecasting.

    Simplifications: the library is a parameter (train, make_future, forecast); hyperparameters are passed on unchanged and
    left out; times are integers; the data has no two columns of the same name and none called ds; a name of a regressor is a
    text, a list of texts, or something else that is hashable and no column; rows of a frame with equal times keep their order
    when sorted (pandas promises none). *)
From Coq Require Import String.
From Coq Require Import List ZArith QArith Bool.
Import ListNotations.
Open Scope Z_scope.

(** ** Parameters *)
Inductive value := Text (s : string) | Texts (l : list string) | Other.
Inductive regressor := NotDict | Dict (l : list (string * value)).
(** custom_seasonalities (the keys of each), extra_future_regressors and extra_lagged_regressors *)
Record params := Params { seasons : list (list string); futures : list regressor; laggeds : list regressor }.
Definition mem (s : string) (l : list string) : bool := existsb (String.eqb s) l.
Fixpoint lookup (k : string) (l : list (string * value)) : option value :=
  match l with [] => None | (k', v) :: l => if String.eqb k k' then Some v else lookup k l end.
(** neuralprophet.py:281-293 and 295-308: the values of the key that names the regressor, or an error *)
Fixpoint names_of (key : string) (l : list regressor) : option (list value) :=
  match l with
  | [] => Some []
  | NotDict :: _ => None
  | Dict d :: l =>
      match lookup key d with
      | None => None
      | Some v =>
          if forallb (fun k => mem k [key; "regularization"; "normalize"]%string) (map fst d)
          then match names_of key l with Some r => Some (v :: r) | None => None end
          else None
      end
  end.
(** validate_params, neuralprophet.py:265-308: _reqd_regressor_names afterwards, or an error *)
Definition validate (p : params) : option (list value) :=
  if forallb (fun s => forallb (fun k => mem k s) ["name"; "period"; "fourier_order"]%string) (seasons p) then
    match names_of "name" (futures p) with
    | None => None
    | Some a => match names_of "names" (laggeds p) with Some b => Some (a ++ b) | None => None end
    end
  else None.

(** ** Data *)
(** value columns and rows *)
Record table := Table { t_names : list string; t_rows : list (Z * list (option Q)) }.
Definition is_univariate (d : table) : bool := (length (t_names d) =? 1)%nat.
(** set(names): a list is not hashable; what is neither text nor list is no column — neuralprophet.py:326 *)
Fixpoint hashed (l : list value) : option (list (option string)) :=
  match l with
  | [] => Some []
  | v :: l => match v, hashed l with
              | Texts _, _ => None
              | Text s, Some r => Some (Some s :: r)
              | Other, Some r => Some (None :: r)
              | _, None => None
              end
  end.
Fixpoint all_some {A} (l : list (option A)) : option (list A) :=
  match l with
  | [] => Some []
  | x :: l => match x, all_some l with Some x, Some r => Some (x :: r) | _, _ => None end
  end.
(** NeuralProphetModel.__init__ and _data_params_validation, neuralprophet.py:312-343: the names of the regressors, or an error *)
Definition construct (p : params) (d : table) : option (list string) :=
  match validate p with
  | None => None
  | Some vs =>
      match hashed vs with
      | None => None
      | Some l =>
          if is_univariate d then match l with [] => Some [] | _ => None end
          else if mem "y" (t_names d) then
            match all_some l with
            | None => None
            | Some ns => if forallb (fun n => mem n (t_names d)) ns then Some ns else None
            end
          else None
      end
  end.
(** the value of a row in a column *)
Fixpoint cell (names : list string) (vals : list (option Q)) (n : string) : option Q :=
  match names, vals with
  | n' :: names, v :: vals => if String.eqb n n' then v else cell names vals n
  | _, _ => None
  end.
(** _ts_to_df, neuralprophet.py:345-355 *)
Definition ts_to_df (ns : list string) (d : table) : table :=
  let from := if is_univariate d then ["y"%string] else t_names d in
  let to := ns ++ ["y"%string] in
  Table to (map (fun r => (fst r, map (cell from (snd r)) to)) (t_rows d)).

(** ** Fitting and forecasting *)
(** a frame with the future times and regressors: whether it has a column ds, and its other columns *)
Record frame := Frame { f_ds : bool; f_table : table }.
(** self.df and self.model *)
Record state (M : Type) := State { s_df : table; s_model : option M }.
Arguments State {M}. Arguments s_df {M}. Arguments s_model {M}.
(** fit, neuralprophet.py:357-439: the seasonalities and regressors are added in their order; an error of the library keeps
    the new table and the old model *)
Definition fit {M} (train : list (list string) -> list regressor -> list regressor -> table -> option M)
    (p : params) (ns : list string) (d : table) (s : state M) : bool * state M :=
  let df := ts_to_df ns d in
  match train (seasons p) (futures p) (laggeds p) df with
  | Some m => (true, State df (Some m))
  | None => (false, State df (s_model s))
  end.
Fixpoint insert_row (r : Z * list (option Q)) (l : list (Z * list (option Q))) : list (Z * list (option Q)) :=
  match l with [] => [r] | r' :: l' => if fst r <=? fst r' then r :: l else r' :: insert_row r l' end.
Definition sort_rows (l : list (Z * list (option Q))) : list (Z * list (option Q)) := fold_right insert_row [] l.
(** the row with value v in column n *)
Fixpoint put (names : list string) (vals : list (option Q)) (n : string) (v : option Q) : list (option Q) :=
  match names, vals with
  | [], _ => [v]
  | n' :: names, x :: vals => if String.eqb n n' then v :: vals else x :: put names vals n v
  | _, [] => []
  end.
(** future["y"] = 0.0 *)
Definition zero_y (t : table) : table :=
  Table (if mem "y" (t_names t) then t_names t else t_names t ++ ["y"%string])
        (map (fun r => (fst r, put (t_names t) (snd r) "y" (Some 0%Q))) (t_rows t)).
(** the frame that forecasts are made for, neuralprophet.py:471-500: None is an error *)
Definition prepare (make_future : table -> Z -> frame) (p : params) (ns : list string) (df : table) (steps : Z)
    (future : option frame) : option frame :=
  let chosen :=
    if (0 <? length (futures p) + length (laggeds p))%nat then
      match future with
      | None => None
      | Some f =>
          if forallb (fun n => mem n (t_names (f_table f)) || (f_ds f && String.eqb n "ds")) ns then
            if f_ds f then Some f else None
          else None
      end
    else match future with None => Some (make_future df steps) | Some f => Some f end in
  match chosen with
  | None => None
  | Some f => if Z.of_nat (length (t_rows (f_table f))) <? steps then None
              else if f_ds f then Some (Frame true (zero_y (Table (t_names (f_table f)) (sort_rows (t_rows (f_table f))))))
              else None
  end.
(** predict, neuralprophet.py:442-511: the columns returned (None is an error), and the frame of the caller afterwards — it is
    changed in place *)
Definition predict {M C} (make_future : table -> Z -> frame) (forecast : M -> table -> option (list (string * C)))
    (p : params) (ns : list string) (s : state M) (steps : Z) (raw : bool) (future : option frame)
    : option (list (string * C)) * option frame :=
  match s_model s with
  | None => (None, future)
  | Some m =>
      match prepare make_future p ns (s_df s) steps future with
      | None => (None, future)
      | Some f =>
          (match forecast m (f_table f) with
           | None => None
           | Some cols => Some (if raw then cols
                                else filter (fun c => String.eqb (fst c) "ds" || String.prefix "yhat" (fst c)) cols)
           end,
           match future with None => None | Some _ => Some f end)
      end
  end.
