(** Meta data of a time series and the predictability meta-learner — models/metalearner/get_metadata.py:94-347,
    models/metalearner/metalearner_predictability.py:105-342.

    Numbers are exact rationals; NaN and the infinities are cases of [num].  The models that are tuned, the search over their
    parameters, the features of a series and the classifiers are parameters. *)
From Coq Require Import List Bool Arith ZArith QArith.
From Verif Require Import Common.
Import ListNotations.
Open Scope nat_scope.

(** floats *)
Inductive num := Fin (q : Q) | PInf | NInf | NaN.
Definition qlt (a b : Q) : bool := negb (Qle_bool b a).

(** ** GetMetaData *)
Local Notation series := (list (Z * num)).
Definition finite (x : num) : bool := match x with Fin _ => true | _ => false end.
Definition num_eqb (x y : num) : bool :=
  match x, y with Fin a, Fin b => Qeq_bool a b | PInf, PInf => true | NInf, NInf => true | _, _ => false end.
(** nunique() > 1 — get_metadata.py:183: NaN is not counted *)
Definition varied (l : list num) : bool :=
  let known := filter (fun x => match x with NaN => false | _ => true end) l in
  match known with [] => false | x :: r => existsb (fun y => negb (num_eqb x y)) r end.
(** _validate_data — get_metadata.py:175-193 *)
Definition valid (min_length : Z) (ts : series) : bool :=
  negb (Z.of_nat (length ts) <? min_length)%Z && varied (map snd ts) && forallb finite (map snd ts).
(** a / b in floating point: division by zero gives an infinity or NaN *)
Definition qdiv (a b : Q) : num :=
  if Qeq_bool b 0 then (if Qeq_bool a 0 then NaN else if Qle_bool 0 a then PInf else NInf) else Fin (a / b).
Definition fin (x : num) : Q := match x with Fin q => q | _ => 0%Q end.
Definition qmaxl (l : list Q) : Q := fold_right (fun x m => if Qle_bool m x then x else m) (hd 0%Q l) l.
(** _scale — get_metadata.py:211-216; called on valid series only, so that the values are finite *)
Definition scaled (ts : series) : series :=
  let m := qmaxl (map (fun r => fin (snd r)) ts) in map (fun r => (fst r, qdiv (fin (snd r)) m)) ts.
(** int(len * 0.8) — get_metadata.py:155: the product of the floats never falls below the exact one *)
Definition split_idx (n : nat) : nat := 4 * n / 5.
(** the constructor: training and test series, [None] if it raises — get_metadata.py:140-173 *)
Definition prepare (min_length : Z) (scale : bool) (ts : series) : option (series * series) :=
  if valid min_length ts
  then let d := if scale then scaled ts else ts in Some (firstn (split_idx (length ts)) d, skipn (split_idx (length ts)) d)
  else None.

Section Tune.
Variables P M F : Type.
(** _evaluation_function — get_metadata.py:232-250: [forecast train p k] is [None] if the parameters, the fit or the forecast
    raise; so does the metric *)
Variable forecast : series -> P -> nat -> option F.
Variable metric : list num -> F -> option num.
Definition evaluation (train test : series) (p : P) : num :=
  match forecast train p (length test) with
  | None => PInf
  | Some f => match metric (map snd test) f with None => PInf | Some e => e end
  end.
(** scores without nan and the infinities, then nsmallest(1), the first of the least — get_metadata.py:270-276 *)
Definition finite_scores (tried : list (P * num)) : list (P * Q) :=
  flat_map (fun t => match snd t with Fin q => [(fst t, q)] | _ => [] end) tried.
Fixpoint least {A} (l : list (A * Q)) : option (A * Q) :=
  match l with
  | [] => None
  | x :: r => match least r with Some y => if qlt (snd y) (snd x) then Some y else Some x | None => Some x end
  end.
(** _tune_single — get_metadata.py:218-276; [None] as parameters is the empty dict *)
Definition tune_single (train test : series) (tried : list P) : option P * num :=
  match least (finite_scores (map (fun p => (p, evaluation train test p)) tried)) with
  | Some (p, q) => (Some p, Fin q)
  | None => (None, PInf)
  end.
(** tune_executor — get_metadata.py:278-297 : a dict in the order of all_models *)
Definition tune_all (train test : series) (models : list (M * list P)) : list (M * (option P * num)) :=
  map (fun m => (fst m, tune_single train test (snd m))) models.
(** the key with the least error, the first of them: sorted is stable — get_metadata.py:326; only finite errors and inf occur;
    [None]: IndexError *)
Definition err_lt (a b : num) : bool :=
  match a, b with Fin x, Fin y => qlt x y | Fin _, PInf => true | NInf, Fin _ => true | NInf, PInf => true | _, _ => false end.
Fixpoint best_entry (l : list (M * (option P * num))) : option (M * (option P * num)) :=
  match l with
  | [] => None
  | x :: r => match best_entry r with Some y => if err_lt (snd (snd y)) (snd (snd x)) then Some y else Some x | None => Some x end
  end.
Definition best_model (l : list (M * (option P * num))) : option M := option_map fst (best_entry l).
End Tune.

(** ** MetaLearnPredictability *)
(** one entry of the meta data: the features cannot be read ([None]) or are a vector; the error of the best model cannot be
    read or is a number *)
Section Entries.
Variable X : Type.
(** the loop of _reorganize_data — metalearner_predictability.py:113-128: hpt is read first, then the features, the features
    are appended, and only then is the error looked up.  [hpt_ok] : reading hpt itself succeeds *)
Record meta := { hpt_ok : bool; feats : option X; best_err : option num }.
Definition feature_rows (l : list meta) : list X :=
  flat_map (fun m => if hpt_ok m then match feats m with Some x => [x] | None => [] end else []) l.
Definition errors (l : list meta) : list num :=
  flat_map (fun m => if hpt_ok m then match feats m, best_err m with Some _, Some e => [e] | _, _ => [] end else []) l.
End Entries.
Arguments hpt_ok {X}. Arguments feats {X}. Arguments best_err {X}. Arguments feature_rows {X}. Arguments errors {X}.
(** labels > threshold — metalearner_predictability.py:129 *)
Definition label (threshold : Q) (e : num) : bool := match e with Fin q => qlt threshold q | PInf => true | _ => false end.

(** which rows train takes for fitting, validation and test — metalearner_predictability.py:215-237; [perm1] and [perm2] are the
    shuffles of the two calls of train_test_split, [nv] = int(n * valid_size), [nt] = int(n * test_size); sklearn takes the test
    part first from the shuffle *)
Section Rows.
Context {A : Type}.
Definition test_valid_rows (valid_size test_size : Q) (nv nt : nat) (rows : list A) (perm1 perm2 : list A -> list A) : list A * list A * option (list A) :=
  let test_size := if Qle_bool test_size 0 || Qle_bool 1 test_size then 0%Q else test_size in
  let s := perm1 rows in
  let valid := firstn nv s in
  let rest := skipn nv s in
  if qlt 0 test_size && qlt test_size (1 - valid_size)
  then let s2 := perm2 rest in (skipn nt s2, valid, Some (firstn nt s2))
  else (rows, valid, None).
End Rows.

(** precision and recall of "probability >= t" — sklearn's precision_recall_curve: one point for each threshold, ascending, and
    a last point with precision 1 and recall 0 and no threshold.  (Releases before 1.1 leave out thresholds below the first with
    full recall.) *)
Definition count (f : Q * bool -> bool) (l : list (Q * bool)) : nat := length (filter f l).
Definition ratio (a b : nat) : Q := inject_Z (Z.of_nat a) / inject_Z (Z.of_nat b).
Definition prec_at (l : list (Q * bool)) (t : Q) : Q := ratio (count (fun x => Qle_bool t (fst x) && snd x) l) (count (fun x => Qle_bool t (fst x)) l).
Definition rec_at (l : list (Q * bool)) (t : Q) : Q := ratio (count (fun x => Qle_bool t (fst x) && snd x) l) (count snd l).
Definition curve (thr : list Q) (l : list (Q * bool)) : list Q * list Q :=
  (map (prec_at l) thr ++ [1%Q], map (rec_at l) thr ++ [0%Q]).
(** clf_threshold — metalearner_predictability.py:251-258: threshold[np.where(p == np.max(p[r >= recall_threshold]))][-1], and 0.5
    on any exception: no such point, or an index past the end of the thresholds *)
Definition positions (f : Q -> bool) (p : list Q) : list nat := filter (fun i => f (nth i p 0%Q)) (seq 0 (length p)).
Definition choose_threshold (p r thr : list Q) (rt : Q) : Q :=
  match map (fun i => nth i p 0%Q) (filter (fun i => Qle_bool rt (nth i r 0%Q)) (seq 0 (length p))) with
  | [] => 1 # 2
  | l => let m := qmaxl l in
         let idx := positions (fun x => Qeq_bool x m) p in
         if forallb (fun i => i <? length thr) idx then nth (last idx 0) thr 0%Q else 1 # 2
  end.
(** the answer on the test set — metalearner_predictability.py:260 : 1 is "unpredictable" *)
Definition test_unpredictable (thr prob : Q) : bool := qlt thr prob.
(** pred_by_feature — metalearner_predictability.py:341 : 1 is "predictable"; pred returns [pred_by_feature == 1] *)
Definition pred_predictable (thr prob : Q) : bool := qlt prob thr.
