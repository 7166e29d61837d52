(** The model-selection meta-learner — models/metalearner/metalearner_modelselect.py:108-580: downsampling, standardising, the
    classes returned and the error report; standardising also of metalearner_predictability.py:130-180, 326-341.

    Labels are numbers.  Random draws, the classifiers and the order argsort gives to equal probabilities are parameters.
    Counts, errors and probabilities are exact rationals, features exact reals; [None] is NaN. *)
From Coq Require Import List Bool Arith ZArith QArith Reals.
From Verif Require Import Common MetricsModel.
Import ListNotations.
Open Scope nat_scope.

(** ** RandomDownSampler — metalearner_modelselect.py:552-580 *)
(** the keys of idx_dict: the labels in the order of their first row; and the rows of a key — lines 564-566 *)
Fixpoint firsts (seen ys : list nat) : list nat :=
  match ys with [] => [] | y :: r => if existsb (Nat.eqb y) seen then firsts seen r else y :: firsts (y :: seen) r end.
Definition rows_of (ys : list nat) (y : nat) : list nat := filter (fun i => nth i ys 0 =? y) (seq 0 (length ys)).
(** min(Counter(dataY).values()) — line 562 *)
Definition min_count (ys : list nat) : nat :=
  match map (fun y => length (rows_of ys y)) (firsts [] ys) with [] => 0 | n :: r => fold_left Nat.min r n end.
(** [draw rows n] is np.random.choice(rows, size=n, replace=False) — lines 568-573 *)
Section Down.
Context {H X : Type}.
Variable draw : list nat -> nat -> list nat.
Variables (h0 : H) (x0 : X).
Definition drawn (ys : list nat) : list nat := flat_map (fun y => draw (rows_of ys y) (min_count ys)) (firsts [] ys).
Definition resample (hs : list H) (xs : list X) (ys : list nat) : list H * list X * list nat :=
  let idx := drawn ys in (map (fun i => nth i hs h0) idx, map (fun i => nth i xs x0) idx, map (fun i => nth i ys 0) idx).
End Down.

(** ** The classes returned by pred_by_feature — metalearner_modelselect.py:457-462; [order] = np.argsort(-prob) of one row *)
Section Top.
Context {C : Type}.
Definition top (classes : list C) (c0 : C) (order : list nat) (n_top : Z) : list C :=
  let ordered := map (fun i => nth i classes c0) order in
  if (n_top <? 0)%Z then firstn (Z.to_nat (Z.of_nat (length ordered) + n_top)) ordered else firstn (Z.to_nat n_top) ordered.
(** ** pred_fuzzy — metalearner_modelselect.py:464-528 *)
(** the share of bootstrap means below zero; [idx] are the n * rep draws, rows of n — lines 467-473 *)
Fixpoint chunk (n rep : nat) (idx : list nat) : list (list nat) := match rep with 0 => [] | S r => firstn n idx :: chunk n r (skipn n idx) end.
Definition mean (l : list Q) : Q := qsum l / inject_Z (Z.of_nat (length l)).
Definition bootstrap (first second : list Q) (rep : nat) (idx : list nat) : Q :=
  let diff := map (fun p => fst p - snd p)%Q (combine first second) in
  let bs := map (fun c => mean (map (fun i => nth i diff 0%Q) c)) (chunk (length diff) rep idx) in
  mean (map (fun b => b2q (negb (Qle_bool 0 b))) bs).
(** [trees] : one list of probabilities for each tree — lines 507-528 *)
Definition fuzzy (classes : list C) (c0 : C) (order : list nat) (prob : list Q) (trees : list (list Q)) (sig : Q) (idx : list nat) : list C * list Q * Q :=
  let two := firstn 2 order in
  let p := bootstrap (map (fun t => nth (nth 0 two 0) t 0%Q) trees) (map (fun t => nth (nth 1 two 0) t 0%Q) trees) 200 idx in
  let kept := if Qle_bool sig p then two else firstn 1 two in
  (map (fun i => nth i classes c0) kept, map (fun i => nth i prob 0%Q) kept, p).
End Top.

(** ** The errors train reports — metalearner_modelselect.py:318-346: [errs r c] is hpt[r][c][-1] *)
Definition em (median : bool) (l : list Q) : Q := if median then qmedian l else mean l.
Section Report.
Variable R : Type.
Variable errs : R -> nat -> Q.
Definition meta_error (median : bool) (rows : list R) (predicted : list nat) : Q := em median (map (fun rc => errs (fst rc) (snd rc)) (combine rows predicted)).
Definition label_error (median : bool) (rows : list R) (label : nat) : Q := em median (map (fun r => errs r label) rows).
End Report.

(** ** Standardising one feature *)
Open Scope R_scope.
Definition rtotal (l : list R) : R := fold_right Rplus 0 l.
Definition rmean (l : list R) : R := rtotal l / INR (length l).
Definition rvar (l : list R) : R := rmean (map (fun x => (x - rmean l) * (x - rmean l)) l).
(** np.std, with 1 for 0 — metalearner_modelselect.py:134-136, 186-188, metalearner_predictability.py:135-140 *)
Definition rstd (l : list R) : R := let s := sqrt (rvar l) in if Req_EM_T s 0 then 1 else s.
Definition fill (x : option R) : R := match x with Some v => v | None => 0 end.
Definition standard (m s x : R) : R := (x - m) / s.
(** the learner: the column, what it is standardised with, whether new series are standardised *)
Record learner := { col : list R; x_mean : R; x_std : R; flag : bool }.
(** _reorganize_data: fillna(0) first — metalearner_modelselect.py:129-136, metalearner_predictability.py:131-140 *)
Definition organized (cells : list (option R)) : learner :=
  let c := map fill cells in {| col := c; x_mean := rmean c; x_std := rstd c; flag := false |}.
(** preprocess of MetaLearnPredictability — metalearner_predictability.py:161-180: with the stored mean and deviation *)
Definition preprocess_p (l : learner) : learner :=
  {| col := map (standard (x_mean l) (x_std l)) (col l); x_mean := x_mean l; x_std := x_std l; flag := true |}.
(** preprocess of MetaLearnModelSelect — metalearner_modelselect.py:181-195; [rows] are the rows drawn *)
Definition preprocess_s (down : option (list nat)) (scale : bool) (l : learner) : learner :=
  let l := match down with
           | Some rows => let c := map (fun i => nth i (col l) 0) rows in {| col := c; x_mean := rmean c; x_std := rstd c; flag := flag l |}
           | None => l end in
  if scale then {| col := map (standard (x_mean l) (x_std l)) (col l); x_mean := x_mean l; x_std := x_std l; flag := true |} else l.
(** a new series' feature, as the classifier sees it: pred_by_feature of MetaLearnPredictability —
    metalearner_predictability.py:338-340; pred_by_feature of MetaLearnModelSelect — metalearner_modelselect.py:454-456; and
    pred_fuzzy — metalearner_modelselect.py:504-506 *)
Definition seen_p (l : learner) (x : option R) : R := if flag l then standard (x_mean l) (x_std l) (fill x) else fill x.
Definition seen_s (l : learner) (x : option R) : R :=
  fill (if flag l then match x with Some v => Some (standard (x_mean l) (x_std l) v) | None => None end else x).
Definition seen_fuzzy (l : learner) (x : option R) : R := if flag l then standard (x_mean l) (x_std l) (fill x) else fill x.
