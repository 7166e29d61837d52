(** Theorems about the detector models around the outlier detectors (C167, C168). *)
From Verif Require Import Common OutlierModel OutlierMvProps WrapModel.
Open Scope nat_scope.

Lemma put_len {A} (v : A) : forall l i, length (put i v l) = length l.
Proof. induction l as [|x l IH]; intros [|i]; cbn [put length]; auto. Qed.
Lemma nth_put {A} (v d : A) : forall l i j, nth j (put i v l) d = if (j =? i) && (i <? length l) then v else nth j l d.
Proof.
  induction l as [|x l IH]; intros i j; [rewrite andb_comm; destruct i, j; reflexivity|]. destruct i as [|i], j as [|j]; cbn [put nth]; try reflexivity.
  rewrite IH. reflexivity.
Qed.
Lemma extend_h {R} h d (hp : list (list R)) : h < length hp -> nth h (extend h d hp) [] = nth h hp [] ++ nth d hp [].
Proof. intros H. unfold extend. rewrite nth_put, Nat.eqb_refl. destruct (Nat.ltb_spec h (length hp)); [reflexivity|lia]. Qed.
Lemma extend_o {R} h d j (hp : list (list R)) : j <> h -> nth j (extend h d hp) [] = nth j hp [].
Proof. intros H. unfold extend. rewrite nth_put. destruct (Nat.eqb_spec j h); [contradiction|reflexivity]. Qed.
Lemma mem_in t l : mem t l = true <-> In t l.
Proof.
  unfold mem. rewrite existsb_exists. split; [intros (x & I & E); apply Z.eqb_eq in E; subst; exact I|]. intros I. exists t. split; [exact I|apply Z.eqb_refl].
Qed.
Lemma lookup_in t (tb : list row) : In t (map fst tb) -> In (t, lookup t tb) tb.
Proof.
  intros I. unfold lookup. destruct (find _ tb) as [r|] eqn:F.
  - apply find_some in F as (A & B). apply Z.eqb_eq in B. subst t. destruct r. exact A.
  - apply in_map_iff in I as (r & E & I). pose proof (find_none _ _ F r I) as N. cbn in N. rewrite E, Z.eqb_refl in N. discriminate.
Qed.
Lemma forallb_false {A} (f : A -> bool) l : forallb f l = false <-> exists x, In x l /\ f x = false.
Proof.
  induction l as [|a l IH]; cbn [forallb]; [split; [discriminate|intros (x & [] & _)]|]. destruct (f a) eqn:E; cbn [andb].
  - rewrite IH. split; [intros (x & I & F); exists x; split; [right; exact I|exact F]|]. intros (x & [<-|I] & F); [congruence|]. exists x. auto.
  - split; [|reflexivity]. intros _. exists a. split; [left; reflexivity|exact E].
Qed.

Section Outlier.
Variable infer_freq : list Z -> option bool.
Variable fill : list row -> list (option Q).
Variable decompose : list (Z * Q) -> option (list Q * list Q * list Q).
Variable k : Q.
Notation program := (program infer_freq fill decompose k).
(** the OutlierDetector on rows: outliers, scores, times of the scores (outlier.py) *)
Notation detect := (clean_ts infer_freq fill decompose k).

Definition times (rows : list row) : list Z := map fst rows.
(** the rows a fit should use: the history, then the data *)
Definition all_rows (hp : list (list row)) (d : nat) (h : option nat) : list row :=
  match h with None => nth d hp [] | Some h => nth h hp [] ++ nth d hp [] end.
Definition proper (hp : list (list row)) (d : nat) (h : option nat) : Prop :=
  d < length hp /\ match h with None => True | Some h => h < length hp /\ h <> d end.

Lemma fit_rows hp d h : proper hp d h ->
  let '(hp', m) := fit_model infer_freq fill decompose k hp d h in
  nth (f_obj m) hp' [] = all_rows hp d h /\ nth d hp' [] = nth d hp [] /\
  match detect (all_rows hp d h) with Some (o, sc, ts) => f_table m = Some (combine ts sc) /\ f_out m = o | None => f_table m = None /\ f_out m = [] end.
Proof.
  intros (D & H). unfold fit_model. set (hp' := match h with None => hp | Some h => extend h d hp end). set (total := match h with None => d | Some h => h end).
  assert (A : nth total hp' [] = all_rows hp d h /\ nth d hp' [] = nth d hp []).
  { unfold hp', total, all_rows. destruct h as [h|]; [|split; reflexivity]. destruct H as [H N]. split; [apply extend_h, H|apply extend_o; congruence]. }
  destruct A as [A B]. unfold run_detector. cbn [f_obj f_table]. rewrite A. destruct (detect (all_rows hp d h)) as [((o & sc) & ts)|]; cbn [f_obj f_table f_out]; auto.
Qed.
Lemma remover_one o interp (rows : list row) :
  remover (Some [o]) interp (map fst rows) [map snd rows] =
    if forallb (fun t => mem t (map fst rows)) o
    then Some [let c := map (fun p : Z * option Q => if mem (fst p) o then None else snd p) rows in if interp then interpolate c else c] else None.
Proof.
  assert (C : combine (map fst rows) (map snd rows) = rows) by (induction rows as [|(a & b) r IH]; cbn; [reflexivity|now rewrite IH]).
  unfold remover. cbn [remove_columns]. rewrite C. destruct (forallb _ o); cbn [option_map]; [|reflexivity]. destruct interp; reflexivity.
Qed.

(** With a new detector model: the scores are those the outlier detector gives to the rows of the data in the history
    followed by the data, one for each row; the prediction is the data with the outliers missing; and the call raises
    exactly when the detector fails or loses a row of the data, or finds an outlier on a day it has added. *)
Theorem C167_fresh_partial : forall hp d h interp, proper hp d h ->
  let total := all_rows hp d h in
  match snd (program [FitPredict interp d h] hp None) with
  | [Response sc pr] =>
      exists o scs ts, detect total = Some (o, scs, ts) /\
        times sc = times (nth d hp []) /\ (forall r, In r sc -> In r (combine ts scs)) /\
        (interp = false -> forall t v, In (t, v) pr <-> In t (times (nth d hp [])) /\ exists v0, In (t, v0) total /\ (In t o /\ v = None \/ ~ In t o /\ v = v0))
  | [Raises] =>
      detect total = None \/ exists o scs ts, detect total = Some (o, scs, ts) /\
        ((exists t, In t (times (nth d hp [])) /\ ~ In t (times (combine ts scs))) \/ (exists t, In t o /\ ~ In t (times total)))
  | _ => False
  end.
Proof.
  intros hp d h interp P. cbv zeta. pose proof (fit_rows hp d h P) as F. cbn [WrapModel.program apply_op]. unfold predict_model.
  destruct (fit_model infer_freq fill decompose k hp d h) as [hp' m]. destruct F as (A & B & C). cbn [snd]. rewrite A, B. set (total := all_rows hp d h) in *.
  rewrite remover_one. destruct (detect total) as [((o & scs) & ts)|] eqn:DT.
  - destruct C as [-> ->]. destruct (forallb (fun t => mem t (map fst total)) o) eqn:FO.
    + destruct (forallb (fun t => mem t (map fst (combine ts scs))) (map fst (nth d hp []))) eqn:FT.
      * exists o, scs, ts. split; [reflexivity|]. rewrite forallb_forall in FT. split; [|split].
        -- unfold times. rewrite map_map. cbn [fst]. apply map_id.
        -- intros r I. apply in_map_iff in I as (t & <- & I). apply lookup_in. apply mem_in, FT, I.
        -- intros -> t v. rewrite filter_In. cbn [fst]. rewrite mem_in. fold (times (nth d hp [])).
           assert (X : In (t, v) (combine (map fst total) (map (fun p : Z * option Q => if mem (fst p) o then None else snd p) total)) <->
                       exists v0, In (t, v0) total /\ (In t o /\ v = None \/ ~ In t o /\ v = v0)).
           { clear. induction total as [|(a & b) r IH]; cbn [map combine In fst snd]; [split; [intros []|intros (v0 & [] & _)]|]. rewrite IH. split.
             - intros [E|(v0 & I & Y)]; [|exists v0; split; [right; exact I|exact Y]]. injection E as -> E. exists b. split; [left; reflexivity|].
               destruct (mem t o) eqn:MO; [left; split; [apply mem_in, MO|congruence]|right; split; [|congruence]]. intros I. apply mem_in in I. congruence.
             - intros (v0 & [E|I] & Y); [|right; exists v0; split; [exact I|exact Y]]. injection E as -> ->. left. f_equal.
               destruct (mem t o) eqn:MO; destruct Y as [(Y & ->)|(Y & ->)]; try reflexivity; exfalso; [apply Y, mem_in, MO|]. apply mem_in in Y. congruence. }
           rewrite X. tauto.
      * right. exists o, scs, ts. split; [reflexivity|]. left. apply forallb_false in FT as (t & I & N). exists t. split; [exact I|]. intros J. apply mem_in in J. unfold times in J. congruence.
    + right. exists o, scs, ts. split; [reflexivity|]. right. apply forallb_false in FO as (t & I & N). exists t. split; [exact I|]. intros J. apply mem_in in J. unfold times in J. congruence.
  - destruct C as [-> _]. left. reflexivity.
Qed.

Lemma program_app ops1 ops2 : forall hp st, program (ops1 ++ ops2) hp st =
  let '(hp1, st1, o1) := program ops1 hp st in let '(hp2, st2, o2) := program ops2 hp1 st1 in (hp2, st2, o1 ++ o2).
Proof.
  induction ops1 as [|o ops IH]; intros hp st.
  - cbn [app WrapModel.program]. destruct (program ops2 hp st) as [[? ?] ?]. reflexivity.
  - cbn [app WrapModel.program]. destruct (apply_op _ _ _ _ o hp st) as [[hp1 st1] out]. rewrite IH. destruct (program ops hp1 st1) as [[hp2 st2] o2].
    destruct (program ops2 hp2 st2) as [[? ?] ?]. reflexivity.
Qed.
(** fit_predict does not fit again: after any program that fitted the model, it ignores the values of the data and the whole
    history. *)
Theorem C167_stale_refuted : forall ops hp hp' m outs interp d1 d2 h1 h2, program ops hp None = (hp', Some m, outs) ->
  times (nth d1 hp' []) = times (nth d2 hp' []) ->
  program (ops ++ [FitPredict interp d1 h1]) hp None = program (ops ++ [FitPredict interp d2 h2]) hp None.
Proof.
  intros ops hp hp' m outs interp d1 d2 h1 h2 E T. unfold times in T. rewrite !program_app, E. cbn [WrapModel.program apply_op]. unfold predict_model. rewrite T. reflexivity.
Qed.
(** So a second series with a time the first one did not have is refused. *)
Theorem C167_second_refuted : forall hp d1 d2 i1 i2 o scs ts t, d1 < length hp -> detect (nth d1 hp []) = Some (o, scs, ts) ->
  In t (times (nth d2 hp [])) -> ~ In t ts ->
  last (snd (program [FitPredict i1 d1 None; FitPredict i2 d2 None] hp None)) Done = Raises.
Proof.
  intros hp d1 d2 i1 i2 o scs ts t L E I N. set (m := {| f_obj := d1; f_table := Some (combine ts scs); f_out := o |}).
  assert (X : run_detector infer_freq fill decompose k hp m = m) by (unfold run_detector; cbn [m f_obj]; rewrite E; reflexivity).
  assert (Y : fit_model infer_freq fill decompose k hp d1 None = (hp, m)) by (unfold fit_model, run_detector; cbn [f_obj]; rewrite E; reflexivity).
  cbn [WrapModel.program apply_op]. unfold predict_model. rewrite Y, X. cbn [snd last m f_obj f_table f_out]. rewrite remover_one.
  destruct (forallb (fun t => mem t (map fst (nth d1 hp []))) o); [|reflexivity].
  assert (F : forallb (fun t0 => mem t0 (map fst (combine ts scs))) (map fst (nth d2 hp [])) = false).
  { apply forallb_false. exists t. split; [exact I|]. destruct (mem t _) eqn:W; [|reflexivity]. apply mem_in, in_map_iff in W as ((a & b) & A & B). cbn in A. subst a. apply in_combine_l in B. contradiction. }
  rewrite F. reflexivity.
Qed.

(** The history of the caller is changed: it ends with the rows of the data afterwards, and a new detector model on the same
    data and history fails on the doubled times. *)
Theorem C167_history_refuted : forall hp d h interp interp', proper hp d (Some h) -> nth d hp [] <> [] ->
  (forall ts, ~ NoDup ts -> infer_freq ts <> Some true) ->
  let hp' := fst (fst (program [FitPredict interp d (Some h)] hp None)) in
  nth h hp' [] = nth h hp [] ++ nth d hp [] /\ snd (program [FitPredict interp' d (Some h)] hp' None) = [Raises].
Proof.
  intros hp d h interp interp' P ND IF. cbv zeta.
  assert (X : fst (fst (program [FitPredict interp d (Some h)] hp None)) = extend h d hp) by reflexivity. rewrite X. destruct P as (D & H & N).
  pose proof (extend_h h d hp H) as A. pose proof (extend_o h d d hp ltac:(congruence)) as B. split; [exact A|].
  assert (P' : proper (extend h d hp) d (Some h)) by (unfold proper, extend; rewrite put_len; auto).
  pose proof (C167_fresh_partial (extend h d hp) d (Some h) interp' P') as T. cbv zeta in T.
  assert (DN : detect (all_rows (extend h d hp) d (Some h)) = None).
  { unfold all_rows. rewrite A, B. set (rows := (nth h hp [] ++ nth d hp []) ++ nth d hp []).
    assert (U : ~ NoDup (map fst rows)).
    { unfold rows. destruct (nth d hp []) as [|r l]; [contradiction|]. rewrite <- app_assoc, !map_app. intros U.
      assert (V : forall (a b : list Z), NoDup (a ++ b) -> NoDup b) by (induction a as [|x a IH]; intros b W; [exact W|inversion W; subst; now apply IH]).
      apply V in U. cbn [map app] in U. inversion U as [|? ? U1 _]. apply U1, in_or_app. right. left. reflexivity. }
    unfold clean_ts. pose proof (IF _ U) as W. destruct (infer_freq (map fst rows)) as [[|]|]; [contradiction| |reflexivity].
    assert (Y : daily rows = None); [|rewrite Y; reflexivity]. unfold daily. destruct (unique (map fst rows)) eqn:UQ; [|reflexivity]. exfalso. apply U. revert UQ.
    generalize (map fst rows). induction l as [|x l IH]; intros Z; constructor; cbn [unique] in Z; apply andb_prop in Z as [Z1 Z2]; [|apply IH, Z2].
    intros J. apply mem_in in J. rewrite J in Z1. discriminate. }
  rewrite DN in T. destruct (snd (program [FitPredict interp' d (Some h)] (extend h d hp) None)) as [|o l] eqn:E; [contradiction|].
  destruct o; try contradiction; [|destruct l; [reflexivity|contradiction]]. destruct l; [|contradiction]. destruct T as (? & ? & ? & T & _). discriminate.
Qed.
(** The model reads the series of the caller again at every prediction: after the caller changed it, the next prediction
    gives the scores of the old rows, and the same call once more those of the new ones. *)
Theorem C167_twice_refuted : forall hp d rows i1 i2 sc1 pr1 sc2 pr2, d < length hp -> times rows = times (nth d hp []) ->
  snd (program [Fit d None; Change d rows; Predict i1 d None; Predict i2 d None] hp None) = [Done; Done; Response sc1 pr1; Response sc2 pr2] ->
  exists o scs ts, detect (nth d hp []) = Some (o, scs, ts) /\ (forall r, In r sc1 -> In r (combine ts scs)) /\
    forall o' scs' ts', detect rows = Some (o', scs', ts') -> forall r, In r sc2 -> In r (combine ts' scs').
Proof.
  intros hp d rows i1 i2 sc1 pr1 sc2 pr2 L T. cbn [WrapModel.program apply_op]. unfold predict_model, fit_model.
  set (hp' := put d rows hp). assert (R : nth d hp' [] = rows) by (unfold hp'; rewrite nth_put, Nat.eqb_refl; destruct (Nat.ltb_spec d (length hp)); [reflexivity|lia]).
  set (m := run_detector infer_freq fill decompose k hp {| f_obj := d; f_table := None; f_out := [] |}).
  assert (O : f_obj m = d) by (unfold m, run_detector; cbn [f_obj]; destruct (detect (nth d hp [])) as [((? & ?) & ?)|]; reflexivity).
  set (m' := run_detector infer_freq fill decompose k hp' m).
  assert (O' : f_obj m' = d) by (unfold m', run_detector; rewrite O; destruct (detect (nth d hp' [])) as [((? & ?) & ?)|]; reflexivity).
  cbn [snd]. rewrite O, O', R, !remover_one. intros E. injection E as E1 E2.
  destruct (f_table m) as [tb|] eqn:FM; [|discriminate]. destruct (forallb (fun t => mem t (map fst rows)) (f_out m)); [|discriminate].
  destruct (forallb (fun t => mem t (map fst tb)) (map fst rows)) eqn:G1; [|discriminate]. injection E1 as <- <-.
  assert (X : exists o scs ts, detect (nth d hp []) = Some (o, scs, ts) /\ tb = combine ts scs).
  { unfold m, run_detector in FM. cbn [f_obj] in FM. destruct (detect (nth d hp [])) as [((o & scs) & ts)|]; cbn [f_table] in FM; [|discriminate]. injection FM as <-. exists o, scs, ts. auto. }
  destruct X as (o & scs & ts & DT & ->). exists o, scs, ts. split; [exact DT|]. rewrite forallb_forall in G1. split.
  - intros r I. apply in_map_iff in I as (t & <- & I). apply lookup_in, mem_in, G1, I.
  - intros o' scs' ts' D'. assert (FM' : f_table m' = Some (combine ts' scs')) by (unfold m', run_detector; rewrite O, R, D'; reflexivity). rewrite FM' in E2.
    destruct (forallb (fun t => mem t (map fst rows)) (f_out m')); [|discriminate]. destruct (forallb (fun t => mem t (map fst (combine ts' scs'))) (map fst rows)) eqn:G2; [|discriminate].
    injection E2 as <- <-. rewrite forallb_forall in G2. intros r I. apply in_map_iff in I as (t & <- & I). apply lookup_in, mem_in, G2, I.
Qed.
End Outlier.

(** A run: no missing values, the first value of the series as trend, no season. *)
Definition c167_decompose (r : list (Z * Q)) : option (list Q * list Q * list Q) :=
  Some (map (fun _ => 10%Q) r, map (fun _ => 0%Q) r, map (fun p => snd p - 10)%Q r).
Definition c167_freq (ts : list Z) : option bool := Some (unique ts).
Definition c167_rows (from : Z) (l : list Z) : list row := map (fun p => (from + Z.of_nat (fst p), Some (inject_Z (snd p)))%Z) (combine (seq 0 (length l)) l).
Example C167_case :
  let hp := [c167_rows 0 [10; 11; 9; 10; 12; 8]%Z; c167_rows 6 [10; 99; 11]%Z; c167_rows 9 [10; 10]%Z] in
  let run ops := snd (program c167_freq (map snd) c167_decompose 3 ops hp None) in
  match run [FitPredict false 1 (Some 0)] with
  | [Response [(6%Z, Some a); (7%Z, Some b); (8%Z, Some c)] [(6%Z, Some p); (7%Z, None); (8%Z, Some q)]] => (1 < b)%Q /\ (0 < a < 1)%Q /\ (a < c)%Q /\ (p == 10)%Q
  | _ => False
  end /\ match run [FitPredict false 1 (Some 0); FitPredict false 2 None] with [_; Raises] => True | _ => False end.
Proof. vm_compute. repeat split. Qed.

Print Assumptions C167_fresh_partial.
Print Assumptions C167_stale_refuted.
Print Assumptions C167_second_refuted.
Print Assumptions C167_history_refuted.
Print Assumptions C167_twice_refuted.
