(** Theorems about evaluation runs (C145, C146). *)
From Coq Require Import String.
From Verif Require Import Common RunsModel.
Open Scope nat_scope.

Section Runs.
Variables (V R : Type).
Notation op := (op V R).
Notation registry := (list (string * run V R)).
Notation apply_op := (apply_op V R).
Notation history := (history V R).
Notation find := (find V R).
(** The operations that make and unmake a run of that name. *)
Definition concerns (s : string) (o : op) : Prop := o = Create V R (Name s) \/ o = Delete V R (Name s).
(** After the calls [ops] a run named s should exist: the last call that creates or deletes s creates it. *)
Definition should_exist (ops : list op) (s : string) : Prop :=
  exists before after, ops = before ++ Create V R (Name s) :: after /\ ~ In (Delete V R (Name s)) after.

Lemma find_app s g h : find s (g ++ h) = match find s g with Some r => Some r | None => find s h end.
Proof. induction g as [|[k r] g IH]; [reflexivity|]. cbn. destruct (String.eqb k s); [reflexivity|exact IH]. Qed.
Lemma find_update s f : forall g t, find t (update V R s f g) = if String.eqb s t then option_map f (find t g) else find t g.
Proof.
  induction g as [|[k r] g IH]; intros t; cbn; [destruct (String.eqb s t); reflexivity|].
  destruct (String.eqb_spec k s) as [->|K]; cbn.
  - destruct (String.eqb_spec s t) as [->|T]; [reflexivity|]. reflexivity.
  - rewrite IH. destruct (String.eqb_spec s t) as [->|T].
    + destruct (String.eqb_spec k t); [contradiction|reflexivity].
    + destruct (String.eqb k t); reflexivity.
Qed.
(** names are distinct *)
Definition distinct (g : registry) : Prop := NoDup (map fst g).
Lemma find_none s : forall g, find s g = None <-> ~ In s (map fst g).
Proof.
  induction g as [|[k r] g IH]; cbn; [tauto|]. destruct (String.eqb_spec k s) as [->|K]; [split; [discriminate|tauto]|]. rewrite IH. tauto.
Qed.
Lemma find_remove s : forall g, distinct g -> forall t, find t (remove V R s g) = if String.eqb s t then None else find t g.
Proof.
  induction g as [|[k r] g IH]; intros D t; cbn; [destruct (String.eqb s t); reflexivity|]. inversion D as [|? ? NI D']; subst.
  destruct (String.eqb_spec k s) as [->|K]; cbn.
  - destruct (String.eqb_spec s t) as [->|T]; [apply find_none; exact NI|reflexivity].
  - rewrite IH by exact D'. destruct (String.eqb_spec s t) as [->|T]; [|reflexivity]. destruct (String.eqb_spec k t); [contradiction|reflexivity].
Qed.
Lemma update_names s f : forall g, map fst (update V R s f g) = map fst g.
Proof. induction g as [|[k r] g IH]; cbn; [reflexivity|]. destruct (String.eqb k s); cbn; [reflexivity|f_equal; exact IH]. Qed.
Lemma remove_distinct s : forall g, distinct g -> distinct (remove V R s g).
Proof.
  induction g as [|[k r] g IH]; intros D; cbn; [exact D|]. inversion D as [|? ? NI D']; subst. destruct (String.eqb k s); [exact D'|].
  constructor; [|apply IH; exact D']. intros I. apply NI. clear - I. induction g as [|[k' r'] g IH]; cbn in *; [destruct I|].
  destruct (String.eqb k' s); cbn in *; [right; exact I|]. destruct I; [left; assumption|right; apply IH; assumption].
Qed.
Lemma apply_distinct o g : distinct g -> distinct (fst (apply_op o g)).
Proof.
  intros D. destruct o as [[s|]|[s|]|[s|]|[s|] a|[s|] ms l]; cbn; try exact D.
  - destruct (find s g) eqn:F; cbn; [exact D|]. unfold distinct. rewrite map_app. cbn. apply find_none in F.
    apply (NoDup_Add (Add_app s (map fst g) [])). rewrite app_nil_r. split; assumption.
  - destruct (find s g) as [r|] eqn:F; cbn; rewrite ?F; cbn; [apply remove_distinct; exact D|exact D].
  - destruct (find s g) as [r|] eqn:F; cbn; rewrite ?F; cbn; exact D.
  - destruct (find s g) as [r|] eqn:F; cbn; rewrite ?F; cbn; [unfold distinct; rewrite update_names; exact D|exact D].
  - destruct (find s g) as [r|] eqn:F; cbn; rewrite ?F; cbn; [|exact D]. destruct (evaluate V R s ms l r); cbn. unfold distinct. rewrite update_names. exact D.
Qed.
(** what an operation does to the entry of a name *)
Lemma apply_find o g t : distinct g ->
  (find t (fst (apply_op o g)) <> None <->
   (o = Create V R (Name t) \/ (find t g <> None /\ o <> Delete V R (Name t)))).
Proof.
  intros D.
  assert (K : forall o, (forall n, o <> Create V R n) -> (forall n, o <> Delete V R n) ->
    (find t g <> None <-> (o = Create V R (Name t) \/ (find t g <> None /\ o <> Delete V R (Name t))))).
  { intros o' N1 N2. split; [intros H; right; split; [exact H|apply N2]|]. intros [->|[H _]]; [destruct (N1 _ eq_refl)|exact H]. }
  assert (U : forall s f, find t (update V R s f g) <> None <-> find t g <> None).
  { intros s f. rewrite find_update. destruct (String.eqb s t); [|tauto]. destruct (find t g); cbn; split; congruence. }
  destruct o as [[s|]|[s|]|[s|]|[s|] a|[s|] ms l]; cbn.
  - destruct (find s g) as [r|] eqn:F; cbn; rewrite ?F; cbn.
    + split; [intros H; right; split; [exact H|discriminate]|]. intros [E|[H _]]; [injection E as <-; congruence|exact H].
    + rewrite find_app. cbn. destruct (String.eqb_spec s t) as [->|T]; [rewrite F; split; [left; reflexivity|discriminate]|].
      destruct (find t g) eqn:F'; split; intros H; try discriminate; try congruence.
      * right. split; [discriminate|discriminate].
      * destruct H as [E|[H _]]; [injection E as ->; congruence|exact H].
  - split; [intros H; right; split; [exact H|discriminate]|]. intros [E|[H _]]; [discriminate|exact H].
  - destruct (find s g) as [r|] eqn:F; cbn; rewrite ?F; cbn.
    + rewrite find_remove by exact D. destruct (String.eqb_spec s t) as [->|T].
      * split; [congruence|]. intros [E|[_ H]]; [discriminate|congruence].
      * split; [intros H; right; split; [exact H|congruence]|]. intros [E|[H _]]; [discriminate|exact H].
    + split; [intros H; right; split; [exact H|congruence]|]. intros [E|[H _]]; [discriminate|exact H].
  - split; [intros H; right; split; [exact H|discriminate]|]. intros [E|[H _]]; [discriminate|exact H].
  - destruct (find s g) as [r|] eqn:F; cbn; rewrite ?F; cbn; apply K; discriminate.
  - apply K; discriminate.
  - destruct (find s g) as [r|] eqn:F; cbn; rewrite ?F; cbn; [rewrite U|]; apply K; discriminate.
  - apply K; discriminate.
  - destruct (find s g) as [r|] eqn:F; cbn; rewrite ?F; cbn; [destruct (evaluate V R s ms l r); cbn; rewrite U|]; apply K; discriminate.
  - apply K; discriminate.
Qed.
Lemma history_app : forall a g b, fst (history g (a ++ b)) = fst (history (fst (history g a)) b).
Proof.
  induction a as [|o a IH]; intros g b; [reflexivity|]. cbn. destruct (apply_op o g) as [g' out]. specialize (IH g' b).
  destruct (history g' (a ++ b)) as [g1 o1], (history g' a) as [g2 o2]. cbn in *. exact IH.
Qed.
Lemma history_distinct : forall ops g, distinct g -> distinct (fst (history g ops)).
Proof.
  induction ops as [|o ops IH]; intros g D; [exact D|]. cbn. pose proof (apply_distinct o g D) as D'. destruct (apply_op o g) as [g' out].
  specialize (IH g' D'). destruct (history g' ops). exact IH.
Qed.
Lemma name_dec (o : op) s : {o = Create V R (Name s)} + {o <> Create V R (Name s)}.
Proof.
  destruct o as [[t|]|n|n|n a|n ms l]; try (right; discriminate). destruct (string_dec t s) as [->|N]; [left; reflexivity|right; congruence].
Qed.
Lemma del_dec (o : op) s : {o = Delete V R (Name s)} + {o <> Delete V R (Name s)}.
Proof.
  destruct o as [n|[t|]|n|n a|n ms l]; try (right; discriminate). destruct (string_dec t s) as [->|N]; [left; reflexivity|right; congruence].
Qed.
(** For every history of calls, failing ones included: a run exists exactly if it was created and not deleted since. *)
Theorem C145_exists : forall ops s, (exists r, find s (fst (history [] ops)) = Some r) <-> should_exist ops s.
Proof.
  intros ops s. transitivity (find s (fst (history [] ops)) <> None).
  { destruct (find s (fst (history [] ops))) as [r|]; split; try discriminate; [intros _; exists r; reflexivity|intros [r H]; discriminate|congruence]. }
  induction ops as [|o ops IH] using rev_ind.
  - cbn. split; [congruence|]. intros (b & a & E & _). destruct b; discriminate.
  - rewrite history_app. set (g := fst (history [] ops)) in *. assert (D : distinct g) by (apply history_distinct; constructor).
    assert (E1 : fst (history g [o]) = fst (apply_op o g)) by (cbn; destruct (apply_op o g); reflexivity). rewrite E1, apply_find by exact D. split.
    + intros [->|[H N]]; [exists ops, []; split; [reflexivity|intros []]|]. apply IH in H as (b & a & -> & NI). exists b, (a ++ [o]). split; [rewrite <- app_assoc; reflexivity|].
      intros I. apply in_app_or in I as [I|[I|[]]]; [exact (NI I)|congruence].
    + intros (b & a & E & NI). destruct a as [|x a] using rev_ind.
      * apply app_inj_tail in E as [_ <-]. left. reflexivity.
      * clear IHa. change (b ++ Create V R (Name s) :: a ++ [x]) with (b ++ (Create V R (Name s) :: a) ++ [x]) in E. rewrite app_assoc in E.
        apply app_inj_tail in E as [-> <-]. destruct (name_dec o s) as [->|N]; [left; reflexivity|]. right. split.
        -- apply IH. exists b, a. split; [reflexivity|]. intros I. apply NI. apply in_or_app. left. exact I.
        -- intros ->. apply NI. apply in_or_app. right. left. reflexivity.
Qed.
(** create raises exactly for names in use (and non-strings); the other calls raise for names not in use. *)
Theorem C145_raises : forall ops s,
  let g := fst (history [] ops) in
  (snd (apply_op (Create V R (Name s)) g) = Raises V R <-> should_exist ops s) /\
  (snd (apply_op (Delete V R (Name s)) g) = Raises V R <-> ~ should_exist ops s) /\
  (snd (apply_op (Get V R (Name s)) g) = Raises V R <-> ~ should_exist ops s) /\
  (forall a, snd (apply_op (SetPreds V R (Name s) a) g) = Raises V R <-> ~ should_exist ops s) /\
  (forall ms l, ~ should_exist ops s -> snd (apply_op (Evaluate V R (Name s) ms l) g) = Raises V R) /\
  snd (apply_op (Create V R NotAString) g) = Raises V R /\ snd (apply_op (Delete V R NotAString) g) = Raises V R /\ snd (apply_op (Get V R NotAString) g) = Raises V R.
Proof.
  intros ops s g. pose proof (C145_exists ops s) as E. fold g in E. cbn. rewrite <- E.
  destruct (find s g) as [r|] eqn:F; cbn; rewrite ?F; cbn.
  - assert (X : exists r0, Some r = Some r0) by (exists r; reflexivity).
    split; [tauto|]. split; [split; [discriminate|tauto]|]. split; [split; [discriminate|tauto]|]. split; [intros a; split; [discriminate|tauto]|].
    split; [tauto|]. repeat split.
  - assert (X : ~ exists r0 : run V R, None = Some r0) by (intros [r0 H]; discriminate).
    split; [split; [discriminate|tauto]|]. split; [tauto|]. split; [tauto|]. split; [tauto|]. split; [tauto|]. repeat split.
Qed.
(** A call about one run leaves all others as they are; a call that raises changes neither the set of runs nor any
    predictions or results. *)
Definition about (o : op) (s : string) : Prop :=
  match o with Create _ _ n | Delete _ _ n | Get _ _ n | SetPreds _ _ n _ | Evaluate _ _ n _ _ => n = Name s end.
Theorem C145_independent : forall ops o t, ~ about o t ->
  let g := fst (history [] ops) in find t (fst (apply_op o g)) = find t g.
Proof.
  intros ops o t N g. assert (D : distinct g) by (apply history_distinct; constructor).
  destruct o as [[s|]|[s|]|[s|]|[s|] a|[s|] ms l]; cbn in N; cbn; try reflexivity;
    try (assert (T : s <> t) by congruence; apply String.eqb_neq in T).
  - destruct (find s g) as [r|] eqn:F; cbn; rewrite ?F; cbn; [reflexivity|]. rewrite find_app. cbn. rewrite T. destruct (find t g); reflexivity.
  - destruct (find s g) as [r|] eqn:F; cbn; rewrite ?F; cbn; [|reflexivity]. rewrite find_remove by exact D. rewrite T. reflexivity.
  - destruct (find s g) as [r|] eqn:F; cbn; rewrite ?F; reflexivity.
  - destruct (find s g) as [r|] eqn:F; cbn; rewrite ?F; cbn; [|reflexivity]. rewrite find_update, T. reflexivity.
  - destruct (find s g) as [r|] eqn:F; cbn; rewrite ?F; cbn; [|reflexivity]. destruct (evaluate V R s ms l r). cbn. rewrite find_update, T. reflexivity.
Qed.
Theorem C146_failure_partial : forall ops o t,
  let g := fst (history [] ops) in snd (apply_op o g) = Raises V R ->
  match find t g, find t (fst (apply_op o g)) with
  | Some r, Some r' => preds V R r' = preds V R r /\ results V R r' = results V R r
  | None, None => True
  | _, _ => False
  end.
Proof.
  intros ops o t g. assert (Z : match find t g, find t g with Some r, Some r' => preds V R r' = preds V R r /\ results V R r' = results V R r | None, None => True | _, _ => False end).
  { destruct (find t g); [split; reflexivity|exact I]. }
  destruct o as [[s|]|[s|]|[s|]|[s|] a|[s|] ms l]; cbn; try (intros _; exact Z).
  - destruct (find s g) as [r|] eqn:F; cbn; rewrite ?F; cbn; [intros _; exact Z|discriminate].
  - destruct (find s g) as [r|] eqn:F; cbn; rewrite ?F; cbn; [discriminate|intros _; exact Z].
  - destruct (find s g) as [r|] eqn:F; cbn; rewrite ?F; cbn; [discriminate|intros _; exact Z].
  - destruct (find s g) as [r|] eqn:F; cbn; rewrite ?F; cbn; [discriminate|intros _; exact Z].
  - destruct (find s g) as [r|] eqn:F; cbn; rewrite ?F; cbn; [|intros _; exact Z]. unfold evaluate. destruct (preds V R r) as [[v|p]|] eqn:P; cbn.
    + intros _. rewrite find_update. destruct (String.eqb s t); [|exact Z]. destruct (find t g); cbn; [split; reflexivity|exact I].
    + destruct l as [v|l]; cbn; [intros _; rewrite find_update; destruct (String.eqb s t); [|exact Z]; destruct (find t g); cbn; [split; reflexivity|exact I]|].
      destruct (Nat.eqb (List.length p) (List.length l)); [destruct (run_metrics V R ms p l); cbn; [discriminate|]|cbn];
        intros _; rewrite find_update; (destruct (String.eqb s t); [|exact Z]); destruct (find t g); cbn; [split; reflexivity|exact I|split; reflexivity|exact I].
    + intros _. rewrite find_update. destruct (String.eqb s t); [|exact Z]. destruct (find t g); cbn; [split; reflexivity|exact I].
Qed.
(** A successful evaluation: predictions and labels are lists of equal length, and the results, which are returned and stored with the
    labels, are the metrics applied to them, one by one; without predictions it raises. *)
Theorem C146_results : forall ops s ms l t,
  let g := fst (history [] ops) in snd (apply_op (Evaluate V R (Name s) ms l) g) = GotResults V R t ->
  exists p l' r', (exists r, find s g = Some r /\ preds V R r = Some (Array V p)) /\ l = Array V l' /\ List.length p = List.length l' /\
    Forall2 (fun m v => fst v = fst m /\ snd m p l' = Some (snd v)) ms t /\
    find s (fst (apply_op (Evaluate V R (Name s) ms l) g)) = Some r' /\ labels V R r' = Some l /\ results V R r' = Some t /\ preds V R r' = Some (Array V p).
Proof.
  intros ops s ms l t g. cbn. destruct (find s g) as [r|] eqn:F; cbn; rewrite ?F; cbn; [|discriminate]. unfold evaluate.
  destruct (preds V R r) as [[v|p]|] eqn:P; cbn; try discriminate. destruct l as [v|l]; cbn; [discriminate|].
  destruct (Nat.eqb (List.length p) (List.length l)) eqn:L; cbn; [|discriminate]. destruct (run_metrics V R ms p l) as [t'|] eqn:M; cbn; [|discriminate].
  intros E. injection E as ->. eexists. eexists. eexists. split; [exists r; split; [reflexivity|exact P]|]. split; [reflexivity|]. split; [apply Nat.eqb_eq; exact L|].
  split; [|split; [rewrite find_update, String.eqb_refl, F; reflexivity|]; cbn; repeat split; exact P].
  clear - M. revert t M. induction ms as [|[m f] ms IH]; intros t M; cbn in M; [injection M as <-; constructor|].
  destruct (f p l) as [v|] eqn:X; [|discriminate]. destruct (run_metrics V R ms p l) as [t'|]; [|discriminate]. injection M as <-.
  constructor; [split; [reflexivity|exact X]|]. apply IH. reflexivity.
Qed.
End Runs.
(** A run starts empty, whatever was done to other runs or to earlier runs of that name. *)
Theorem C145_fresh : forall (V R : Type) (ops : list (op V R)) s,
  let g := fst (history V R [] ops) in snd (apply_op V R (Create V R (Name s)) g) = Done V R ->
  exists r, find V R s (fst (apply_op V R (Create V R (Name s)) g)) = Some r /\ preds V R r = None /\ labels V R r = None /\ results V R r = None.
Proof.
  intros V R ops s g. cbn. destruct (find V R s g) as [r|] eqn:F; cbn; rewrite ?F; cbn; [discriminate|]. intros _. eexists. split; [rewrite find_app, F; cbn; rewrite String.eqb_refl; reflexivity|]. repeat split.
Qed.
(** The labels are kept as well when a metric raises. *)
Theorem C146_metric_refuted : exists (ops : list (op nat nat)) s r,
  find nat nat s (fst (history nat nat [] ops)) = Some r /\ labels nat nat r = Some (Array nat [0; 0]) /\
  results nat nat r = Some [("ratio"%string, 3)] /\ preds nat nat r = Some (Array nat [1; 2]) /\
  snd (history nat nat [] ops) = [Done nat nat; Done nat nat; GotResults nat nat [("ratio"%string, 3)]; Raises nat nat].
Proof.
  set (m := [("ratio"%string, fun p l : list nat => if existsb (Nat.eqb 0) l then None else Some (fold_right Nat.add 0 p))]).
  exists [Create nat nat (Name "a"%string); SetPreds nat nat (Name "a"%string) (Array nat [1; 2]);
          Evaluate nat nat (Name "a"%string) m (Array nat [1; 1]); Evaluate nat nat (Name "a"%string) m (Array nat [0; 0])], "a"%string.
  eexists. split; [reflexivity|]. repeat split.
Qed.
(** An evaluation that raises keeps its labels: afterwards a run holds the results of one evaluation with the labels of another. *)
Theorem C146_failure_refuted : exists (ops : list (op nat nat)) s r l,
  find nat nat s (fst (history nat nat [] ops)) = Some r /\ labels nat nat r = Some (Array nat l) /\
  results nat nat r = Some [("sum"%string, 3)] /\ preds nat nat r = Some (Array nat [1; 2]) /\ List.length l <> 2.
Proof.
  set (m := [("sum"%string, fun p l : list nat => Some (fold_right Nat.add 0 p))]).
  exists [Create nat nat (Name "a"%string); SetPreds nat nat (Name "a"%string) (Array nat [1; 2]);
          Evaluate nat nat (Name "a"%string) m (Array nat [1; 1]); Evaluate nat nat (Name "a"%string) m (Array nat [7])], "a"%string.
  eexists. exists [7]. split; [reflexivity|]. repeat split. discriminate.
Qed.
Example C145_case : let ops := [Create nat nat (Name "a"%string); Create nat nat (Name "a"%string); Delete nat nat (Name "a"%string); Create nat nat (Name "b"%string)] in
  should_exist nat nat ops "b"%string /\ ~ should_exist nat nat ops "a"%string /\
  snd (history nat nat [] ops) = [Done nat nat; Raises nat nat; Done nat nat; Done nat nat].
Proof.
  cbv zeta. split; [|split; [|reflexivity]].
  - eexists [_; _; _], []. split; [reflexivity|intros []].
  - intros H. apply C145_exists in H as [r H]. vm_compute in H. discriminate.
Qed.

Print Assumptions C145_exists.
Print Assumptions C145_raises.
Print Assumptions C145_independent.
Print Assumptions C146_failure_partial.
Print Assumptions C146_results.
Print Assumptions C146_failure_refuted.

Print Assumptions C145_fresh.
Print Assumptions C146_metric_refuted.
