(** C54, C126, C127: pipelines. *)
From Coq Require Import List String Bool Arith Lia.
From Verif Require Import PipelineModel.
Import ListNotations.
Open Scope string_scope.
Open Scope list_scope.

Section PipelineProps.
Variables state series output features dict : Type.
Variable set_data : state -> series -> state.
Variable univariate : series -> bool.
Variable detect : dict -> state -> option (state * output).
Variable remover : state -> option (state * series).
Variable transform : state -> series -> option (state * features).
Variable fit_model : dict -> state -> option state.
Variable no_params : dict.
Variable with_pipe : dict -> dict.
Notation item := (item series features).
Notation heap := (heap state).
Notation run := (run state series output features dict).
Notation detect_all := (detect_all state series output features dict set_data univariate detect remover with_pipe).
Notation transform_all := (transform_all state series features transform).
Notation model_all := (model_all state series features dict set_data univariate fit_model).
Notation run_step := (run_step state series output features dict set_data univariate detect remover transform fit_model no_params with_pipe).
Notation run_steps := (run_steps state series output features dict set_data univariate detect remover transform fit_model no_params with_pipe).
Notation fit := (fit state series output features dict set_data univariate detect remover transform fit_model no_params with_pipe).
Notation fit_one := (fit_one state series output features dict set_data univariate detect remover transform fit_model no_params with_pipe).
(** the parameters the caller gave for a step *)
Definition given (params : list (string * dict)) (n : string) (p : dict) : Prop :=
  match find (fun kp => String.eqb (fst kp) n) params with Some kp => p = snd kp | None => p = no_params end.
Lemma given_ok params n : given params n (match lookup dict n params with Some p => p | None => no_params end).
Proof. unfold given. induction params as [|[k p] t IH]; [reflexivity|]. cbn. destruct (String.eqb k n); [reflexivity|exact IH]. Qed.

(** ** Lengths *)
Lemma detect_length remove c l h p data h' p' data' ms : detect_all remove c l h p data = Some (h', p', data', ms) -> List.length data' = List.length data /\ List.length ms = List.length data.
Proof.
  revert h p h' p' data' ms. induction data as [|x data IH]; intros h p h' p' data' ms H; cbn in H; [injection H as <- <- <- <-; auto|].
  destruct x as [d|f|k]; try discriminate. destruct (univariate d); [|discriminate]. destruct (c_subtype c) as [sub|]; [|discriminate].
  destruct (detect _ _) as [[s o]|]; [|discriminate]. destruct (if remove && String.eqb sub "outlier" then remover s else Some (s, d)) as [[s' d']|]; [|discriminate].
  destruct (detect_all _ _ _ _ _ data) as [[[[h1 p1] dat1] ms1]|] eqn:E; [|discriminate]. apply IH in E as [E1 E2]. injection H as <- <- <- <-. cbn. lia.
Qed.
Lemma transform_length l h data h' fs : transform_all l h data = Some (h', fs) -> List.length fs = List.length data.
Proof.
  revert h h' fs. induction data as [|x data IH]; intros h h' fs H; cbn in H; [injection H as <- <-; auto|]. destruct x as [d|f|k]; try discriminate. destruct (transform _ _) as [[s f]|]; [|discriminate].
  destruct (transform_all _ _ data) as [[h1 fs1]|] eqn:E; [|discriminate]. apply IH in E. injection H as <- <-. cbn. lia.
Qed.
Lemma model_repeat l h p data h' r : model_all l h p data = Some (h', r) -> r = repeat (IObject l) (List.length data).
Proof.
  revert h h' r. induction data as [|x data IH]; intros h h' r H; cbn in H; [injection H as <- <-; auto|]. destruct x as [d|f|k]; try discriminate. destruct (univariate d); [|discriminate]. destruct (fit_model _ _) as [s|]; [|discriminate].
  destruct (model_all _ _ _ data) as [[h1 r1]|] eqn:E; [|discriminate]. apply IH in E. injection H as <- <-. cbn. f_equal. exact E.
Qed.
Lemma step_cases remove uf n c l (r r' : run) : run_step remove uf n c l r = Some r' ->
  (c_type c = Some "detector" /\ exists h p data ms, detect_all remove c l (r_heap r) (match lookup dict n (r_params r) with Some p => p | None => no_params end) (current r) = Some (h, p, data, ms) /\
     r_heap r' = h /\ r_params r' = replace n p (r_params r) /\ current r' = data /\ r_caller r' = (match r_own r with Some _ => r_caller r | None => data end) /\ r_own r' = (match r_own r with Some _ => Some data | None => None end) /\ r_meta r' = save n ms (r_meta r)) \/
  (c_type c = Some "transformer" /\ exists h fs, transform_all l (r_heap r) (current r) = Some (h, fs) /\ r' = Run h (r_params r) (r_caller r) (if uf then Some (map IFeatures fs) else r_own r) (save n (map MFeatures fs) (r_meta r))) \/
  (c_type c = Some "model" /\ exists h res, model_all l (r_heap r) (match lookup dict n (r_params r) with Some p => p | None => no_params end) (current r) = Some (h, res) /\ r' = Run h (r_params r) (r_caller r) (Some res) (r_meta r)).
Proof.
  unfold run_step. cbv zeta. intros H. destruct (c_type c) as [t|]; [|discriminate].
  destruct (String.eqb t "detector") eqn:D; [apply String.eqb_eq in D; subst t|].
  { left. split; [reflexivity|]. destruct (detect_all _ _ _ _ _ _) as [[[[h p] data] ms]|] eqn:E; [|discriminate]. exists h, p, data, ms. split; [reflexivity|]. unfold in_place, current in *. destruct (r_own r) as [own|]; cbn in H; injection H as <-; cbn; auto 8. }
  destruct (String.eqb t "transformer") eqn:T; [apply String.eqb_eq in T; subst t|].
  { right. left. split; [reflexivity|]. destruct (transform_all _ _ _) as [[h fs]|] eqn:E; [|discriminate]. exists h, fs. split; [reflexivity|]. injection H as <-. reflexivity. }
  destruct (String.eqb t "model") eqn:M; [apply String.eqb_eq in M; subst t|].
  { right. right. split; [reflexivity|]. destruct (model_all _ _ _ _) as [[h res]|] eqn:E; [|discriminate]. exists h, res. split; [reflexivity|]. injection H as <-. reflexivity. }
  discriminate.
Qed.
Lemma step_length remove uf n c l (r r' : run) : run_step remove uf n c l r = Some r' -> List.length (current r') = List.length (current r).
Proof.
  intros H. apply step_cases in H as [(_ & h & p & data & ms & E & _ & _ & -> & _)|[(_ & h & fs & E & ->)|(_ & h & res & E & ->)]].
  - apply detect_length in E. apply E.
  - apply transform_length in E. destruct uf; cbn; [rewrite map_length; exact E|reflexivity].
  - apply model_repeat in E. cbn. rewrite E, repeat_length. reflexivity.
Qed.
Lemma steps_length remove uf steps (r r' : run) : run_steps remove uf steps r = Some r' -> List.length (current r') = List.length (current r).
Proof.
  revert r. induction steps as [|[n [c l]] steps IH]; intros r H; cbn in H; [injection H as <-; reflexivity|]. destruct (run_step _ _ _ _ _ r) as [r1|] eqn:E; [|discriminate]. rewrite (IH _ H). apply step_length in E. exact E.
Qed.
Lemma steps_app remove uf a b (r : run) : run_steps remove uf (a ++ b) r = match run_steps remove uf a r with None => None | Some r => run_steps remove uf b r end.
Proof. revert r. induction a as [|[n [c l]] a IH]; intros r; [reflexivity|]. cbn. destruct (run_step _ _ _ _ _ r); [apply IH|reflexivity]. Qed.

(** ** C54: a model step *)
(** All results are the same object; after fitting a list of series it carries the last one. *)
Theorem C54_shared_refuted : forall data_of : state -> series,
  (forall s d, data_of (set_data s d) = d) -> (forall p s s', fit_model p s = Some s' -> data_of s' = data_of s) ->
  forall remove uf n c l params h data d r, c_type c = Some "model" ->
  fit remove uf [(n, (c, l))] params h (data ++ [d]) = Some r ->
  List.length (current r) = S (List.length data) /\ forall x, In x (current r) -> x = IObject l /\ data_of (r_heap r l) = d.
Proof.
  intros data_of HS HF remove uf n c l params h data d r Hc H. pose proof (steps_length _ _ _ _ _ H) as L. unfold PipelineModel.fit in H, L. cbn [current r_own r_caller] in L. rewrite map_length, app_length in L. cbn [List.length] in L. split; [lia|].
  cbn [PipelineModel.run_steps] in H. destruct (run_step _ _ _ _ _ _) as [r1|] eqn:E; [|discriminate]. injection H as ->. apply step_cases in E as [(C & _)|[(C & _)|(_ & h' & res & E & ->)]]; [congruence|congruence|].
  cbn [current r_own r_caller r_heap r_params] in *. pose proof (model_repeat _ _ _ _ _ _ E) as R. intros x Hx. rewrite R in Hx. split; [eapply repeat_spec; exact Hx|]. clear - E HS HF. revert h h' res E. generalize (match lookup dict n params with Some p => p | None => no_params end). intros p.
  induction data as [|y data IH]; intros h h' res E; cbn in E.
  - destruct (univariate d); [|discriminate]. destruct (fit_model p (set_data (h l) d)) as [s|] eqn:F; [|discriminate]. injection E as <- <-. unfold put. rewrite Nat.eqb_refl. rewrite (HF _ _ _ F). apply HS.
  - destruct (univariate y); [|discriminate]. destruct (fit_model p (set_data (h l) y)) as [s|]; [|discriminate]. destruct (model_all _ _ _ _) as [[h1 r1]|] eqn:E1; [|discriminate]. injection E as <- <-. eapply IH. exact E1.
Qed.
(** A single series, possibly after steps that only look at it: the result is the step's own object fitted on
    that series with the caller's parameters. *)
Definition passing (remove uf : bool) (c : class) : Prop :=
  (c_type c = Some "detector" /\ (remove = false \/ c_subtype c <> Some "outlier")) \/ (c_type c = Some "transformer" /\ uf = false).
Lemma detect_keeps remove c l h p data h' p' data' ms : (remove = false \/ c_subtype c <> Some "outlier") -> detect_all remove c l h p data = Some (h', p', data', ms) -> data' = data.
Proof.
  intros HR. revert h p h' p' data' ms. induction data as [|x data IH]; intros h p h' p' data' ms H; cbn in H; [injection H as <- <- <- <-; auto|].
  destruct x as [d|f|k]; try discriminate. destruct (univariate d); [|discriminate]. destruct (c_subtype c) as [sub|]; [|discriminate].
  destruct (detect _ _) as [[s o]|]; [|discriminate]. assert (B : remove && String.eqb sub "outlier" = false).
  { destruct HR as [->|N]; [reflexivity|]. destruct (String.eqb sub "outlier") eqn:E; [apply String.eqb_eq in E; congruence|apply andb_false_r]. }
  rewrite B in H. destruct (detect_all _ _ _ _ _ data) as [[[[h1 p1] dat1] ms1]|] eqn:E; [|discriminate]. apply IH in E. injection H as <- <- <- <-. f_equal. exact E.
Qed.
Lemma detect_params remove c l h p data h' p' data' ms : c_subtype c <> Some "outlier" -> detect_all remove c l h p data = Some (h', p', data', ms) -> p' = p.
Proof.
  intros HR. revert h p h' p' data' ms. induction data as [|x data IH]; intros h p h' p' data' ms H; cbn in H; [injection H as <- <- <- <-; auto|].
  destruct x as [d|f|k]; try discriminate. destruct (univariate d); [|discriminate]. destruct (c_subtype c) as [sub|]; [|discriminate].
  replace (String.eqb sub "outlier") with false in H by (symmetry; apply String.eqb_neq; congruence). destruct (detect p _) as [[s o]|]; [|discriminate]. rewrite andb_false_r in H.
  destruct (detect_all _ _ _ _ _ data) as [[[[h1 p1] dat1] ms1]|] eqn:E; [|discriminate]. apply IH in E. injection H as <- <- <- <-. exact E.
Qed.
Lemma passing_keeps remove uf steps (r r' : run) : Forall (fun s => passing remove uf (fst (snd s))) steps -> run_steps remove uf steps r = Some r' -> current r' = current r.
Proof.
  intros F. revert r. induction F as [|[n [c l]] steps P F IH]; intros r H; cbn in H; [injection H as <-; reflexivity|]. destruct (run_step _ _ _ _ _ r) as [r1|] eqn:E; [|discriminate]. rewrite (IH _ H). clear IH H.
  cbn [fst snd] in P. apply step_cases in E as [(T & h & p & data & ms & E & _ & _ & -> & _)|[(T & h & fs & E & ->)|(T & _)]].
  - destruct P as [[_ P]|[C _]]; [|congruence]. exact (detect_keeps _ _ _ _ _ _ _ _ _ _ P E).
  - destruct P as [[C _]|[_ ->]]; [congruence|reflexivity].
  - destruct P as [[C _]|[C _]]; congruence.
Qed.
Lemma replace_id n (p : dict) ps : lookup dict n ps = Some p \/ lookup dict n ps = None -> forall q, (lookup dict n ps = Some p -> q = p) -> replace n q ps = ps.
Proof.
  induction ps as [|[k x] t IH]; cbn; [reflexivity|]. intros H q HQ. destruct (String.eqb k n); [|f_equal; apply IH; assumption]. destruct H as [H|H]; [|discriminate]. injection H as ->. rewrite HQ; reflexivity.
Qed.
Lemma replace_same n (ps : list (string * dict)) : replace n (match lookup dict n ps with Some p => p | None => no_params end) ps = ps.
Proof. induction ps as [|[k x] t IH]; cbn; [reflexivity|]. destruct (String.eqb k n); [reflexivity|]. f_equal. exact IH. Qed.
Theorem C54_single_partial : forall remove uf pre n c l params h d r x,
  c_type c = Some "model" -> Forall (fun s => passing remove uf (fst (snd s)) /\ c_subtype (fst (snd s)) <> Some "outlier") pre ->
  fit_one remove uf (pre ++ [(n, (c, l))]) params h d = Some (r, x) ->
  x = IObject l /\ exists s0 p, given params n p /\ fit_model p (set_data s0 d) = Some (r_heap r l).
Proof.
  intros remove uf pre n c l params h d r x Hc F H. unfold PipelineModel.fit_one in H. rewrite steps_app in H. destruct (run_steps remove uf pre _) as [r1|] eqn:E1; [|discriminate].
  assert (F1 : Forall (fun s => passing remove uf (fst (snd s))) pre) by (rewrite Forall_forall in *; intros s Hs; apply F, Hs).
  pose proof (passing_keeps _ _ _ _ _ F1 E1) as CU. cbn [current r_own] in CU.
  assert (PA : r_params r1 = params).
  { assert (G : forall steps r0 r1, Forall (fun s => passing remove uf (fst (snd s)) /\ c_subtype (fst (snd s)) <> Some "outlier") steps -> run_steps remove uf steps r0 = Some r1 -> r_params r1 = r_params r0).
    { clear. intros steps r0 r1 F. revert r0. induction F as [|[n [c l]] steps [P N] F IH]; intros r0 H; cbn in H; [injection H as <-; reflexivity|]. destruct (run_step _ _ _ _ _ r0) as [r2|] eqn:E; [|discriminate]. rewrite (IH _ H). clear IH H. cbn [fst snd] in *.
      apply step_cases in E as [(T & h & p & data & ms & E & _ & -> & _)|[(T & h & fs & E & ->)|(T & h & res & E & ->)]]; [|reflexivity|reflexivity]. rewrite (detect_params _ _ _ _ _ _ _ _ _ _ N E). apply replace_same. }
    exact (G _ _ _ F E1). }
  cbn [PipelineModel.run_steps] in H. destruct (run_step _ _ _ _ _ r1) as [r2|] eqn:E2; [|discriminate]. apply step_cases in E2 as [(C & _)|[(C & _)|(_ & h' & res & E2 & ->)]]; [congruence|congruence|].
  rewrite CU, PA in E2. cbn in E2. destruct (univariate d); [|discriminate]. destruct (fit_model _ _) as [s|] eqn:FM; [|discriminate]. injection E2 as <- <-. cbn in H. injection H as <- <-. split; [reflexivity|].
  cbn [r_heap]. unfold put. rewrite Nat.eqb_refl. exists (r_heap r1 l), (match lookup dict n params with Some p => p | None => no_params end). split; [apply given_ok|exact FM].
Qed.
(** A detector step keeps the series and saves one result per series, obtained from that series. *)
Theorem C54_metadata : forall remove uf n c l params h data r,
  c_type c = Some "detector" -> c_subtype c <> Some "outlier" ->
  fit remove uf [(n, (c, l))] params h data = Some r ->
  current r = map ISeries data /\ exists ms p, r_meta r = [(n, ms)] /\ given params n p /\
    Forall2 (fun d m => exists s0 s1 o, detect p (set_data s0 d) = Some (s1, o) /\ m = MOutput o) data ms.
Proof.
  intros remove uf n c l params h data r Hc N H. unfold PipelineModel.fit in H. cbn [PipelineModel.run_steps] in H. destruct (run_step _ _ _ _ _ _) as [r1|] eqn:E; [|discriminate]. injection H as ->.
  apply step_cases in E as [(_ & h' & p' & data' & ms & E & _ & _ & CU & _ & _ & M)|[(C & _)|(C & _)]]; [|congruence|congruence]. cbn [current r_own r_caller r_heap r_params r_meta save] in *.
  rewrite CU. split; [exact (detect_keeps _ _ _ _ _ _ _ _ _ _ (or_intror N) E)|]. exists ms, (match lookup dict n params with Some p => p | None => no_params end). split; [exact M|]. split; [apply given_ok|].
  clear - E N. revert h h' data' ms p' E. generalize (match lookup dict n params with Some p => p | None => no_params end). intros p. induction data as [|d data IH]; intros h h' data' ms p' E; cbn in E; [injection E as <- <- <- <-; constructor|].
  destruct (univariate d); [|discriminate]. destruct (c_subtype c) as [sub|]; [|discriminate]. replace (String.eqb sub "outlier") with false in E by (symmetry; apply String.eqb_neq; congruence).
  destruct (detect p (set_data (h l) d)) as [[s o]|] eqn:D; [|discriminate]. rewrite andb_false_r in E. destruct (detect_all _ _ _ _ _ _) as [[[[h1 p1] dat1] ms1]|] eqn:E1; [|discriminate]. injection E as <- <- <- <-.
  constructor; [eauto 6|]. eapply IH; exact E1.
Qed.

(** The results saved under the name of a step are those of the last step of that name. *)
Theorem C54_metadata_last : forall remove uf steps n c l params h data r,
  c_type c = Some "detector" -> c_subtype c <> Some "outlier" ->
  fit remove uf (steps ++ [(n, (c, l))]) params h data = Some r ->
  exists ms, find (fun m => String.eqb (fst m) n) (r_meta r) = Some (n, ms) /\
    Forall2 (fun x m => exists d p s0 s1 o, x = ISeries d /\ detect p (set_data s0 d) = Some (s1, o) /\ m = MOutput o) (current r) ms.
Proof.
  intros remove uf steps n c l params h data r Hc N H. unfold PipelineModel.fit in H. match type of H with PipelineModel.run_steps _ _ _ _ _ _ _ _ _ _ _ _ _ _ _ _ ?r0 = _ => revert H; generalize r0 | _ => idtac end. induction steps as [|[n0 [c0 l0]] steps IH]; intros r0 H; cbn [app PipelineModel.run_steps] in H.
  - destruct (run_step _ _ _ _ _ _) as [r1|] eqn:E; [|discriminate]. injection H as ->.
    apply step_cases in E as [(_ & h' & p' & data' & ms & E & _ & _ & CU & _ & _ & M)|[(C & _)|(C & _)]]; [|congruence|congruence]. exists ms. split.
    + rewrite M. clear. induction (r_meta r0) as [|[k q] t IH]; cbn [save find fst]; [rewrite String.eqb_refl; reflexivity|]. destruct (String.eqb k n) eqn:E; cbn [find fst]; rewrite E; [apply String.eqb_eq in E; subst; reflexivity|exact IH].
    + rewrite CU. pose proof (detect_keeps _ _ _ _ _ _ _ _ _ _ (or_intror N) E) as K. rewrite K in *. clear K CU M. generalize dependent (current r0). intros cur E. clear - E N. revert h' ms p' E. generalize (r_heap r0). generalize (match lookup dict n (r_params r0) with Some p => p | None => no_params end). intros p.
      assert (G : forall cur data' h0 h' ms p', detect_all remove c l h0 p cur = Some (h', p', data', ms) -> Forall2 (fun x m => exists d p s0 s1 o, x = ISeries d /\ detect p (set_data s0 d) = Some (s1, o) /\ m = MOutput o) cur ms).
      { clear - N. induction cur as [|x cur IH]; intros data' h0 h' ms p' E; cbn in E; [injection E as <- <- <- <-; constructor|]. destruct x as [d|f|k]; try discriminate.
        destruct (univariate d); [|discriminate]. destruct (c_subtype c) as [sub|]; [|discriminate]. replace (String.eqb sub "outlier") with false in E by (symmetry; apply String.eqb_neq; congruence).
        destruct (detect p (set_data (h0 l) d)) as [[s o]|] eqn:D; [|discriminate]. rewrite andb_false_r in E. destruct (detect_all _ _ _ _ _ _) as [[[[h1 p1] dat1] ms1]|] eqn:E1; [|discriminate]. injection E as <- <- <- <-.
        constructor; [eauto 10|]. eapply IH; exact E1. }
      intros h0 h' ms p' E. eapply G. exact E.
  - destruct (run_step _ _ _ _ _ r0) as [r1|]; [|discriminate]. apply (IH r1). exact H.
Qed.

(** ** C126: the caller's arguments *)
Theorem C126_caller_partial : forall remove uf steps params h data r,
  (forall n c l, In (n, (c, l)) steps -> c_subtype c <> Some "outlier") ->
  fit remove uf steps params h data = Some r -> r_caller r = map ISeries data /\ r_params r = params.
Proof.
  intros remove uf steps params h data r N H. unfold PipelineModel.fit in H.
  enough (G : forall r0, run_steps remove uf steps r0 = Some r -> r_caller r = r_caller r0 /\ r_params r = r_params r0) by exact (G _ H). clear H.
  induction steps as [|[n [c l]] steps IH]; intros r0 H; cbn in H; [injection H as <-; auto|]. destruct (run_step _ _ _ _ _ r0) as [r1|] eqn:E; [|discriminate].
  assert (Nc : c_subtype c <> Some "outlier") by (apply (N n c l); left; reflexivity). destruct (IH ltac:(intros; eapply N; right; eassumption) r1 H) as [-> ->]. clear IH H.
  apply step_cases in E as [(T & h' & p & data' & ms & E & _ & -> & _ & -> & _)|[(T & h' & fs & E & ->)|(T & h' & res & E & ->)]]; [|auto|auto].
  rewrite (detect_params _ _ _ _ _ _ _ _ _ _ Nc E). split; [|apply replace_same]. apply detect_keeps in E; [|right; exact Nc]. subst data'. unfold current. destruct (r_own r0); reflexivity.
Qed.
(** With an outlier step and removal asked for, the caller's own list is overwritten with the cleaned series,
    and the caller's parameters for the step get an extra entry. *)
Theorem C126_caller_refuted : forall uf n c l params h data r p,
  c_type c = Some "detector" -> c_subtype c = Some "outlier" -> params = [(n, p)] -> data <> [] -> (forall p, with_pipe (with_pipe p) = with_pipe p) ->
  fit true uf [(n, (c, l))] params h data = Some r ->
  r_params r = [(n, with_pipe p)] /\
  exists cleaned, r_caller r = map ISeries cleaned /\ Forall2 (fun d d' => exists s0 s1 s2 o, detect (with_pipe p) (set_data s0 d) = Some (s1, o) /\ remover s1 = Some (s2, d')) data cleaned.
Proof.
  intros uf n c l params h data r p Hc Hs -> Hd IP H. unfold PipelineModel.fit in H. cbn [PipelineModel.run_steps] in H. destruct (run_step _ _ _ _ _ _) as [r1|] eqn:E; [|discriminate]. injection H as ->.
  apply step_cases in E as [(_ & h' & p' & data' & ms & E & _ & PA & _ & CA & _ & _)|[(C & _)|(C & _)]]; [|congruence|congruence]. cbn [current r_own r_caller r_heap r_params lookup replace] in *. rewrite String.eqb_refl in *. rewrite CA, PA.
  assert (G : forall p0 h h' data' ms p', (p0 = p \/ p0 = with_pipe p) -> detect_all true c l h p0 (map ISeries data) = Some (h', p', data', ms) ->
    (data <> [] -> p' = with_pipe p) /\ exists cleaned, data' = map ISeries cleaned /\ Forall2 (fun d d' => exists s0 s1 s2 o, detect (with_pipe p) (set_data s0 d) = Some (s1, o) /\ remover s1 = Some (s2, d')) data cleaned).
  { clear - Hs IP. induction data as [|d data IH]; intros p0 h h' data' ms p' P E; cbn in E; [injection E as <- <- <- <-; split; [congruence|exists []; split; [reflexivity|constructor]]|].
    destruct (univariate d); [|discriminate]. rewrite Hs in E. rewrite String.eqb_refl in E. cbn [andb] in E. assert (W : with_pipe p0 = with_pipe p) by (destruct P as [->| ->]; [reflexivity|apply IP]). rewrite W in E.
    destruct (detect (with_pipe p) (set_data (h l) d)) as [[s o]|] eqn:D; [|discriminate]. destruct (remover s) as [[s2 d2]|] eqn:RM; [|discriminate]. destruct (detect_all _ _ _ _ _ _) as [[[[h1 p1] dat1] ms1]|] eqn:E1; [|discriminate]. injection E as <- <- <- <-.
    destruct (IH (with_pipe p) _ _ _ _ _ (or_intror eq_refl) E1) as (A & cl & -> & B). split.
    - intros _. destruct data as [|d' data]; [cbn in E1; injection E1 as _ E1 _ _; symmetry; exact E1|]. apply A. discriminate.
    - exists (d2 :: cl). split; [reflexivity|]. constructor; [eauto 8|exact B]. }
  destruct (G p _ _ _ _ _ (or_introl eq_refl) E) as [A B]. split; [rewrite A by exact Hd; reflexivity|exact B].
Qed.

(** ** C127: which steps can be used *)
(** A detector without the attribute __subtype__, or an object without __type__, anywhere in the pipeline makes
    every call with at least one series raise: that is every detector of the library except MKDetector, and
    TsFeatures. *)
Theorem C127_steps_refuted : forall remove uf steps params h data n c l,
  In (n, (c, l)) steps -> c = other_detector \/ c = ts_features -> data <> [] -> fit remove uf steps params h data = None.
Proof.
  intros remove uf steps params h data n c l I Hc Hd. apply in_split in I as (pre & post & ->). unfold PipelineModel.fit. rewrite steps_app. destruct (run_steps remove uf pre _) as [r|] eqn:E; [|reflexivity]. apply steps_length in E. cbn [current r_own r_caller] in E. rewrite map_length in E.
  cbn [PipelineModel.run_steps]. destruct (run_step remove uf n c l r) as [r'|] eqn:S; [|reflexivity]. exfalso. apply step_cases in S as [(T & h' & p & data' & ms & S & _)|[(T & _)|(T & _)]]; [|destruct Hc as [->| ->]; discriminate|destruct Hc as [->| ->]; discriminate].
  destruct Hc as [->| ->]; [|discriminate]. destruct (current r) as [|[d|f|k] rest]; [destruct data; [contradiction|discriminate]| | |]; cbn in S; try discriminate. destruct (univariate d); discriminate.
Qed.
(** The trend detector and the models of the library can be used: they only raise when they raise themselves. *)
Theorem C127_usable_partial : forall remove uf n c l params h data p,
  c = mk_detector \/ c = theta_model \/ c = other_model -> given params n p -> Forall (fun d => univariate d = true) data ->
  (forall s d, c = mk_detector -> In d data -> detect p (set_data s d) <> None) -> (forall s d, c <> mk_detector -> In d data -> fit_model p (set_data s d) <> None) ->
  fit remove uf [(n, (c, l))] params h data <> None.
Proof.
  intros remove uf n c l params h data p Hc G U HD HF H. unfold PipelineModel.fit in H. cbn [PipelineModel.run_steps] in H. destruct (run_step _ _ _ _ _ _) as [r1|] eqn:E; [discriminate|]. clear H.
  unfold PipelineModel.run_step in E. cbv zeta in E. cbn [r_params r_heap current r_own r_caller] in E. pose proof (given_ok params n) as G'. set (q := match lookup dict n params with Some p => p | None => no_params end) in *. assert (q = p) by (unfold given in G, G'; destruct (find _ params); congruence). rewrite H in E. clear H G' q G.
  assert (MD : c = mk_detector -> forall data h, (forall d, In d data -> univariate d = true /\ forall s, detect p (set_data s d) <> None) -> detect_all remove mk_detector l h p (map ISeries data) <> None).
  { intros -> . clear. induction data as [|d data IH]; intros h A; cbn; [discriminate|]. destruct (A d (or_introl eq_refl)) as [-> D]. specialize (D (h l)). destruct (detect p _) as [[s o]|]; [|congruence]. rewrite andb_false_r. cbn.
    specialize (IH (put state h l s) ltac:(intros; apply A; right; assumption)). destruct (detect_all _ _ _ _ _ _) as [[[[? ?] ?] ?]|]; [discriminate|congruence]. }
  assert (MF : forall data h, (forall d, In d data -> univariate d = true /\ forall s, fit_model p (set_data s d) <> None) -> model_all l h p (map ISeries data) <> None).
  { clear. induction data as [|d data IH]; intros h A; cbn; [discriminate|]. destruct (A d (or_introl eq_refl)) as [-> D]. specialize (D (h l)). destruct (fit_model p _) as [s|]; [|congruence].
    specialize (IH (put state h l s) ltac:(intros; apply A; right; assumption)). destruct (model_all _ _ _ _) as [[? ?]|]; [discriminate|congruence]. }
  rewrite Forall_forall in U. destruct Hc as [->|Hc].
  - cbn in E. specialize (MD eq_refl data h ltac:(intros d Hd; split; [apply U, Hd|intros s; apply HD; auto])). destruct (detect_all _ _ _ _ _ _) as [[[[? ?] ?] ?]|]; [|congruence]. discriminate.
  - assert (NM : c <> mk_detector) by (destruct Hc as [->| ->]; discriminate). specialize (MF data h ltac:(intros d Hd; split; [apply U, Hd|intros s; apply HF; auto])). destruct Hc as [->| ->]; cbn in E; destruct (model_all _ _ _ _) as [[? ?]|]; congruence.
Qed.
End PipelineProps.

(** ** Concrete cases: a model that stores the series it was fitted on, two series *)
Definition toy_fit (h : nat -> nat * nat) (steps : list (string * (class * nat))) (data : list nat) :=
  fit (nat * nat) nat nat nat bool (fun s d => (d, snd s)) (fun _ => true) (fun _ s => Some (s, fst s + 1)) (fun s => Some (s, 0)) (fun s d => Some (s, d)) (fun _ s => Some (fst s, fst s)) false (fun _ => true) true false steps [("o", false)] h data.
Example C54_case : exists r, toy_fit (fun _ => (0, 0)) [("m", (theta_model, 3))] [10; 20] = Some r /\ current r = [IObject 3; IObject 3] /\ r_heap r 3 = (20, 20).
Proof. eexists. split; [vm_compute; reflexivity|]. split; reflexivity. Qed.
Example C54_single_case : exists r, toy_fit (fun _ => (0, 0)) [("t", (mk_detector, 1)); ("m", (theta_model, 3))] [10] = Some r /\ current r = [IObject 3] /\ r_heap r 3 = (10, 10) /\ r_meta r = [("t", [MOutput 11])].
Proof. eexists. split; [vm_compute; reflexivity|]. repeat split; reflexivity. Qed.
Example C126_case : exists r, toy_fit (fun _ => (0, 0)) [("o", (Class (Some "detector") (Some "outlier"), 1))] [10; 20] = Some r /\ r_caller r = [ISeries 0; ISeries 0] /\ r_params r = [("o", true)].
Proof. eexists. split; [vm_compute; reflexivity|]. split; reflexivity. Qed.
Example C127_case : toy_fit (fun _ => (0, 0)) [("t", (mk_detector, 1)); ("c", (other_detector, 2))] [10] = None.
Proof. reflexivity. Qed.

Print Assumptions C54_shared_refuted.
Print Assumptions C54_single_partial.
Print Assumptions C54_metadata.
Print Assumptions C126_caller_partial.
Print Assumptions C126_caller_refuted.
Print Assumptions C127_steps_refuted.
Print Assumptions C127_usable_partial.

Print Assumptions C54_metadata_last.
