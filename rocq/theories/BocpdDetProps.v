(** C302 (the BOCPD detector model) and C303 (the BOCPD trend detector model). *)
From Verif Require Import Common TSDataModel TSDataSpec TSDataProofs ResponseModel ResponseSpec ResponseProofs BocpdModel BocpdProofs BocpdProps
  BocpdCallModel BocpdCallProps BocpdDetModel.
Require Import String Lqa Permutation Sorted.
Require Import List. Import ListNotations.
Open Scope nat_scope.

(** ** Specification *)
(** the history given, empty without one *)
Definition past (h : option bars) : bars := match h with Some h => h | None => [] end.
(** the documented way to call: the times grow, from the history into the data *)
Definition chronological (l : bars) : Prop := StronglySorted Z.lt (map fst l).
(** what a call answers, and what it leaves of the caller's history *)
Definition answer (builders : list Q -> builder) (arms : list Q -> list arm) (D : det) (s : state) (data : bars) (h : option bars) :=
  fst (fst (fit_predict builders arms D s data h)).
Definition left_to_caller (builders : list Q -> builder) (arms : list Q -> list arm) (D : det) (s : state) (data : bars) (h : option bars) :=
  snd (fit_predict builders arms D s data h).
(** [x] is the largest probability, over the later points [j], that the run that started at point [k] of [n] is still
    going on at [j]; zero for the first point *)
Definition change_at (h : Q) (pred : nat -> nat -> Q) (n k : nat) (x : Q) : Prop :=
  if Nat.eqb k 0 then x = 0%Q
  else (forall j, k <= j < n -> (entry (rt_posterior h pred n) j (j - k) <= x)%Q) /\
       exists j, k <= j < n /\ x = entry (rt_posterior h pred n) j (j - k).
(** [h] and [mult] are among the values tried *)
Definition tried (l : list arm) (h mult : Q) : Prop :=
  exists a, In a l /\ lookup "cp_prior" a = Some h /\ mult = or_else (lookup "known_prec_multiplier" a) 1%Q.

(** ** Lemmas *)
Lemma sorted_le (l : list Z) : StronglySorted Z.lt l -> StronglySorted Z.le l.
Proof. apply strict_le. Qed.
Lemma run_eq builders arms m choose thr d :
  run builders arms m choose thr d =
  match (if choose then choose_priors (builders (map snd d)) {| names := ["value"%string]; BocpdCallModel.times := map fst d; univariate := true |}
                          (arms (map snd d)) (default_params m) else Some (1 # 100, default_params m)) with
  | None => None
  | Some (h, p') => match builders (map snd d) m (multiplier p') true with
                    | None => None
                    | Some pred => Some (fst (agg_cppprob (List.length d) (rt_posterior h (pred 0) (List.length d))))
                    end
  end.
Proof.
  unfold run, call. replace (eqb_type (kind (default_params m)) m) with true by (destruct m; reflexivity). cbn [negb].
  destruct (if choose then _ else _) as [(h, p')|]; [|reflexivity]. cbn [univariate negb andb]. destruct (builders _ m _ true) as [pred|]; [|reflexivity].
  cbn [names List.length seq map BocpdCallModel.times]. rewrite map_length. unfold detector, construct_output.
  destruct (agg_cppprob (List.length d) (rt_posterior h (pred 0) (List.length d))) as (cp, M). cbn [all_some combine map fst snd change_prob probs]. reflexivity.
Qed.
Lemma run_thr builders arms m choose t t' d : run builders arms m choose t d = run builders arms m choose t' d.
Proof. rewrite !run_eq. reflexivity. Qed.
Lemma chosen build d l m h p' : choose_priors build d l (default_params m) = Some (h, p') ->
  exists a, In a l /\ lookup "cp_prior" a = Some h /\
    (m = NormalKnown -> multiplier p' = or_else (lookup "known_prec_multiplier" a) 1%Q).
Proof.
  unfold choose_priors. cbn [default_params method]. destruct (scores _ l) as [s|] eqn:SC; [|discriminate].
  destruct (best s) as [(a, q)|] eqn:B; [|discriminate]. destruct (lookup "cp_prior" a) as [h'|] eqn:LK; [|discriminate].
  intros E. injection E as -> <-. apply scores_spec in SC as (MS & _). apply best_spec in B as (IB & _).
  exists a. split; [rewrite <- MS; apply in_map_iff; exists (a, q); split; [reflexivity|exact IB]|]. split; [exact LK|]. intros ->. reflexivity.
Qed.
Lemma probs_agg h pred T : let p := fst (agg_cppprob T (rt_posterior h pred T)) in
  List.length p = T /\ forall k, k < T -> change_at h pred T k (nth k p 0%Q).
Proof.
  destruct (C45_aggregated (1 # 2) h 10 pred T) as (o & E & L & _ & Z0 & V). unfold detector, construct_output in E.
  destruct (agg_cppprob T (rt_posterior h pred T)) as (cp, M). injection E as <-. cbn [change_prob fst] in *. split; [exact L|].
  intros k K. unfold change_at. destruct (Nat.eqb_spec k 0) as [->|N]; [apply Z0; [exact K|reflexivity]|apply V; [exact K|lia]].
Qed.
(** one run of the detector on a series *)
Lemma change_probs_spec builders arms D d p : change_probs builders arms D d = Some p ->
  List.length p = List.length d /\ exists m h mult pred, builders (map snd d) m mult true = Some pred /\
    (if slow_drift D && match threshold D with None => true | Some _ => false end then m = TrendChange /\ h = 1 # 100
     else m = NormalKnown /\ tried (arms (map snd d)) h mult) /\
    forall k, k < List.length d -> change_at h (pred 0) (List.length d) k (nth k p 0%Q).
Proof.
  intros E.
  assert (N : forall t, run builders arms NormalKnown true t d = Some p ->
    List.length p = List.length d /\ exists h mult pred, builders (map snd d) NormalKnown mult true = Some pred /\ tried (arms (map snd d)) h mult /\
    forall k, k < List.length d -> change_at h (pred 0) (List.length d) k (nth k p 0%Q)).
  { intros t R. rewrite run_eq in R. destruct (choose_priors _ _ _ _) as [(h, p')|] eqn:C; [|discriminate].
    destruct (builders _ _ _ true) as [pred|] eqn:B; [|discriminate]. injection R as <-. destruct (probs_agg h (pred 0) (List.length d)) as (L & V).
    split; [exact L|]. exists h, (multiplier p'), pred. split; [exact B|]. split; [|exact V]. apply chosen in C as (a & I & LK & MU). exists a.
    split; [exact I|]. split; [exact LK|apply MU; reflexivity]. }
  unfold change_probs in E. destruct (slow_drift D), (threshold D) as [t|]; cbn [negb andb] in *;
    try (apply N in E as (L & h & mult & pred & B & T & V); split; [exact L|]; exists NormalKnown, h, mult, pred; split; [exact B|]; split; [split; [reflexivity|exact T]|exact V]).
  rewrite run_eq in E. destruct (builders _ _ _ true) as [pred|] eqn:B; [|discriminate]. injection E as <-.
  destruct (probs_agg (1 # 100) (pred 0) (List.length d)) as (L & V). split; [exact L|]. exists TrendChange, (1 # 100), 1%Q, pred.
  split; [exact B|]. split; [split; reflexivity|exact V].
Qed.
Lemma joined_id data h : chronological (past h ++ data) -> joined data h = past h ++ data.
Proof. destruct h as [h|]; intros C; [|reflexivity]. apply sort_rows_id. apply sorted_le. exact C. Qed.
Lemma recent_app {A} (a b : list A) : most_recent (List.length b) (a ++ b) = b.
Proof. unfold most_recent. rewrite app_length, Nat.add_sub, skipn_app, Nat.sub_diag, skipn_all. reflexivity. Qed.
Lemma last_app {A} (a b : list (Z * A)) n : StronglySorted Z.le (map fst (a ++ b)) -> b <> [] -> n = List.length b ->
  ResponseModel.last_slice (a ++ b) (Z.of_nat n) = b.
Proof.
  intros S N ->. rewrite last_slice_spec; [|exact S|destruct b; [contradiction|cbn; lia]]. rewrite Nat2Z.id. apply recent_app.
Qed.
Lemma combine_split {A B} (l : list A) (p : list B) n : List.length l = List.length p ->
  combine l p = combine (firstn n l) (firstn n p) ++ combine (skipn n l) (skipn n p).
Proof.
  revert l p. induction n as [|n IH]; intros l p L; [reflexivity|]. destruct l as [|x l], p as [|y p]; try discriminate; [reflexivity|].
  cbn. f_equal. apply IH. injection L as L. exact L.
Qed.
Lemma fst_combine {A B} (l : list A) (p : list B) : List.length l = List.length p -> map fst (combine l p) = l.
Proof. revert p. induction l as [|x l IH]; intros [|y p] L; try discriminate; [reflexivity|]. cbn. f_equal. apply IH. injection L as L. exact L. Qed.
Lemma nth_combine_snd {A} (l : list A) (p : list Q) i : List.length l = List.length p -> nth i (map snd (combine l p)) 0%Q = nth i p 0%Q.
Proof.
  intros L. f_equal. revert p L. induction l as [|x l IH]; intros [|y p] L; try discriminate; [reflexivity|]. cbn. f_equal. apply IH. injection L as L. exact L.
Qed.
Lemma nth_skip {A} (l : list A) n i d : nth i (skipn n l) d = nth (n + i) l d.
Proof. revert l. induction n as [|n IH]; intros l; [reflexivity|]. destruct l as [|x l]; [destruct i; reflexivity|]. cbn. apply IH. Qed.

(** ** C302 *)
(** For a history that ends before the data begin (or none), the answer has one entry for every point of the data, at
    its time: as prediction and as both bounds the value itself, magnitude and significance zero, and as score the
    probability of a change at that point in the history continued by the data, under the model with normal segments
    and values among those tried, or with [slow_drift] and no threshold under the trend model with prior 0.01. *)
Theorem C302_reported : forall builders arms D s data h r, data <> [] -> chronological (past h ++ data) ->
  answer builders arms D s data h = Some r ->
  map fst (ResponseModel.scores r) = map fst data /\ ResponseModel.predicted r = Some data /\ ResponseModel.band r = Some (data, data) /\
  ResponseModel.magnitude r = map (fun row => (fst row, 0%Q)) data /\ ResponseModel.stat_sig r = Some (map (fun row => (fst row, 0%Q)) data) /\
  let all := past h ++ data in
  exists m prior mult pred, builders (map snd all) m mult true = Some pred /\
    (if slow_drift D && match threshold D with None => true | Some _ => false end then m = TrendChange /\ prior = 1 # 100
     else m = NormalKnown /\ tried (arms (map snd all)) prior mult) /\
    forall i, i < List.length data ->
      change_at prior (pred 0) (List.length all) (List.length (past h) + i) (nth i (map snd (ResponseModel.scores r)) 0%Q).
Proof.
  intros builders arms D s data h r ND C E. unfold answer, fit_predict in E. rewrite (joined_id _ _ C) in E.
  pose proof (sorted_le _ C) as CL. set (all := past h ++ data) in *.
  destruct (change_probs builders arms D all) as [p|] eqn:CP; [|discriminate]. apply change_probs_spec in CP as (L & m & prior & mult & pred & B & K & V).
  unfold respond in E. rewrite (proj2 (Nat.eqb_eq _ _) (eq_sym L)) in E. cbn [fst] in E. injection E as <-.
  assert (LP : List.length (map fst all) = List.length p) by (rewrite map_length; symmetry; exact L).
  assert (FC : map fst (combine (map fst all) p) = map fst all) by (apply fst_combine; exact LP).
  assert (Z0 : TSDataModel.sort_rows (map (fun r0 : Z * Q => (fst r0, 0%Q)) all) = map (fun r0 : Z * Q => (fst r0, 0%Q)) all).
  { apply sort_rows_id. unfold in_time_order. rewrite map_map. exact CL. }
  assert (S0 : TSDataModel.sort_rows (combine (map fst all) p) = combine (map fst all) p).
  { apply sort_rows_id. unfold in_time_order. rewrite FC. exact CL. }
  rewrite Z0, S0. unfold ResponseModel.get_last_n.
  cbn [ResponseModel.scores ResponseModel.predicted ResponseModel.band ResponseModel.magnitude ResponseModel.stat_sig option_map fst snd].
  assert (LD : ResponseModel.last_slice all (Z.of_nat (List.length data)) = data) by (apply last_app; [exact CL|exact ND|reflexivity]).
  assert (LZ : ResponseModel.last_slice (map (fun r0 : Z * Q => (fst r0, 0%Q)) all) (Z.of_nat (List.length data)) = map (fun r0 : Z * Q => (fst r0, 0%Q)) data).
  { unfold all. rewrite map_app. apply last_app; [rewrite <- map_app, map_map; exact CL|destruct data; [contradiction|discriminate]|symmetry; apply map_length]. }
  assert (SK : skipn (List.length (past h)) (map fst all) = map fst data).
  { unfold all. rewrite map_app, skipn_app, map_length, Nat.sub_diag, skipn_all2 by (rewrite map_length; lia). reflexivity. }
  assert (LS : ResponseModel.last_slice (combine (map fst all) p) (Z.of_nat (List.length data)) = combine (map fst data) (skipn (List.length (past h)) p)).
  { rewrite (combine_split _ _ (List.length (past h)) LP), SK. apply last_app.
    - rewrite <- SK, <- (combine_split _ _ (List.length (past h)) LP), FC. exact CL.
    - intros Q0. apply (f_equal (@List.length _)) in Q0. rewrite combine_length, map_length, skipn_length, L in Q0. unfold all in Q0. rewrite app_length in Q0.
      destruct data; [contradiction|cbn [List.length] in Q0; lia].
    - rewrite combine_length, map_length, skipn_length, L. unfold all. rewrite app_length. lia. }
  assert (LQ : List.length (map fst data) = List.length (skipn (List.length (past h)) p)).
  { rewrite map_length, skipn_length, L. unfold all. rewrite app_length. lia. }
  rewrite LD, LZ, LS. split; [apply fst_combine; exact LQ|]. split; [reflexivity|]. split; [reflexivity|]. split; [reflexivity|]. split; [reflexivity|].
  cbv zeta. exists m, prior, mult, pred. split; [exact B|]. split; [exact K|]. intros i I. rewrite nth_combine_snd by exact LQ. rewrite nth_skip.
  apply V. unfold all. rewrite app_length. lia.
Qed.
(** The scores are probabilities. *)
Theorem C302_probabilities : forall builders arms D s data h r, data <> [] -> chronological (past h ++ data) ->
  answer builders arms D s data h = Some r ->
  (forall l a x, In a (arms l) -> lookup "cp_prior" a = Some x -> (0 < x < 1)%Q) ->
  (forall l m mult b pred c t k, builders l m mult b = Some pred -> (0 < pred c t k)%Q) ->
  forall t x, In (t, x) (ResponseModel.scores r) -> (0 <= x <= 1)%Q.
Proof.
  intros builders arms D s data h r ND C E A P t x I.
  destruct (C302_reported _ _ _ _ _ _ _ ND C E) as (TM & _ & _ & _ & _ & m & prior & mult & pred & B & K & V).
  apply (In_nth _ _ (0%Z, 0%Q)) in I as (i & LI & NI).
  assert (LI' : i < List.length data) by (rewrite <- (map_length fst data), <- TM, map_length; exact LI).
  specialize (V i LI'). change 0%Q with (snd (0%Z, 0%Q)) in V. rewrite map_nth, NI in V. cbn [snd] in V.
  assert (H : (0 < prior < 1)%Q).
  { destruct (slow_drift D && _); [destruct K as (_ & ->); split; reflexivity|]. destruct K as (_ & a & IA & LK & _). exact (A _ _ _ IA LK). }
  unfold change_at in V. destruct (Nat.eqb _ 0); [rewrite V; split; discriminate|]. destruct V as (_ & j & J & ->).
  destruct (C44_distribution prior (pred 0) (List.length (past h ++ data)) j H (fun t k => P _ _ _ _ _ _ _ _ B) (proj2 J)) as (_ & _ & D1 & _).
  specialize (D1 (j - (List.length (past h) + i)) ltac:(lia)). lra.
Qed.
(** Fewer than ten points, history included, are refused, since the normal model refuses them. *)
Theorem C302_refused : forall builders arms D s data h, slow_drift D = false \/ threshold D <> None ->
  (forall l mult b, List.length l < 10 -> builders l NormalKnown mult b = None) ->
  List.length (past h ++ data) < 10 -> answer builders arms D s data h = None.
Proof.
  intros builders arms D s data h K R L. unfold answer, fit_predict.
  assert (LJ : List.length (map snd (joined data h)) < 10).
  { rewrite map_length. destruct h as [h|]; [|exact L]. cbn [joined]. rewrite <- (Permutation_length (sort_rows_perm (extended data h))). exact L. }
  assert (N : forall t, run builders arms NormalKnown true t (joined data h) = None).
  { intros t. rewrite run_eq. destruct (choose_priors _ _ _ _) as [(x, p')|]; [|reflexivity]. rewrite R by exact LJ. reflexivity. }
  unfold change_probs. destruct (slow_drift D), (threshold D); cbn [negb]; rewrite ?N; try reflexivity.
  destruct K as [K|K]; [discriminate K|destruct (K eq_refl)].
Qed.
(** The threshold does not change the answer: neither the scores nor anything else depends on its value. *)
Theorem C302_threshold_refuted : forall builders arms drift t t' s data h,
  answer builders arms (Det drift (Some t)) s data h = answer builders arms (Det drift (Some t')) s data h /\
  answer builders arms (Det false (Some t)) s data h = answer builders arms (Det false None) s data h.
Proof.
  intros. unfold answer, fit_predict, change_probs. cbn [slow_drift threshold negb]. split.
  - rewrite (run_thr _ _ _ _ t t'). reflexivity.
  - rewrite (run_thr _ _ _ _ t (1 # 2)). reflexivity.
Qed.
(** With a threshold, [slow_drift] has no effect: the detector for drifts is the one for level shifts. *)
Theorem C302_drift_refuted : forall builders arms t s data h,
  answer builders arms (Det true (Some t)) s data h = answer builders arms (Det false (Some t)) s data h.
Proof. reflexivity. Qed.
(** The caller's history has the data appended, whether or not the call succeeds. *)
Theorem C302_caller_refuted : forall builders arms D s data h,
  left_to_caller builders arms D s data (Some h) = Some (h ++ data) /\
  (data <> [] -> left_to_caller builders arms D s data (Some h) <> Some h).
Proof.
  intros. assert (E : left_to_caller builders arms D s data (Some h) = Some (h ++ data)).
  { unfold left_to_caller, fit_predict. cbn [option_map]. destruct (match change_probs _ _ _ _ with Some _ => _ | None => _ end); reflexivity. }
  split; [exact E|]. intros N F. rewrite E in F. injection F as F. apply (f_equal (@List.length _)) in F. rewrite app_length in F. destruct data; [contradiction|cbn in F; lia].
Qed.
(** So the same call made twice with the same objects does not answer the same: the second answer, if there is one,
    no longer has the times of the data. *)
Theorem C302_twice_refuted : forall builders arms D s s' data h h' r, 2 <= List.length data -> chronological (h ++ data) ->
  left_to_caller builders arms D s data (Some h) = Some h' -> answer builders arms D s' data (Some h') = Some r ->
  map fst (ResponseModel.scores r) <> map fst data.
Proof.
  intros builders arms D s s' data h h' r L2 C EL E F.
  assert (EH : Some h' = Some (h ++ data)) by (rewrite <- EL; exact (proj1 (C302_caller_refuted builders arms D s data h))). clear EL. injection EH as ->.
  unfold answer, fit_predict in E. cbn [joined] in E. set (all := TSDataModel.sort_rows (extended data (h ++ data))) in *.
  assert (PA : Permutation ((h ++ data) ++ data) all) by apply sort_rows_perm.
  assert (SA : StronglySorted Z.le (map fst all)) by apply sort_rows_sorted. clearbody all.
  destruct (change_probs builders arms D all) as [p|] eqn:CP; [|discriminate]. apply change_probs_spec in CP as (L & _).
  unfold respond in E. rewrite (proj2 (Nat.eqb_eq _ _) (eq_sym L)) in E. cbn [fst] in E. injection E as <-.
  unfold ResponseModel.get_last_n in F. cbn [ResponseModel.scores] in F.
  assert (LP : List.length (map fst all) = List.length p) by (rewrite map_length; symmetry; exact L).
  assert (FC : map fst (combine (map fst all) p) = map fst all) by (apply fst_combine; exact LP).
  rewrite sort_rows_id in F by (unfold in_time_order; rewrite FC; exact SA).
  rewrite last_slice_spec in F; [|unfold in_time_order; rewrite FC; exact SA|lia]. rewrite Nat2Z.id in F. unfold most_recent in F.
  rewrite <- (firstn_skipn (List.length (combine (map fst all) p) - List.length data) (combine (map fst all) p)) in FC.
  rewrite map_app, F in FC. set (pre := map fst (firstn _ _)) in FC. clearbody pre. clear F LP L p.
  (* the last time of the data occurs twice in [all] but once in the data *)
  destruct data as [|d0 data] using rev_ind; [cbn in L2; lia|]. clear IHdata. destruct data as [|d1 data]; [cbn in L2; lia|].
  set (t := fst d0). assert (ND : NoDup (map fst (h ++ (d1 :: data) ++ [d0]))) by (apply strict_nodup; exact C).
  assert (CT : count_occ Z.eq_dec (map fst all) t = 2).
  { rewrite <- (proj1 (Permutation_count_occ Z.eq_dec _ _) (Permutation_map fst PA) t). rewrite !map_app, !count_occ_app.
    rewrite !map_app in ND. assert (N1 : count_occ Z.eq_dec (map fst h) t = 0 /\ count_occ Z.eq_dec (map fst (d1 :: data)) t = 0).
    { pose proof (proj1 (NoDup_count_occ Z.eq_dec _) ND t) as CN. rewrite !count_occ_app in CN.
      change (map fst [d0]) with [t] in CN. rewrite (count_occ_cons_eq Z.eq_dec [] (eq_refl t)) in CN. cbn [count_occ] in CN |- *. lia. }
    destruct N1 as (-> & ->). change (map fst [d0]) with [t]. rewrite !(count_occ_cons_eq Z.eq_dec [] (eq_refl t)). reflexivity. }
  assert (CD : count_occ Z.eq_dec (map fst ((d1 :: data) ++ [d0])) t <= 1).
  { rewrite map_app in ND. apply NoDup_count_occ with (decA := Z.eq_dec) (x := t) in ND. rewrite count_occ_app in ND. lia. }
  rewrite <- FC, count_occ_app in CT. assert (IP : In t pre) by (apply (count_occ_In Z.eq_dec); lia).
  rewrite <- FC in SA. apply in_split in IP as (u & v & ->). rewrite <- app_assoc in SA. 
  assert (LE : (t <= fst d1)%Z).
  { clear - SA. induction u as [|a u IH]; cbn [app map] in SA; [|inversion SA; subst; apply IH; assumption]. inversion SA as [|? ? _ FA]; subst.
    rewrite Forall_forall in FA. apply FA. apply in_or_app. right. left. reflexivity. }
  unfold chronological in C. rewrite map_app in C. cbn [map app] in C.
  clear - C LE. induction h as [|a h IH]; cbn [map app] in C; [|inversion C; subst; apply IH; assumption]. inversion C as [|? ? _ FA]; subst.
  rewrite Forall_forall in FA. specialize (FA t). rewrite map_app in FA. assert (I : In t (map fst data ++ map fst [d0])) by (apply in_or_app; right; left; reflexivity).
  specialize (FA I). lia.
Qed.
(** The object keeps the number of points of the last call; a call that succeeds keeps the answer for history and data
    together, of which the caller got the last part, and one that fails keeps the answer of an earlier call. *)
Theorem C302_state : forall builders arms D s data h, data <> [] -> chronological (past h ++ data) ->
  let '(a, s', _) := fit_predict builders arms D s data h in
  last_n s' = List.length data /\
  match a with
  | None => last_response s' = last_response s
  | Some r => exists w, last_response s' = Some w /\ ResponseModel.predicted w = Some (past h ++ data) /\
                map fst (ResponseModel.scores w) = map fst (past h ++ data) /\
                forall c, component c r = option_map (most_recent (List.length data)) (component c w)
  end.
Proof.
  intros builders arms D s data h ND C. unfold fit_predict. rewrite (joined_id _ _ C). pose proof (sorted_le _ C) as CL. set (all := past h ++ data) in *.
  destruct (change_probs builders arms D all) as [p|] eqn:CP; [|split; reflexivity]. apply change_probs_spec in CP as (L & _).
  unfold respond. rewrite (proj2 (Nat.eqb_eq _ _) (eq_sym L)). cbn [last_n last_response]. split; [reflexivity|]. eexists. split; [reflexivity|].
  assert (LP : List.length (map fst all) = List.length p) by (rewrite map_length; symmetry; exact L).
  assert (FC : map fst (combine (map fst all) p) = map fst all) by (apply fst_combine; exact LP).
  split; [reflexivity|]. cbn [ResponseModel.scores].
  split; [rewrite sort_rows_id by (unfold in_time_order; rewrite FC; exact CL); exact FC|].
  assert (N0 : (0 < Z.of_nat (List.length data))%Z) by (destruct data; [contradiction|cbn [List.length]; lia]).
  intros c. rewrite component_last. destruct c; cbn [component ResponseModel.scores ResponseModel.band ResponseModel.predicted ResponseModel.magnitude ResponseModel.stat_sig option_map];
    rewrite last_slice_spec, Nat2Z.id; try reflexivity; try exact N0; try exact CL; apply sort_rows_sorted.
Qed.
Definition flat : list Q -> builder := fun _ _ _ _ => Some (fun _ _ _ => 1%Q).
Definition few : list Q -> list arm := fun _ => [[("cp_prior"%string, 1 # 10)]; [("known_prec_multiplier"%string, 2%Q); ("cp_prior"%string, 1 # 4)]].
Definition old : bars := [(1%Z, 5%Q); (2%Z, 6%Q)].
Definition new : bars := [(3%Z, 7%Q); (4%Z, 9%Q)].
Example C302_case :
  chronological (past (Some old) ++ new) /\
  option_map (fun r => map (fun x => (fst x, Qred (snd x))) (ResponseModel.scores r)) (answer flat few (Det false (Some (1 # 3))) (State None 0) new (Some old))
    = Some [(3%Z, 1 # 10); (4%Z, 1 # 10)] /\
  left_to_caller flat few (Det false (Some (1 # 3))) (State None 0) new (Some old) = Some [(1%Z, 5%Q); (2%Z, 6%Q); (3%Z, 7%Q); (4%Z, 9%Q)] /\
  option_map (fun r => map fst (ResponseModel.scores r)) (answer flat few (Det false None) (State None 0) new (Some (old ++ new))) = Some [4%Z; 4%Z] /\
  option_map (fun r => map (fun x => (fst x, Qred (snd x))) (ResponseModel.scores r)) (answer flat few (Det true None) (State None 0) new (Some old))
    = Some [(3%Z, 1 # 100); (4%Z, 1 # 100)].
Proof. split; [repeat constructor; cbn; lia|]. repeat split; vm_compute; reflexivity. Qed.

(** ** C303 *)
(** what a call answers *)
Definition trend_answer (holt : smoother) (builders : list Q -> builder) (arms : list Q -> list arm) (D : trend_det) (data : bars) (h : option bars) :=
  fst (trend_fit_predict holt builders arms D data h).
(** the change, from the point before, of level plus trend; for the first point that of the second *)
Definition slope_at (level trend : list Q) (i : nat) : Q :=
  let f k := (nth k level 0 + nth k trend 0)%Q in let k := Nat.max i 1 in (f k - f (k - 1)%nat)%Q.
Lemma diff_len l : List.length (diff l) = List.length l - 1.
Proof. induction l as [|x [|y l] IH]; [reflexivity|reflexivity|]. change (diff (x :: y :: l)) with ((y - x)%Q :: diff (y :: l)). cbn [List.length]. rewrite IH. cbn. lia. Qed.
Lemma diff_nth l i : S i < List.length l -> nth i (diff l) 0%Q = (nth (S i) l 0 - nth i l 0)%Q.
Proof.
  revert i. induction l as [|x [|y l] IH]; intros i L; [cbn in L; lia|cbn in L; lia|]. change (diff (x :: y :: l)) with ((y - x)%Q :: diff (y :: l)).
  destruct i as [|i]; [reflexivity|]. cbn [nth]. rewrite IH by (cbn [List.length] in L |- *; lia). reflexivity.
Qed.
Lemma nth_sum a b i : i < List.length (combine a b) -> nth i (map (fun p : Q * Q => (fst p + snd p)%Q) (combine a b)) 0%Q = (nth i a 0 + nth i b 0)%Q.
Proof. revert b i. induction a as [|x a IH]; intros [|y b] i L; cbn in L; try lia. destruct i as [|i]; [reflexivity|]. cbn. apply IH. lia. Qed.
(** The answer has one entry for every point of the data, at its time.  Its prediction and both bounds are not values
    of the data but the slopes of the Holt-Winters smoothing with period 7 and all three parameters 0.1; its scores are
    those of the BOCPD detector for level shifts on these slopes. *)
Theorem C303_reported : forall holt builders arms D data h r, chronological data -> trend_answer holt builders arms D data h = Some r ->
  exists level trend rows, holt (1 # 10) (1 # 10) (1 # 10) 7 (map snd data) = Some (level, trend) /\ 2 <= List.length data /\
    map fst rows = map fst data /\ (forall i, i < List.length data -> nth i (map snd rows) 0%Q = slope_at level trend i) /\
    ResponseModel.predicted r = Some rows /\ ResponseModel.band r = Some (rows, rows) /\
    map fst (ResponseModel.scores r) = map fst data /\
    answer builders arms (Det false None) (State None 0) rows None = Some r.
Proof.
  intros holt builders arms D data h r C E. unfold trend_answer, trend_fit_predict, slopes in E.
  destruct (holt (1 # 10) (1 # 10) (1 # 10) 7 (map snd data)) as [(level, trend)|] eqn:H; [|discriminate].
  set (fit := map (fun p : Q * Q => (fst p + snd p)%Q) (combine level trend)) in E. destruct (diff fit) as [|x t] eqn:DF; [discriminate|].
  destruct (Nat.eqb_spec (List.length data) (List.length (x :: x :: t))) as [L|L]; [|discriminate].
  assert (LV : List.length (map fst data) = List.length (x :: x :: t)) by (rewrite map_length; exact L).
  pose proof (fst_combine _ _ LV) as FC. rewrite sort_rows_id in E by (unfold in_time_order; rewrite FC; apply sorted_le; exact C).
  set (rows := combine (map fst data) (x :: x :: t)) in *. cbn [fst] in E. fold (answer builders arms (Det false None) (State None 0) rows None) in E.
  assert (NR : rows <> []) by (intros Q0; rewrite Q0 in FC; destruct data; [cbn in L; lia|discriminate FC]).
  assert (CR : chronological (past None ++ rows)) by (unfold chronological; exact (eq_ind_r (fun l => StronglySorted Z.lt l) C FC)).
  destruct (C302_reported _ _ _ _ _ _ _ NR CR E) as (T & P & BA & _).
  exists level, trend, rows. split; [reflexivity|]. split; [rewrite L; cbn; lia|]. split; [exact FC|]. split; [|repeat (split; [assumption|]); split; [exact (eq_trans T FC)|exact E]].
  assert (LF : List.length fit = List.length data).
  { pose proof (diff_len fit) as DL. rewrite DF in DL. cbn [List.length] in DL, L. lia. }
  assert (LC : List.length (combine level trend) = List.length data) by (unfold fit in LF; rewrite map_length in LF; exact LF).
  intros i I. unfold rows. rewrite nth_combine_snd by exact LV. unfold slope_at.
  assert (G : forall k, S k < List.length data -> nth k (x :: t) 0%Q = ((nth (S k) level 0 + nth (S k) trend 0) - (nth k level 0 + nth k trend 0))%Q).
  { intros k K. rewrite <- DF, diff_nth by (rewrite LF; exact K). unfold fit. rewrite !nth_sum by (rewrite LC; lia). reflexivity. }
  destruct i as [|i].
  - change (Nat.max 0 1) with 1. cbn [Nat.sub]. rewrite <- (G 0 ltac:(cbn [List.length] in L; lia)). reflexivity.
  - replace (Nat.max (S i) 1) with (S i) by lia. cbn [Nat.sub]. rewrite Nat.sub_0_r. rewrite <- (G i I). reflexivity.
Qed.
(** The two smoothing parameters the object was made with have no effect. *)
Theorem C303_parameters_refuted : forall holt builders arms a b a' b' data h,
  trend_answer holt builders arms (TrendDet a b) data h = trend_answer holt builders arms (TrendDet a' b') data h.
Proof. reflexivity. Qed.
(** The history is not used; it is left as it was. *)
Theorem C303_history_refuted : forall holt builders arms D data h h',
  trend_answer holt builders arms D data h = trend_answer holt builders arms D data h' /\ snd (trend_fit_predict holt builders arms D data h) = h.
Proof. intros. unfold trend_answer, trend_fit_predict. destruct (slopes _ _ _ _ _ _); split; reflexivity. Qed.
(** A smoothing that raises, or that gives fewer than two points, is an exception of the call. *)
Theorem C303_raises : forall holt builders arms D data h,
  (holt (1 # 10) (1 # 10) (1 # 10) 7 (map snd data) = None -> trend_answer holt builders arms D data h = None) /\
  (forall level trend, holt (1 # 10) (1 # 10) (1 # 10) 7 (map snd data) = Some (level, trend) -> List.length level < 2 -> trend_answer holt builders arms D data h = None).
Proof.
  intros. unfold trend_answer, trend_fit_predict, slopes. split; [intros ->; reflexivity|]. intros level trend -> L.
  destruct level as [|x [|y level]]; [reflexivity| |cbn in L; lia]. destruct trend; reflexivity.
Qed.
Example C303_case :
  let data := [(1%Z, 5%Q); (2%Z, 6%Q); (3%Z, 8%Q); (4%Z, 9%Q)] in
  let holt : smoother := fun a _ _ _ v => Some (v, map (fun _ => a) v) in
  chronological data /\
  option_map (fun r => option_map (map (fun x => (fst x, Qred (snd x)))) (ResponseModel.predicted r)) (trend_answer holt flat few (TrendDet (1 # 2) (1 # 2)) data None)
    = Some (Some [(1%Z, 1%Q); (2%Z, 1%Q); (3%Z, 2%Q); (4%Z, 1%Q)]).
Proof. split; [repeat constructor; cbn; lia|]. vm_compute. reflexivity. Qed.

Print Assumptions C302_reported.
Print Assumptions C302_probabilities.
Print Assumptions C302_refused.
Print Assumptions C302_threshold_refuted.
Print Assumptions C302_drift_refuted.
Print Assumptions C302_caller_refuted.
Print Assumptions C302_twice_refuted.
Print Assumptions C302_state.
Print Assumptions C303_reported.
Print Assumptions C303_parameters_refuted.
Print Assumptions C303_history_refuted.
Print Assumptions C303_raises.
