(** C227 (saving and loading global models and ensembles) — specification, proofs and theorems. *)
From Coq Require Import List Bool Arith ZArith QArith String Lia.
From Verif Require Import GmParamModel GmParamProps GmSaveModel.
Import ListNotations.
Local Notation length := List.length.
Open Scope nat_scope.
Section Save.
Variable W : Type.
Variable fits : param Z -> string -> W -> bool.
Arguments rnn {W}. Arguments encoder {W}. Arguments decoder {W}. Arguments gm_params {W}. Arguments models {W}. Arguments ge_params {W}. Arguments gm_info {W}. Arguments splits {W}. Arguments replicate {W}.
Arguments ensemble_type {W}. Arguments overlap {W}. Arguments multi {W}. Arguments max_core {W}. Arguments test_ids {W}.

(** ** Specification *)
(** a model with networks, as training leaves it: constructed parameters, and just the networks of its type *)
Definition built (g : gm W) : Prop :=
  (exists a, make a = Some (gm_params g)) /\
  (model_type (gm_params g) = "rnn"%string /\ (exists w, rnn g = Some w /\ fits (gm_params g) "rnn" w = true) /\ encoder g = None /\ decoder g = None \/
   model_type (gm_params g) <> "rnn"%string /\ rnn g = None /\ (exists w, encoder g = Some w /\ fits (gm_params g) "encoder" w = true) /\ exists w, decoder g = Some w /\ fits (gm_params g) "decoder" w = true).
(** an ensemble as the constructor and training leave it on a machine with [cpus] cores *)
Definition built_ensemble (cpus : nat) (e : gme W) : Prop :=
  (ensemble_type e = "median" \/ ensemble_type e = "mean")%string /\ 1 <= splits e /\ 1 <= replicate e /\ 1 <= max_core e <= cpus /\
  length (models e) = replicate e * splits e /\ forall g, In g (models e) -> built g /\ gm_params g = ge_params e.
(** equal in all that training and forecasts depend on; [core]: the cores, [ids]: the ids of the held out series *)
Definition same (e e' : gme W) (core : nat) (ids : list nat) : Prop :=
  ge_params e' = ge_params e /\ ensemble_type e' = ensemble_type e /\ splits e' = splits e /\ overlap e' = overlap e /\ replicate e' = replicate e /\ multi e' = multi e /\
  models e' = models e /\ gm_info e' = gm_info e /\ max_core e' = core /\ test_ids e' = ids.

(** ** Proofs *)
Lemma rebuild_built g : built g -> rebuild W fits (gm_params g) (rnn g) (encoder g) (decoder g) = Some g.
Proof.
  intros [_ [[T [[w [R F]] [E D]]]|[T [R [[a [E Fa]] [b [D Fb]]]]]]]; unfold rebuild, load_net; destruct g as [p r e d]; cbn [gm_params rnn encoder decoder] in *; subst.
  - rewrite (proj2 (String.eqb_eq _ _) T). rewrite F. reflexivity.
  - rewrite (proj2 (String.eqb_neq _ _) T). rewrite Fa, Fb. reflexivity.
Qed.
Lemma rebuild_dict g d : built g -> nn_dict W g = Some d -> (let '(r, e, x) := d in rebuild W fits (gm_params g) r e x) = Some g.
Proof.
  intros B. assert (RB := rebuild_built g B). destruct B as [_ [[T [[w [R F]] [E D]]]|[T [R [[a [E Fa]] [b [D Fb]]]]]]]; unfold nn_dict.
  - rewrite (proj2 (String.eqb_eq _ _) T), R. intros Q. injection Q as <-. rewrite R, E, D in RB. exact RB.
  - rewrite (proj2 (String.eqb_neq _ _) T), E, D. intros Q. injection Q as <-. rewrite R, E, D in RB. exact RB.
Qed.
Lemma dict_some g : built g -> exists d, nn_dict W g = Some d.
Proof. intros [_ [[T [[w [R F]] [E D]]]|[T [R [[a [E Fa]] [b [D Fb]]]]]]]; unfold nn_dict; [rewrite (proj2 (String.eqb_eq _ _) T), R | rewrite (proj2 (String.eqb_neq _ _) T), E, D]; eauto. Qed.
Lemma traverse_ok {A B} (f : A -> option B) l : (forall x, In x l -> exists y, f x = Some y) -> exists r, traverse f l = Some r /\ length r = length l /\ forall i x, nth_error l i = Some x -> nth_error r i = f x.
Proof.
  induction l as [|x l IH]; intros H; [exists []; repeat split; intros [|i] x; discriminate |]. destruct (H x (or_introl eq_refl)) as [y E]. destruct (IH ltac:(intros; apply H; right; assumption)) as [r [T [L N]]].
  exists (y :: r). cbn [traverse]. rewrite E, T. split; [reflexivity |]. split; [cbn; rewrite L; reflexivity |]. intros [|i] z; cbn; [intros Q; injection Q as <-; symmetry; exact E | apply N].
Qed.
Lemma traverse_seq {B} (f : nat -> option B) l : (forall i x, nth_error l i = Some x -> f i = Some x) -> traverse f (seq 0 (length l)) = Some l.
Proof.
  assert (K : forall l s, (forall i x, nth_error l i = Some x -> f (s + i) = Some x) -> traverse f (seq s (length l)) = Some l).
  { induction l0 as [|x l0 IH]; intros s H; [reflexivity |]. cbn [length seq traverse]. specialize (H 0 x eq_refl) as H0. rewrite Nat.add_0_r in H0. rewrite H0. rewrite IH; [reflexivity |].
    intros i y E. replace (S s + i) with (s + S i) by lia. apply H. exact E. }
  intros H. apply K. exact H.
Qed.
Lemma traverse_map {A B C} (f : A -> option B) (g : B -> option C) l (r : list B) : traverse f l = Some r -> (forall x y, In x l -> f x = Some y -> exists z, g y = Some z) ->
  forall r', (forall i x y, nth_error l i = Some x -> f x = Some y -> g y = nth_error r' i) -> length r' = length l -> traverse g r = Some r'.
Proof.
  revert r. induction l as [|x l IH]; intros r; cbn [traverse].
  - intros Q _ [|z r'] _ L; [injection Q as <-; reflexivity | discriminate].
  - destruct (f x) as [y|] eqn:E; [| discriminate]. destruct (traverse f l) as [rr|] eqn:T; [| discriminate]. intros Q H r' N L. injection Q as <-. destruct r' as [|z r']; [discriminate |].
    cbn [traverse]. rewrite (N 0 x y eq_refl E). cbn [nth_error]. rewrite (IH rr eq_refl) with (r' := r'); [reflexivity | intros; eapply H; [right; eassumption | eassumption] | | injection L as L; exact L].
    intros i a b Na Nb. apply (N (S i) a b Na Nb).
Qed.
Lemma make_ok cpus (e : gme W) core : (ensemble_type e = "median" \/ ensemble_type e = "mean")%string -> 1 <= splits e -> 1 <= replicate e -> 1 <= core <= cpus ->
  make_gme W cpus (ge_params e) (ensemble_type e) (splits e) (overlap e) (replicate e) (multi e) core =
  Some {| GmSaveModel.ge_params := ge_params e; GmSaveModel.ensemble_type := ensemble_type e; GmSaveModel.splits := splits e; GmSaveModel.overlap := overlap e; GmSaveModel.replicate := replicate e; GmSaveModel.multi := multi e; GmSaveModel.max_core := core;
          GmSaveModel.models := repeat (fresh W (ge_params e)) (replicate e * splits e); GmSaveModel.gm_info := []; GmSaveModel.test_ids := [] |}.
Proof.
  intros T S1 R1 C. unfold make_gme. assert (ET : (String.eqb (ensemble_type e) "median" || String.eqb (ensemble_type e) "mean")%bool = true) by (destruct T as [->| ->]; reflexivity).
  rewrite ET, (proj2 (Nat.leb_le _ _) S1), (proj2 (Nat.leb_le _ _) R1), (proj2 (Nat.leb_le _ _) (proj1 C)), (proj2 (Nat.leb_le _ _) (proj2 C)). reflexivity.
Qed.

(** ** Theorems *)
(** a trained model comes back from its file and from its JSON text as it was *)
Theorem C227_model cpus g : built g -> (exists f, gm_save W g = Some f /\ gm_load W fits f = Some g) /\ exists j, gm_json W g = Some j /\ from_json W fits cpus j = Some (inl g).
Proof.
  intros B. assert (RB := rebuild_built g B). destruct (proj1 B) as [a MA]. split.
  - exists (to_string (gm_params g), rnn g, encoder g, decoder g). split.
    + unfold gm_save. destruct (proj2 B) as [[T [[w [R F]] _]]|[T [R [[x [E _]] [y [D _]]]]]]; [rewrite (proj2 (String.eqb_eq _ _) T), R | rewrite (proj2 (String.eqb_neq _ _) T), E, D]; reflexivity.
    + unfold gm_load. rewrite (C220_text a _ MA). exact RB.
  - destruct (dict_some g B) as [d ND]. unfold gm_json. rewrite ND. eexists. split; [reflexivity |]. cbn [from_json]. pose proof (rebuild_dict g d B ND) as RD. destruct d as [[r e] x]. rewrite (C220_text a _ MA), RD. reflexivity.
Qed.
(** a model without networks cannot be saved *)
Theorem C227_untrained p : gm_save W (fresh W p) = None /\ gm_json W (fresh W p) = None.
Proof. unfold gm_save, gm_json, nn_dict, fresh. cbn. destruct (String.eqb (model_type p) "rnn"); split; reflexivity. Qed.
(** a trained ensemble comes back from its file, on any machine, but without the ids of the test series *)
Theorem C227_file_partial cpus cpus' e : built_ensemble cpus e -> 1 <= cpus' ->
  exists f e', gme_save W e = Some f /\ gme_load W fits cpus' f = Some e' /\ same e e' (Nat.min (max_core e) cpus') [].
Proof.
  intros B C. assert (B' := B). destruct B' as [T [S1 [R1 [MC [LM BM]]]]]. assert (NE : models e <> []) by (intros N; rewrite N in LM; cbn in LM; nia).
  assert (MA : exists a, make a = Some (ge_params e)).
  { destruct (models e) as [|g l] eqn:M; [congruence |]. destruct (BM g (or_introl eq_refl)) as [[[a A] _] P]. exists a. rewrite <- P. exact A. }
  destruct MA as [a MA]. assert (SAVE : exists f, gme_save W e = Some f /\ f_params W f = to_string (ge_params e) /\ f_info W f = gm_info e /\ f_splits W f = splits e /\ f_overlap W f = overlap e /\ f_replicate W f = replicate e /\ f_multi W f = multi e /\ f_core W f = max_core e /\ f_type W f = ensemble_type e /\
    (let n := match f_rnn W f with Some r => length r | None => match f_encoder W f with Some e => length e | None => 0 end end in n = length (models e)) /\
    forall i g, nth_error (models e) i = Some g -> rebuild W fits (ge_params e) (match f_rnn W f with Some l => nth_error l i | None => None end) (match f_encoder W f with Some l => nth_error l i | None => None end) (match f_decoder W f with Some l => nth_error l i | None => None end) = Some g).
  { unfold gme_save. destruct (models e) as [|g0 l0] eqn:M; [congruence |]. rewrite <- M in *. destruct (String.eqb (model_type (ge_params e)) "rnn") eqn:TY.
    - apply String.eqb_eq in TY. destruct (traverse_ok rnn (models e)) as [r [TR [LR NR]]].
      { intros g I. destruct (BM g I) as [[_ [[_ [[w [R _]] _]]|[X _]]] P]; [eauto | rewrite P in X; congruence]. }
      rewrite TR. eexists. split; [reflexivity |]. cbn [f_params f_info f_splits f_overlap f_replicate f_multi f_core f_type f_rnn f_encoder f_decoder]. repeat (split; [reflexivity |]). split; [exact LR |].
      intros i g E. rewrite (NR i g E). apply nth_error_In in E. destruct (BM g E) as [Bg P]. rewrite <- P. pose proof (rebuild_built g Bg) as RB. destruct (proj2 Bg) as [[_ [_ [En De]]]|[X _]]; [| rewrite P in X; congruence].
      rewrite En, De in RB. exact RB.
    - apply String.eqb_neq in TY. destruct (traverse_ok encoder (models e)) as [r [TR [LR NR]]].
      { intros g I. destruct (BM g I) as [[_ [[X _]|[_ [_ [[w [R _]] _]]]]] P]; [rewrite P in X; congruence | eauto]. }
      destruct (traverse_ok decoder (models e)) as [q [TQ [LQ NQ]]].
      { intros g I. destruct (BM g I) as [[_ [[X _]|[_ [_ [_ [w [R _]]]]]]] P]; [rewrite P in X; congruence | eauto]. }
      rewrite TR, TQ. eexists. split; [reflexivity |]. cbn [f_params f_info f_splits f_overlap f_replicate f_multi f_core f_type f_rnn f_encoder f_decoder]. repeat (split; [reflexivity |]). split; [exact LR |].
      intros i g E. rewrite (NR i g E), (NQ i g E). apply nth_error_In in E. destruct (BM g E) as [Bg P]. rewrite <- P. pose proof (rebuild_built g Bg) as RB. destruct (proj2 Bg) as [[X _]|[_ [Rn _]]]; [rewrite P in X; congruence |].
      rewrite Rn in RB. exact RB. }
  destruct SAVE as [f [E [FP [FI [FS [FO [FR [FM [FC [FT [LN RN]]]]]]]]]]]. exists f. eexists. split; [exact E |]. unfold gme_load. rewrite FP, (C220_text a _ MA). cbv zeta in *. rewrite LN.
  rewrite (traverse_seq _ (models e)) by exact RN. rewrite FT, FS, FO, FR, FM, FC. rewrite (make_ok cpus' e (Nat.min (max_core e) cpus') T S1 R1) by lia.
  split; [reflexivity |]. repeat split; cbn; auto.
Qed.
Theorem C227_ids_refuted cpus cpus' e f e' : built_ensemble cpus e -> 1 <= cpus' -> test_ids e <> [] -> gme_save W e = Some f -> gme_load W fits cpus' f = Some e' -> test_ids e' <> test_ids e.
Proof.
  intros B C N S L. destruct (C227_file_partial cpus cpus' e B C) as [f2 [e2 [S2 [L2 SM]]]]. rewrite S in S2. injection S2 as <-. rewrite L in L2. injection L2 as <-.
  destruct SM as [_ [_ [_ [_ [_ [_ [_ [_ [_ I]]]]]]]]]. rewrite I. congruence.
Qed.
(** and from its JSON text, if it was trained without test series; with test series there are frames in the training information and
    an exception is raised *)
Theorem C227_json_partial cpus cpus' e : built_ensemble cpus e -> 1 <= cpus' -> (forall v, In v (gm_info e) -> json_ok v = true) ->
  exists j e', gme_json W e = Some j /\ from_json W fits cpus' j = Some (inr e') /\ same e e' (Nat.min cpus' (max_core e)) [].
Proof.
  intros B C J. assert (B' := B). destruct B' as [T [S1 [R1 [MC [LM BM]]]]]. assert (NE : models e <> []) by (intros N; rewrite N in LM; cbn in LM; nia).
  assert (MA : exists a, make a = Some (ge_params e)).
  { destruct (models e) as [|g l] eqn:M; [congruence |]. destruct (BM g (or_introl eq_refl)) as [[[a A] _] P]. exists a. rewrite <- P. exact A. }
  destruct MA as [a MA]. destruct (traverse_ok (nn_dict W) (models e)) as [ds [TD _]]; [intros g I; apply dict_some, BM, I |].
  unfold gme_json. rewrite TD. rewrite (proj2 (forallb_forall json_ok (gm_info e)) J). eexists. eexists. split; [reflexivity |]. cbn [from_json]. rewrite (C220_text a _ MA), (make_ok cpus' e _ T S1 R1) by lia.
  rewrite (traverse_map (nn_dict W) _ (models e) ds TD) with (r' := models e); [split; [reflexivity | repeat split] | | | reflexivity].
  - intros g d I D. destruct (BM g I) as [Bg P]. exists g. rewrite <- P. apply rebuild_dict; assumption.
  - intros i g d I D. rewrite I. apply nth_error_In in I. destruct (BM g I) as [Bg P]. rewrite <- P. apply rebuild_dict; assumption.
Qed.
Theorem C227_json_refuted e v : In v (gm_info e) -> json_ok v = false -> gme_json W e = None.
Proof.
  intros I J. unfold gme_json. destruct (traverse _ _); [| reflexivity]. destruct (forallb json_ok (gm_info e)) eqn:F; [| reflexivity]. rewrite forallb_forall in F. rewrite (F v I) in J. discriminate.
Qed.
End Save.

(** what training puts into the information when there are test series: one frame per epoch (model.py:486-508) *)
Definition trained_info (tests : bool) (epochs : nat) : value :=
  Dict ([("train_loss_monitor"%string, List (repeat (Num 1) epochs)); ("valid_loss_monitor"%string, List (repeat (Dict [("epoch"%string, Num 0)]) epochs)); ("valid_fcst_monitor"%string, List []); ("train_loss_val"%string, List (repeat (Num 1) epochs))]
        ++ (if tests then [("test_info"%string, List (repeat Frame epochs))] else []))%list.
Example C227_info : json_ok (trained_info false 3) = true /\ json_ok (trained_info true 3) = false.
Proof. split; reflexivity. Qed.
(** an ensemble to which the theorems apply *)
Example C227_case : exists p e, make plain = Some p /\ built_ensemble nat (fun _ _ w => w =? 5) 8 e /\ test_ids nat e = [3] /\ ge_params nat e = p /\ length (models nat e) = 2.
Proof.
  assert (M : exists p, make plain = Some p /\ model_type p = "rnn"%string) by (eexists; split; [vm_compute; reflexivity | reflexivity]). destruct M as [p [M T]].
  exists p, {| ge_params := p; ensemble_type := "median"; splits := 2; overlap := true; replicate := 1; multi := false; max_core := 3;
    models := repeat {| gm_params := p; rnn := Some 5; encoder := None; decoder := None |} 2; gm_info := [trained_info true 8; trained_info true 8]; test_ids := [3] |}.
  split; [exact M |].
  split; [| repeat split]. unfold built_ensemble. cbn [ensemble_type splits replicate max_core models ge_params]. split; [left; reflexivity |]. repeat (split; [lia |]). split; [reflexivity |].
  intros g I. apply repeat_spec in I. subst g. cbn [gm_params]. split; [| reflexivity]. split; [exists plain; exact M |]. left. cbn [gm_params rnn encoder decoder]. split; [exact T |]. split; [exists 5; split; reflexivity | split; reflexivity].
Qed.

Print Assumptions C227_model.
Print Assumptions C227_untrained.
Print Assumptions C227_file_partial.
Print Assumptions C227_ids_refuted.
Print Assumptions C227_json_partial.
Print Assumptions C227_json_refuted.
