(** C220 (parameters of the global model: checks, copies, text form) and C221 (schedules of training) — specification, proofs and
    theorems. *)
From Coq Require Import List Bool Arith ZArith QArith String Ascii DecimalString DecimalZ DecimalFacts DecimalPos Lia.
From Verif Require Import GmParamModel.
Import ListNotations.
Local Notation length := List.length.
Open Scope Z_scope.

(** ** Specification *)
(** what the documentation promises of a parameter object *)
Record sound (p : param Z) : Prop := {
  counts : 1 <= input_window p /\ 1 <= fcst_window p /\ 1 <= seasonality p /\ 1 <= state_size p /\ 1 <= epoch_num p /\ 1 <= epoch_size p /\
           1 <= min_training_step_num p /\ 1 <= min_training_step_length p /\ 1 <= soft_max_training_step_num p /\
           1 <= validation_step_num p /\ 1 <= min_warming_up_step_num p /\ 1 <= fcst_step_num p;
  median_first : exists q l, quantile p = q :: l /\ (q == 1 # 2)%Q;
  quantiles : forall q, In q (quantile p) \/ In q (training_quantile p) -> (0 < q < 1)%Q;
  weights : length (quantile_weight p) = length (quantile p) /\ forall w, In w (quantile_weight p) -> (0 < w)%Q;
  schedules : forall d, d = batch_size p \/ d = learning_rate p -> (exists v, In (0, v) d) /\
              forall k v, In (k, v) d -> match v with PInt z => d = batch_size p /\ 0 < z | PFloat q => d = learning_rate p /\ (0 < q)%Q end;
  models : model_type p = "rnn"%string /\ decoder_nn_structure p = [] \/ model_type p = "s2s"%string;
  losses : loss_function p = "pinball"%string \/ loss_function p = "adjustedpinball"%string;
  known_metrics : incl (validation_metric p) ["smape"; "sbias"; "exceed"]%string;
  stride : max_step_delta p = Z.min (input_window p) (fcst_window p) / min_training_step_length p }.
(** the value at [e] of a schedule: that of the last key up to [e] *)
Definition scheduled (d : list (Z * num)) (e : Z) (v : num) : Prop :=
  exists k, 0 <= k <= e /\ In (k, v) d /\ forall k' v', In (k', v') d -> k' <= e -> k' <= k.

(** ** Proofs *)
Lemma lower1_idem c : lower1 (lower1 c) = lower1 c.
Proof.
  destruct c as [[] [] [] [] [] [] [] []]; reflexivity.
Qed.
Lemma lower_idem s : lower (lower s) = lower s.
Proof. induction s as [|c s IH]; [reflexivity |]. cbn [lower]. rewrite lower1_idem, IH. reflexivity. Qed.
Lemma read_show z : read (show z) = Some z.
Proof.
  unfold read, show. assert (N : forall p, Pos.to_uint p <> Decimal.Nil) by (intros p; apply DecimalPos.Unsigned.to_uint_nonnil).
  rewrite NilZero.isi; [cbn; rewrite DecimalZ.of_to; reflexivity | |]; destruct z; cbn; try discriminate; intros Q; injection Q as Q; exact (N _ Q).
Qed.
Lemma int_keys_show d : int_keys (map (fun kv : Z * num => (show (fst kv), snd kv)) d) = Some d.
Proof. induction d as [|[k v] d IH]; [reflexivity |]. cbn [map fst snd int_keys]. rewrite read_show, IH. reflexivity. Qed.
Lemma union_again ty u d : valid_union ty u = Some d -> valid_union ty (Schedule d) = Some d.
Proof.
  destruct u as [v|d']; cbn [valid_union].
  - destruct (ty v && positive_num v) eqn:E; [| discriminate]. intros Q. injection Q as <-. cbn. rewrite E. reflexivity.
  - destruct (_ && _) eqn:E; [| discriminate]. intros Q. injection Q as <-. rewrite E. reflexivity.
Qed.
Lemma optimizer_again o r : valid_optimizer o = Some r -> valid_optimizer (OptDict (fst r) (snd r)) = Some r.
Proof.
  destruct o as [|s|[n|] p]; cbn [valid_optimizer].
  - intros Q. injection Q as <-. reflexivity.
  - destruct (String.eqb (lower s) "adam"); [| discriminate]. intros Q. injection Q as <-. reflexivity.
  - destruct (String.eqb (lower n) "adam") eqn:E; [| discriminate]. intros Q. injection Q as <-. cbn [fst snd]. rewrite E. reflexivity.
  - discriminate.
Qed.
Lemma feature_again f r : valid_feature f = Some r -> valid_feature (match r with None => FeatNone | Some l => FeatList l end) = Some r.
Proof.
  destruct f as [|s|l]; cbn [valid_feature].
  - intros Q. injection Q as <-. reflexivity.
  - destruct (member s features) eqn:E; [| discriminate]. intros Q. injection Q as <-. cbn [valid_feature forallb]. rewrite E. reflexivity.
  - destruct (forallb _ l) eqn:E; [| discriminate]. intros Q. injection Q as <-. cbn [valid_feature]. rewrite E. reflexivity.
Qed.
Lemma make_again a p : make a = Some p -> make (as_args p) = Some p.
Proof.
  unfold make at 1. destruct (negb (member (a_model_type a) _)) eqn:E1; [discriminate |]. destruct (negb (Qle_bool 0 _)) eqn:E2; [discriminate |].
  destruct (valid_union is_int _) as [bs|] eqn:E3; [| discriminate]. destruct (valid_union is_float _) as [lr|] eqn:E4; [| discriminate].
  destruct (valid_optimizer _) as [opt|] eqn:E5; [| discriminate]. destruct (valid_feature _) as [feat|] eqn:E6; [| discriminate].
  cbv zeta. match goal with |- (if ?b then _ else _) = _ -> _ => destruct b eqn:E7; [| discriminate] end. intros Q. injection Q as <-.
  unfold make, as_args. cbn [a_freq a_model_type a_uplifting_ratio a_nn_structure a_decoder_nn_structure a_cell_name a_state_size a_h_size a_batch_size a_learning_rate a_loss_function a_optimizer a_quantile a_training_quantile a_quantile_weight a_validation_metric a_init_seasonality a_init_smoothing_params a_gmfeature a_input_window a_fcst_window a_seasonality a_epoch_num a_epoch_size a_min_training_step_num a_min_training_step_length a_soft_max_training_step_num a_validation_step_num a_min_warming_up_step_num a_fcst_step_num a_jit a_gmname
    freq model_type uplifting_ratio nn_structure decoder_nn_structure cell_name state_size h_size batch_size learning_rate loss_function optimizer quantile training_quantile quantile_weight validation_metric init_seasonality init_smoothing_params gmfeature input_window fcst_window seasonality epoch_num epoch_size min_training_step_num min_training_step_length soft_max_training_step_num validation_step_num min_warming_up_step_num fcst_step_num max_step_delta jit gmname default].
  rewrite E1, E2, (union_again _ _ _ E3), (union_again _ _ _ E4), (optimizer_again _ _ E5), (feature_again _ _ E6). cbv zeta. rewrite lower_idem.
  set (sl := if a_min_training_step_length a <=? 0 then Z.max 1 (a_seasonality a - 1) else a_min_training_step_length a) in *.
  assert (SL : (if sl <=? 0 then Z.max 1 (a_seasonality a - 1) else sl) = sl) by (destruct (sl <=? 0) eqn:E; [apply Z.leb_le in E; unfold sl in *; destruct (a_min_training_step_length a <=? 0) eqn:E8; [lia | apply Z.leb_gt in E8; lia] | reflexivity]).
  rewrite SL, E7. destruct (String.eqb (a_model_type a) "s2s"); reflexivity.
Qed.
Lemma member_in s l : member s l = true <-> In s l.
Proof. unfold member. rewrite existsb_exists. split; [intros [x [H E]]; apply String.eqb_eq in E; subst; exact H | intros H; exists s; split; [exact H | apply String.eqb_refl]]. Qed.
Lemma union_sound ty u d : valid_union ty u = Some d -> (exists v, In (0, v) d) /\ forall k v, In (k, v) d -> ty v = true /\ positive_num v = true.
Proof.
  intros H. apply union_again in H. cbn [valid_union] in H. destruct (existsb _ d) eqn:E; [| discriminate]. destruct (forallb _ d) eqn:E'; [| discriminate]. clear H. split.
  - apply existsb_exists in E. destruct E as [[k v] [I Q]]. apply Z.eqb_eq in Q. cbn in Q. subst k. exists v. exact I.
  - intros k v I. rewrite forallb_forall in E'. specialize (E' _ I). cbn in E'. apply andb_true_iff in E'. exact E'.
Qed.
Lemma above0_ok q : above0 q = true -> (0 < q)%Q.
Proof. unfold above0. rewrite negb_true_iff. intros H. apply Qnot_le_lt. intros C. apply Qle_bool_iff in C. congruence. Qed.
Lemma in01_ok q : in01 q = true -> (0 < q < 1)%Q.
Proof. unfold in01. intros H. apply andb_true_iff in H. destruct H as [A B]. split; [apply above0_ok; exact B |]. apply negb_true_iff in A. apply Qnot_le_lt. intros C. apply Qle_bool_iff in C. congruence. Qed.

(** ** Theorems *)
(** C220: an object that is made has the promised properties *)
Theorem C220_sound a p : make a = Some p -> sound p.
Proof.
  unfold make. destruct (negb (member (a_model_type a) _)) eqn:E1; [discriminate |]. destruct (negb (Qle_bool 0 _)) eqn:E2; [discriminate |].
  destruct (valid_union is_int _) as [bs|] eqn:E3; [| discriminate]. destruct (valid_union is_float _) as [lr|] eqn:E4; [| discriminate].
  destruct (valid_optimizer _) as [opt|] eqn:E5; [| discriminate]. destruct (valid_feature _) as [feat|] eqn:E6; [| discriminate].
  cbv zeta. match goal with |- (if ?b then _ else _) = _ -> _ => destruct b eqn:E7; [| discriminate] end. intros Q. injection Q as <-.
  repeat match goal with H : (_ && _)%bool = true |- _ => apply andb_true_iff in H; destruct H end.
  repeat match goal with H : forallb _ _ = true |- _ => rewrite forallb_forall in H end. rename H into L. 
  split; cbn [input_window fcst_window seasonality state_size epoch_num epoch_size min_training_step_num min_training_step_length soft_max_training_step_num validation_step_num min_warming_up_step_num fcst_step_num quantile training_quantile quantile_weight batch_size learning_rate model_type decoder_nn_structure loss_function validation_metric max_step_delta].
  - assert (P : forall v, In v [a_input_window a; a_fcst_window a; a_validation_step_num a; a_min_training_step_num a; if a_min_training_step_length a <=? 0 then Z.max 1 (a_seasonality a - 1) else a_min_training_step_length a; a_seasonality a; a_state_size a; a_epoch_num a; a_epoch_size a; a_soft_max_training_step_num a; a_min_warming_up_step_num a; a_fcst_step_num a] -> 1 <= v) by (intros v I; apply Z.leb_le; auto).
    repeat split; apply P; cbn; tauto.
  - destruct (default _ (a_quantile a)) as [|q l]; [discriminate |]. exists q, l. split; [reflexivity | apply Qeq_bool_iff; assumption].
  - intros q [I|I]; apply in01_ok; auto.
  - split; [apply Nat.eqb_eq; assumption | intros w I; apply above0_ok; auto].
  - destruct (union_sound _ _ _ E3) as [Z3 V3]. destruct (union_sound _ _ _ E4) as [Z4 V4]. intros d [->| ->]; (split; [assumption |]); intros k v I.
    + destruct (V3 k v I) as [T P]. destruct v; [| discriminate]. split; [reflexivity | apply Z.ltb_lt; exact P].
    + destruct (V4 k v I) as [T P]. destruct v; [discriminate |]. split; [reflexivity | apply above0_ok; exact P].
  - apply negb_false_iff, member_in in E1. destruct E1 as [E1|[E1|[]]]; [left | right]; rewrite <- E1; [split; reflexivity | reflexivity].
  - match goal with H : member (lower _) _ = true |- _ => apply member_in in H; destruct H as [H|[H|[]]] end; auto.
  - intros m I. apply member_in. auto.
  - reflexivity.
Qed.
(** a copy is equal, and so is what is read from the text form *)
Theorem C220_copy a p : make a = Some p -> copy p = Some p.
Proof. apply make_again. Qed.
Theorem C220_text a p : make a = Some p -> from_string (to_string p) = Some p.
Proof.
  intros H. unfold from_string, to_string. cbn [batch_size learning_rate with_keys]. rewrite !int_keys_show.
  apply make_again in H. etransitivity; [| exact H]. destruct p. reflexivity.
Qed.
(** the defaults are accepted, with a season of seven *)
Definition plain : args :=
  {| a_freq := 86400000000000; a_model_type := "rnn"; a_uplifting_ratio := 3 # 1; a_nn_structure := None; a_decoder_nn_structure := None; a_cell_name := "LSTM"; a_state_size := 50;
     a_h_size := None; a_batch_size := None; a_learning_rate := None; a_loss_function := "Pinball"; a_optimizer := OptNone; a_quantile := None; a_training_quantile := None;
     a_quantile_weight := None; a_validation_metric := None; a_init_seasonality := None; a_init_smoothing_params := None; a_gmfeature := FeatName "last_date";
     a_input_window := 35; a_fcst_window := 31; a_seasonality := 7; a_epoch_num := 8; a_epoch_size := 3000; a_min_training_step_num := 4; a_min_training_step_length := -1;
     a_soft_max_training_step_num := 10; a_validation_step_num := 3; a_min_warming_up_step_num := 2; a_fcst_step_num := 1; a_jit := false; a_gmname := None |}.
Example C220_case : exists p, make plain = Some p /\ loss_function p = "pinball"%string /\ min_training_step_length p = 6 /\ max_step_delta p = 5 /\ gmfeature p = Some ["last_date"%string] /\
  map fst (batch_size (to_string p)) = ["0"; "3"; "4"; "5"; "6"; "7"]%string.
Proof. eexists. split; [vm_compute; reflexivity |]. repeat split. Qed.
(** what is accepted although the messages exclude it or training fails with it: an epoch below 0, training quantiles of another
    number, smoothing parameters above 1, a lifting ratio of 0, a season longer than the window; a learning rate of 1 is refused *)
Definition with_args (lr : option union) (tq ism : option (list Q)) (ratio : Q) (season : Z) : args :=
  {| a_freq := 86400000000000; a_model_type := "rnn"; a_uplifting_ratio := ratio; a_nn_structure := None; a_decoder_nn_structure := None; a_cell_name := "LSTM"; a_state_size := 50;
     a_h_size := None; a_batch_size := None; a_learning_rate := lr; a_loss_function := "Pinball"; a_optimizer := OptNone; a_quantile := None; a_training_quantile := tq;
     a_quantile_weight := None; a_validation_metric := None; a_init_seasonality := None; a_init_smoothing_params := ism; a_gmfeature := FeatNone;
     a_input_window := 35; a_fcst_window := 31; a_seasonality := season; a_epoch_num := 8; a_epoch_size := 3000; a_min_training_step_num := 4; a_min_training_step_length := -1;
     a_soft_max_training_step_num := 10; a_validation_step_num := 3; a_min_warming_up_step_num := 2; a_fcst_step_num := 1; a_jit := false; a_gmname := None |}.
Theorem C220_checks_refuted :
  (exists p, make (with_args (Some (Schedule [(0, PFloat (1 # 10)); (-1, PFloat (1 # 20))])) None None 3 7) = Some p /\ In (-1, PFloat (1 # 20)) (learning_rate p)) /\
  (exists p, make (with_args None (Some [1 # 2]) None 3 7) = Some p /\ length (training_quantile p) <> length (quantile p)) /\
  (exists p v, make (with_args None None (Some [2; 1]%Q) 3 7) = Some p /\ In v (init_smoothing_params p) /\ (1 < v)%Q) /\
  (exists p, make (with_args None None None 0 7) = Some p /\ (uplifting_ratio p <= 0)%Q) /\
  (exists p, make (with_args None None None 3 36) = Some p /\ input_window p < seasonality p) /\
  make (with_args (Some (One (PInt 1))) None None 3 7) = None.
Proof.
  split; [eexists; split; [vm_compute; reflexivity | vm_compute; auto] |]. split; [eexists; split; [vm_compute; reflexivity | vm_compute; lia] |].
  split; [eexists; exists 2%Q; split; [vm_compute; reflexivity |]; split; [left; reflexivity | reflexivity] |]. split; [eexists; split; [vm_compute; reflexivity | vm_compute; discriminate] |].
  split; [eexists; split; [vm_compute; reflexivity | vm_compute; reflexivity] | vm_compute; reflexivity].
Qed.

(** C221: in every epoch the value of the last key of the schedule up to it is used *)
Lemma lookup_in k d v : lookup k d = Some v -> In (k, v) d.
Proof. induction d as [|[k' v'] d IH]; cbn [lookup]; [discriminate |]. destruct (k =? k') eqn:E; [apply Z.eqb_eq in E; subst; intros Q; injection Q as <-; left; reflexivity | intros H; right; auto]. Qed.
Lemma lookup_none k d : lookup k d = None -> forall v, ~ In (k, v) d.
Proof. induction d as [|[k' v'] d IH]; cbn [lookup]; intros H v []; destruct (k =? k') eqn:E; try discriminate; [injection H0 as -> ->; rewrite Z.eqb_refl in E; discriminate | eapply IH; eauto]. Qed.
Lemma epochs_ok d n : forall e cur, (e <> 0%nat -> scheduled d (Z.of_nat e - 1) cur) -> (e = 0%nat -> lookup 0 d = Some cur) ->
  length (epochs d cur e n) = n /\ forall i dflt, (i < n)%nat -> scheduled d (Z.of_nat (e + i)) (nth i (epochs d cur e n) dflt).
Proof.
  induction n as [|n IH]; intros e cur H H0; [split; [reflexivity | intros; lia] |]. cbn [epochs length].
  assert (SC : scheduled d (Z.of_nat e) (default cur (lookup (Z.of_nat e) d))).
  { destruct (lookup (Z.of_nat e) d) as [v|] eqn:E; cbn [default].
    - exists (Z.of_nat e). split; [lia |]. split; [apply lookup_in; exact E | lia].
    - destruct e as [|e]; [change (Z.of_nat 0) with 0 in E; rewrite H0 in E by reflexivity; discriminate |]. destruct (H ltac:(discriminate)) as [k [K1 [K2 K3]]]. exists k. split; [lia |]. split; [exact K2 |].
      intros k' v' I L. destruct (Z.eq_dec k' (Z.of_nat (S e))) as [->|N]; [exfalso; eapply lookup_none; eauto | apply (K3 k' v' I); lia]. }
  destruct (IH (S e) (default cur (lookup (Z.of_nat e) d))) as [L I]; [intros _; replace (Z.of_nat (S e) - 1) with (Z.of_nat e) by lia; exact SC | discriminate |].
  split; [rewrite L; reflexivity |]. intros [|i] dflt Hi; cbn [nth].
  - rewrite Nat.add_0_r. exact SC.
  - replace (e + S i)%nat with (S e + i)%nat by lia. apply I. lia.
Qed.
Theorem C221_schedule a p n : make a = Some p ->
  forall d, d = batch_size p \/ d = learning_rate p -> exists l, training_values d n = Some l /\ length l = n /\
    forall e dflt, (e < n)%nat -> scheduled d (Z.of_nat e) (nth e l dflt).
Proof.
  intros H d D. destruct (schedules p (C220_sound a p H) d D) as [[v0 Z0] _]. unfold training_values. destruct (lookup 0 d) as [v|] eqn:E; [| exfalso; eapply lookup_none; eauto].
  exists (epochs d v 0 n). split; [reflexivity |]. apply (epochs_ok d n 0 v ltac:(congruence) ltac:(intros _; exact E)).
Qed.
(** the schedule determines the value *)
Theorem C221_unique d e v v' : NoDup (map fst d) -> scheduled d e v -> scheduled d e v' -> v = v'.
Proof.
  intros N [k [K1 [K2 K3]]] [k' [L1 [L2 L3]]]. assert (k = k') by (pose proof (K3 _ _ L2 ltac:(lia)); pose proof (L3 _ _ K2 ltac:(lia)); lia). subst k'. clear - N K2 L2.
  induction d as [|[a b] d IH]; [destruct K2 |]. cbn in N. inversion N as [|? ? N1 N2]. subst. destruct K2 as [K2|K2], L2 as [L2|L2]; [congruence | | | auto].
  - injection K2 as -> ->. exfalso. apply N1. apply in_map_iff. exists (k, v'). auto.
  - injection L2 as -> ->. exfalso. apply N1. apply in_map_iff. exists (k, v). auto.
Qed.
Example C221_case : training_values [(0, PInt 2); (3, PInt 5); (-1, PInt 9)] 5 = Some [PInt 2; PInt 2; PInt 2; PInt 5; PInt 5].
Proof. reflexivity. Qed.

Print Assumptions C220_sound.
Print Assumptions C220_copy.
Print Assumptions C220_text.
Print Assumptions C220_checks_refuted.
Print Assumptions C221_schedule.
Print Assumptions C221_unique.
