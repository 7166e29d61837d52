(** C316: the networks of the global model are given what they are built for — specification, proofs and theorems. *)
From Coq Require Import String.
From Coq Require Import List Bool Arith Reals Lra Lia.
From Verif Require Import GmPassModel GmS2sModel GmFeatureModel GmFeatureProps GmShapeModel GmBatchProps.
From Verif Require GmBatchModel TsfModel.
From Coq Require QArith.
Import ListNotations.
Open Scope nat_scope.

(** a batch of series whose time arrays have [total] columns; each series has a row with as many values as a TsFeatures() object
    reports *)
Definition arrays (tsf : list (list nat)) (times : list (list stamp)) (total : nat) : Prop :=
  (forall ts, In ts times -> length ts = total) /\ length tsf = length times
  /\ exists names, TsfModel.report [([], [])] 0 = Some names /\ forall row, In row tsf -> length row = length names.
(** two networks do the same with inputs of n numbers, as far as the first m outputs go *)
Definition alike {S} (n m : nat) (f g : S -> list R -> S * list R) : Prop :=
  forall s v, length v = n -> fst (f s v) = fst (g s v) /\ firstn m (snd (f s v)) = firstn m (snd (g s v)).
(** the features computed anew at each step *)
Definition calendar (f : feature) : bool := match f with FTsfeatures | FTs2vec => false | _ => true end.

Lemma zip_length {A B C} (f : A -> B -> C) a b : length a = length b -> length (GmLossModel.zip_with f a b) = length a.
Proof. revert b. induction a as [|x a IH]; intros [|y b] H; cbn in *; try lia. rewrite IH; lia. Qed.
Lemma cat2_width (a b : list (list nat)) n m : length a = length b -> (forall r, In r a -> length r = n) -> (forall r, In r b -> length r = m) ->
  length (cat2 a b) = length a /\ forall r, In r (cat2 a b) -> length r = n + m.
Proof.
  intros L A B. split; [apply zip_length; exact L|]. unfold cat2. revert b L B A. induction a as [|x a IH]; intros [|y b] L B A r H; cbn in *; try lia; try contradiction.
  destruct H as [<-|H]; [rewrite app_length, (A x), (B y) by auto; reflexivity|]. apply (IH b); auto.
Qed.
Lemma columns_width {A} (rows : list (list A)) a b total : (forall r, In r rows -> length r = total) -> a <= b <= total ->
  length (columns rows a b) = length rows /\ forall r, In r (columns rows a b) -> length r = b - a.
Proof.
  intros L B. unfold columns. rewrite map_length. split; [reflexivity|]. intros r H. apply in_map_iff in H. destruct H as (q & <- & H).
  rewrite firstn_length, skipn_length, (L q H). lia.
Qed.
Lemma once_calendar f : negb (once f) = calendar f. Proof. destruct f; reflexivity. Qed.
Lemma size_split fs w : feature_size fs w = feature_size (filter (fun f => negb (calendar f)) fs) w + feature_size (filter calendar fs) w.
Proof. unfold feature_size. induction fs as [|f fs IH]; [reflexivity|]. cbn [map fold_right filter]. rewrite IH. destruct (calendar f); cbn [negb map fold_right]; lia. Qed.
Lemma default_names : exists names, TsfModel.report [([], [])] 0 = Some names /\ length names = 40.
Proof. eexists. split; vm_compute; reflexivity. Qed.
Lemma base_none tsf fs : base_features tsf fs = Some None -> filter (fun f => negb (calendar f)) fs = [].
Proof. induction fs as [|f fs IH]; [reflexivity|]. destruct f; cbn; try exact IH; try discriminate. destruct (base_features tsf fs) as [[b|]|]; discriminate. Qed.
Lemma base_width tsf fs m w : (forall row, In row tsf -> length row = 40) -> base_features tsf fs = Some (Some m) ->
  length m = length tsf /\ forall r, In r m -> length r = feature_size (filter (fun f => negb (calendar f)) fs) w.
Proof.
  intros W. revert m. induction fs as [|f fs IH]; intros m; [discriminate|]. destruct f; cbn [base_features filter calendar negb]; try apply IH; try discriminate.
  destruct (base_features tsf fs) as [[b|]|] eqn:E; intros H; [| |discriminate].
  - destruct (IH b eq_refl) as [A B]. injection H as <-. unfold feature_size. cbn [map fold_right feature_size1].
    destruct (cat2_width tsf b 40 _ (eq_sym A) W B) as [C D]. split; [exact C|exact D].
  - injection H as <-. rewrite (base_none _ _ E). cbn. split; [reflexivity|]. exact W.
Qed.

(** C316.  The features of a window lying inside of the arrays have one row for each series, and as many columns as
    get_feature_size says for the length of the window. *)
Theorem C316_features : forall gmf tsf times d a b total rows, arrays tsf times total -> a <= b <= total ->
  fed_features gmf tsf times d a b = Some rows ->
  length rows = length times /\ forall r, In r rows -> length r = features_of gmf (b - a).
Proof.
  intros gmf tsf times d a b total rows (TL & BL & names & N & W) B H.
  assert (W40 : forall row, In row tsf -> length row = 40).
  { destruct default_names as (n' & N' & L). intros row I. rewrite (W row I). congruence. }
  destruct gmf as [fs|]; cbn [fed_features features_of] in *.
  2:{ injection H as <-. rewrite map_length. split; [reflexivity|]. intros r I. apply in_map_iff in I. destruct I as (q & <- & _). reflexivity. }
  unfold get_features in H. destruct (columns_width times a b total TL B) as [CL CW].
  rewrite size_split.
  assert (EF : filter (fun f => negb (once f)) fs = filter calendar fs) by (apply filter_ext; apply once_calendar).
  destruct (base_features tsf fs) as [[m|]|] eqn:EB; [| |discriminate];
    destruct (on_the_fly (columns times a b) d fs) as [[f|]|] eqn:EF'; try discriminate; injection H as <-;
    destruct (C212_width _ _ _ _ _ CW EF') as [FL FW]; rewrite EF in FW.
  - destruct (base_width tsf fs m (b - a) W40 EB) as [ML MW].
    destruct (cat2_width m f _ _ ltac:(lia) MW FW) as [X Y]. split; [lia|exact Y].
  - rewrite (base_none _ _ EB). cbn. split; [lia|exact FW].
Qed.
(** They cannot be computed if and only if ts2vec is among them, none of them is a calendar feature, or one of the latter fails *)
Lemma fly_none times d fs : (exists r, on_the_fly times d fs = Some r) -> (on_the_fly times d fs = Some None <-> forall f, In f fs -> calendar f = false).
Proof.
  induction fs as [|f fs IH]; cbn [on_the_fly]; intros [r H]; [split; [intros _ f []|reflexivity]|].
  assert (C : on_the_fly1 times d f = Some None <-> calendar f = false).
  { unfold on_the_fly1. destruct f; cbn; split; intros X; try reflexivity; try discriminate; exfalso;
      match type of X with option_map _ ?o = _ => destruct o; discriminate | _ => idtac end. }
  destruct (on_the_fly1 times d f) as [[a|]|] eqn:E1; [| |discriminate].
  - assert (calendar f = true) by (destruct (calendar f) eqn:K; [reflexivity|]; destruct C as [_ C]; discriminate (C eq_refl)).
    split; intros X; [destruct (on_the_fly times d fs) as [[x|]|]; discriminate|]. rewrite (X f (or_introl eq_refl)) in *. discriminate.
  - destruct C as [C _]. specialize (C eq_refl). rewrite IH by (exists r; exact H). split; intros X.
    + intros g [<-|G]; auto.
    + intros g G. apply X. right. exact G.
Qed.
Lemma base_raises tsf fs : base_features tsf fs = None <-> In FTs2vec fs.
Proof.
  induction fs as [|f fs IH]; [split; [discriminate|intros []]|]. cbn [In].
  destruct f; cbn [base_features]; try (rewrite IH; split; [auto|intros [X|X]; [discriminate|exact X]]).
  - destruct (base_features tsf fs) as [[b|]|].
    + split; [discriminate|]. intros [X|X]; [discriminate|]. apply IH in X. discriminate.
    + split; [discriminate|]. intros [X|X]; [discriminate|]. apply IH in X. discriminate.
    + split; [|reflexivity]. intros _. right. apply IH. reflexivity.
  - split; auto.
Qed.
Theorem C316_raises : forall fs tsf times d a b, fed_features (Some fs) tsf times d a b = None <->
  In FTs2vec fs \/ (forall f, In f fs -> calendar f = false) \/ on_the_fly (columns times a b) d fs = None.
Proof.
  intros fs tsf times d a b. cbn [fed_features]. unfold get_features.
  pose proof (base_raises tsf fs) as BR. pose proof (fly_none (columns times a b) d fs) as FN.
  destruct (base_features tsf fs) as [[m|]|]; destruct (on_the_fly (columns times a b) d fs) as [[f|]|];
    try (specialize (FN (ex_intro _ _ eq_refl))).
  1,4: split; [discriminate|]; intros [X|[X|X]]; [apply BR in X; discriminate|apply FN in X; discriminate|discriminate].
  1,3: split; [|reflexivity]; intros _; right; left; apply FN; reflexivity.
  1,2: split; [|reflexivity]; auto.
  all: split; [|reflexivity]; intros _; left; apply BR; reflexivity.
Qed.
(** A model with the features of the whole series only, which are among the documented ones, or with none, is built but can
    neither be trained nor used: at the first step an exception is raised. *)
Theorem C316_once_refuted : forall tsf times d a b, fed_features (Some [FTsfeatures]) tsf times d a b = None
  /\ fed_features (Some [FTs2vec; FLastHour]) tsf times d a b = None /\ fed_features (Some []) tsf times d a b = None.
Proof. intros. split; [|split]; reflexivity. Qed.

Lemma row_width gmf tsf times d i a b total : arrays tsf times total -> i < length times -> a <= b <= total ->
  fed_features gmf tsf times d a b <> None -> length (feature_row gmf tsf times d i a b) = features_of gmf (b - a).
Proof.
  intros A I B F. unfold feature_row. destruct (fed_features gmf tsf times d a b) as [rows|] eqn:E; [|congruence].
  destruct (C316_features _ _ _ _ _ _ _ _ A B E) as [L W]. rewrite map_length. apply W. apply nth_In. lia.
Qed.
Lemma at_firstn l l' m k : firstn m l = firstn m l' -> k < m -> at_ l k = at_ l' k.
Proof.
  intros E K. unfold at_. assert (G : forall q : list R, nth k (firstn m q) 0%R = nth k q 0%R).
  { intros q. clear E. revert m K. revert q. induction k as [|k IH]; intros [|x q] [|m] K; try lia; try reflexivity. cbn. apply (IH q m). lia. }
  rewrite <- (G l), <- (G l'), E. reflexivity.
Qed.

(** The seasonal network is given inputs of the size it is built for, at every step of a pass over any row of the batch, and of
    its outputs no more than it is built for are used: a network that does the same with inputs of that size, and has the same
    outputs as far as that, is not told apart. *)
Theorem C316_rnn : forall S (net net' : S -> list R -> S * list R) gmf tsf times d i total period iw fw nq season x offset l a b s,
  arrays tsf times total -> i < length times ->
  (forall step cur, In (step, cur) l -> iw <= cur <= total /\ fed_features gmf tsf times d (cur - iw) cur <> None) ->
  alike (rnn_input_size gmf iw period) (rnn_output_size fw nq period) net net' ->
  let feat cur := feature_row gmf tsf times d i (cur - iw) cur in
  pass S net feat period iw fw nq season x offset l a b s = pass S net' feat period iw fw nq season x offset l a b s.
Proof.
  intros S net net' gmf tsf times d i total period iw fw nq season x offset l a b s A I V K feat. unfold pass.
  generalize (if period <=? 1 then [1%R] else season ++ [at_ season 0]). intros init. generalize {| xs := []; lv := []; se := [] |}. generalize 0.
  revert a b s. induction l as [|[step cur] l IH]; intros a b s prev st; [reflexivity|]. cbn [run].
  set (st' := process period a b init x prev cur st). destruct (look period iw cur st') as [w|] eqn:Lk; [|reflexivity].
  assert (WD : length (window w) = iw /\ pos w = cur /\ (1 < period -> length (next w) = period /\ length (diff w) = period)).
  { unfold look in Lk. destruct (period <=? 1) eqn:P.
    - injection Lk as <-. cbn [window pos]. rewrite !map_length, seq_length. apply Nat.leb_le in P. repeat split; lia.
    - destruct (cur <? period); [discriminate|]. injection Lk as <-. cbn [window pos next diff]. rewrite !map_length, !seq_length. repeat split; reflexivity. }
  destruct WD as (W1 & W2 & W3). destruct (V step cur (or_introl eq_refl)) as [B F].
  assert (IL : length (input feat period step prev w) = rnn_input_size gmf iw period).
  { unfold input, rnn_input_size. rewrite !app_length, map_length, W1, W2. unfold feat. rewrite (row_width _ _ _ _ _ _ _ total A I) by (lia || exact F).
    replace (cur - (cur - iw)) with iw by lia. cbn [length]. destruct (period <=? 1) eqn:P.
    - apply Nat.leb_le in P. rewrite (proj2 (Nat.ltb_ge 1 period) P). cbn [length]. lia.
    - apply Nat.leb_gt in P. rewrite (proj2 (Nat.ltb_lt 1 period) P). destruct (W3 P) as [N1 N2]. rewrite app_length, map_length, N1, N2. lia. }
  destruct (K s _ IL) as [K1 K2]. destruct (net s (input feat period step prev w)) as [s1 o1]. destruct (net' s (input feat period step prev w)) as [s2 o2].
  cbn [fst snd] in K1, K2. subst s2.
  assert (FE : forecast period fw nq offset w o1 = forecast period fw nq offset w o2).
  { unfold forecast. apply map_ext_in. intros c C. apply in_seq in C. rewrite (at_firstn o1 o2 _ _ K2); [reflexivity|].
    unfold rnn_output_size. destruct (1 <? period); lia. }
  rewrite FE, (at_firstn o1 o2 _ 0 K2) by (unfold rnn_output_size; lia).
  assert (SE : (if 1 <? period then sigmoid (at_ o1 1) else b) = (if 1 <? period then sigmoid (at_ o2 1) else b)).
  { destruct (1 <? period) eqn:P; [|reflexivity]. rewrite (at_firstn o1 o2 _ 1 K2); [reflexivity|]. unfold rnn_output_size. rewrite P. lia. }
  rewrite SE. rewrite IH; [reflexivity|]. intros q c Q. apply (V q c). right. exact Q.
Qed.
(** None of the outputs the network is built for goes unused: the first are the smoothing parameters, and with other values
    behind them the forecast is another one. *)
Theorem C316_outputs : forall period fw nq offset w out out',
  length out = rnn_output_size fw nq period -> length out' = rnn_output_size fw nq period ->
  forecast period fw nq offset w out = forecast period fw nq offset w out' ->
  let first := if 1 <? period then 2 else 1 in skipn first out = skipn first out'.
Proof.
  intros period fw nq offset w out out' L L' H first. apply (nth_ext _ _ 0%R 0%R).
  { rewrite !skipn_length. lia. }
  intros c C. rewrite skipn_length, L in C. unfold rnn_output_size in C.
  assert (C' : c < fw * nq) by (unfold first in C; destruct (1 <? period); lia).
  assert (NS : forall q : list R, nth c (skipn first q) 0%R = at_ q (first + c)).
  { unfold at_. generalize first. clear. intros f. induction f as [|f IH]; intros q; [reflexivity|]. destruct q; [destruct c; reflexivity|]. cbn. apply IH. }
  rewrite !NS. unfold forecast in H.
  apply (f_equal (fun q => nth c q (exp (at_ out ((if 1 <? period then 1 else 0) + 1 + 0)))) ) in H.
  match type of H with nth _ (map ?f _) _ = nth _ (map ?g _) _ =>
    rewrite (nth_indep _ _ (f 0)), (nth_indep (map g _) _ (g 0)) in H by (rewrite map_length, seq_length; exact C');
    rewrite (map_nth f), (map_nth g), seq_nth in H by exact C' end.
  cbv beta in H. replace (first + c) with ((if 1 <? period then 1 else 0) + 1 + (0 + c)) by (unfold first; destruct (1 <? period); lia).
  match type of H with (?p - offset = ?q - offset)%R => assert (X : p = q) by lra end.
  apply exp_inv in X. lra.
Qed.

Lemma fill_length period x prev cur l r : fill period x prev cur l = Some r -> length r = length l + (cur - prev).
Proof.
  unfold fill. rewrite <- (seq_length (cur - prev) prev) at 2. generalize (seq prev (cur - prev)). intros q. revert l. induction q as [|i q IH]; intros l H; cbn [fold_left length] in *.
  - injection H as <-. lia.
  - assert (Z : forall q, fold_left (fill1 period x) q None = None) by (clear; induction q; auto).
    cbn [fill1] in H. destruct (nth i x None) as [v|].
    + rewrite (IH _ H), app_length. cbn. lia.
    + destruct (nth_error l (i - period)) as [v|]; cbn [option_map] in H; [|rewrite Z in H; discriminate]. rewrite (IH _ H), app_length. cbn. lia.
Qed.
Lemma glance_width period iw cur l : iw <= cur <= length l -> length (snd (glance period iw cur l)) = iw.
Proof. intros B. unfold glance. cbn [snd]. rewrite map_length, firstn_length, skipn_length. lia. Qed.

(** Encoder and decoder are given inputs of the sizes they are built for, at every step and for every window to be forecast, if
    the encoder has as many outputs as the decoder was built for; of the outputs of the decoder all that it is built for are
    used, and no more. *)
Theorem C316_s2s : forall E D (enc enc' : E -> list R -> E * list R) (dec dec' : D -> list R -> D * list R) prepare
    gmf tsf times d i total out period iw fw nq x offset l e0 d0,
  arrays tsf times total -> i < length times ->
  (forall step cur n, In (step, cur, n) l -> iw <= cur /\ cur + n * fw <= total /\ fed_features gmf tsf times d (cur - iw) cur <> None
     /\ forall k, k < n -> fed_features gmf tsf times d (cur + k * fw) (cur + k * fw + fw) <> None) ->
  (forall e v, length v = encoder_input_size gmf iw -> enc e v = enc' e v /\ length (snd (enc e v)) = out) ->
  alike (decoder_input_size gmf fw out) (decoder_output_size fw nq) dec dec' ->
  let feat := feature_row gmf tsf times d i in
  s2s_pass E D enc dec prepare feat period iw fw nq x offset l e0 d0 = s2s_pass E D enc' dec' prepare feat period iw fw nq x offset l e0 d0.
Proof.
  intros E D enc enc' dec dec' prepare gmf tsf times d i total out period iw fw nq x offset l e0 d0 A I V KE KD feat. unfold s2s_pass.
  assert (DC : forall n k cur an code dd, cur + (k + n) * fw <= total -> length code = out ->
    (forall j, j < k + n -> fed_features gmf tsf times d (cur + j * fw) (cur + j * fw + fw) <> None) ->
    decode D dec feat fw nq offset an code cur k n dd = decode D dec' feat fw nq offset an code cur k n dd).
  { induction n as [|n IH]; intros k cur an code dd B LC F; [reflexivity|]. cbn [decode].
    set (v := code ++ feat (cur + k * fw) (cur + k * fw + fw) ++ [ln (INR (k + 1))]).
    assert (LV : length v = decoder_input_size gmf fw out).
    { unfold v, feat, decoder_input_size. rewrite !app_length, (row_width _ _ _ _ _ _ _ total A I), LC by (try (apply F; lia); nia).
      replace (cur + k * fw + fw - (cur + k * fw)) with fw by lia. cbn [length]. lia. }
    destruct (KD dd v LV) as [K1 K2]. destruct (dec dd v) as [d1 o1]. destruct (dec' dd v) as [d2 o2]. cbn [fst snd] in K1, K2. subst d2.
    rewrite (IH (S k)) by (try exact LC; try (intros j J; apply F; lia); nia).
    destruct (decode D dec' feat fw nq offset an code cur (S k) n d1) as [d' r]. f_equal. f_equal. apply map_ext_in. intros c C. apply in_seq in C.
    rewrite (at_firstn o1 o2 _ c K2); [reflexivity|]. unfold decoder_output_size. lia. }
  assert (G : forall l prev xl e dd, prev <= length xl ->
    (forall step cur n, In (step, cur, n) l -> iw <= cur /\ cur + n * fw <= total /\ fed_features gmf tsf times d (cur - iw) cur <> None
     /\ forall k, k < n -> fed_features gmf tsf times d (cur + k * fw) (cur + k * fw + fw) <> None) ->
    s2s_run E D enc dec prepare feat period iw fw nq x offset l prev xl e dd = s2s_run E D enc' dec' prepare feat period iw fw nq x offset l prev xl e dd).
  2:{ apply G; [cbn; lia|exact V]. }
  clear l V e0 d0. induction l as [|[[step cur] n] l IH]; intros prev xl e dd LP V; [reflexivity|]. cbn [s2s_run].
  destruct (fill period x prev cur xl) as [xl'|] eqn:FX; [|reflexivity]. apply fill_length in FX.
  destruct (V step cur n (or_introl eq_refl)) as (B1 & B2 & F1 & F2).
  pose proof (glance_width period iw cur xl' ltac:(lia)) as GW. destruct (glance period iw cur xl') as [an w]. cbn [snd] in GW.
  set (v := map ln w ++ feat (cur - iw) cur ++ [(ln (INR (cur - prev)) / 2)%R; ln (INR (step + 1))]).
  assert (LV : length v = encoder_input_size gmf iw).
  { unfold v, feat, encoder_input_size. rewrite !app_length, map_length, GW, (row_width _ _ _ _ _ _ _ total A I) by (try exact F1; nia).
    replace (cur - (cur - iw)) with iw by lia. cbn [length]. lia. }
  destruct (KE e v LV) as [K1 K2]. rewrite <- K1. destruct (enc e v) as [e1 code]. cbn [snd] in K2.
  rewrite (DC n 0) by (try exact K2; try (intros j J; apply F2; lia); lia).
  destruct (decode D dec' feat fw nq offset an code cur 0 n (if n =? 0 then dd else prepare e1 dd)) as [d2 f]. f_equal.
  apply IH; [lia|]. intros s c m M. apply V with (step := s). right. exact M.
Qed.

(** The same for the decoder: none of the outputs it is built for goes unused. *)
Theorem C316_decoder_outputs : forall D feat fw nq offset an code cur k (d : D) out out',
  length out = decoder_output_size fw nq -> length out' = decoder_output_size fw nq ->
  snd (decode D (fun d _ => (d, out)) feat fw nq offset an code cur k 1 d) = snd (decode D (fun d _ => (d, out')) feat fw nq offset an code cur k 1 d) ->
  out = out'.
Proof.
  intros D feat fw nq offset an code cur k d out out' L L' H. cbn [decode snd] in H. injection H as H. apply (nth_ext _ _ 0%R 0%R); [congruence|].
  intros c C. assert (C' : c < fw * nq) by (rewrite L in C; unfold decoder_output_size in C; lia).
  apply (f_equal (fun q => nth c q 0%R)) in H.
  match type of H with nth _ (map ?f _) _ = nth _ (map ?g _) _ =>
    rewrite (nth_indep _ _ (f 0)), (nth_indep (map g _) _ (g 0)) in H by (rewrite map_length, seq_length; exact C');
    rewrite (map_nth f), (map_nth g), seq_nth in H by exact C' end.
  cbv beta in H. cbn [plus] in H. match type of H with (?p - offset = ?q - offset)%R => assert (X : p = q) by lra end.
  apply exp_inv in X. unfold at_ in X. lra.
Qed.
(** The windows lie inside of the arrays of the batch: for the seasonal network before every index, ... *)
Theorem C316_rnn_inside : forall p lengths lay cur, valid_params p ->
  (exists valid e r, 1 <= e /\ r <= GmBatchModel.step_bound p (GmBatchModel.list_max lengths) e /\ GmBatchModel.train_layout p lengths valid e r = Some lay)
  \/ GmBatchModel.test_layout p lengths = Some lay ->
  In cur (GmBatchModel.train_indices lay ++ GmBatchModel.valid_indices lay) ->
  GmBatchModel.input_window p <= cur <= GmBatchModel.reduced_length lay + GmBatchModel.reduced_valid_length lay.
Proof.
  intros p lengths lay cur VP [(valid & e & r & E1 & R & T)|T] H; apply in_app_or in H.
  - destruct (C197_training _ _ _ _ _ _ VP E1 R T) as (_ & _ & (n & N & SP) & TI & _).
    destruct H as [H|H]; [destruct (TI cur H); lia|]. destruct valid as [vl|].
    + destruct (C197_validation _ _ _ _ _ _ VP T) as (m & S2 & RV & _). apply (spaced_in _ _ _ _ _ S2) in H. destruct H as (k & K & ->).
      assert (I0 : exists i, In i (GmBatchModel.train_indices lay)).
      { exists (GmBatchModel.input_window p + 0 * GmBatchModel.step_length p). apply (spaced_in _ _ _ _ _ SP). exists 0. lia. }
      destruct I0 as [i I0]. destruct (TI i I0). rewrite RV. nia.
    + unfold GmBatchModel.train_layout in T. destruct (_ <? _); [discriminate|]. injection T as <-. destruct H.
  - destruct (C197_testing _ _ _ VP T) as ((n & N & SP & RL) & S2 & RV & _). destruct H as [H|H].
    + apply (spaced_in _ _ _ _ _ SP) in H. destruct H as (k & K & ->). nia.
    + apply (spaced_in _ _ _ _ _ S2) in H. destruct H as (k & K & ->). rewrite RV. nia.
Qed.
(** ... for the other one also the windows to be forecast: in training those of the encoder steps after every training index, in
    validation those after the end of the training part, in testing the fcst_step_num windows after it. *)
Theorem C316_s2s_inside : forall p lengths lay, valid_params p -> GmBatchModel.s2s p = true ->
  let n := GmBatchModel.encoder_steps lay in let fw := GmBatchModel.fcst_window p in
  let total := GmBatchModel.reduced_length lay + GmBatchModel.reduced_valid_length lay in
  (forall valid e r, 1 <= e -> r <= GmBatchModel.step_bound p (GmBatchModel.list_max lengths) e -> GmBatchModel.train_layout p lengths valid e r = Some lay ->
     (forall cur, In cur (GmBatchModel.train_indices lay) -> cur + n * fw <= total)
     /\ (valid <> None -> GmBatchModel.reduced_length lay + n * fw <= total))
  /\ (GmBatchModel.test_layout p lengths = Some lay -> GmBatchModel.reduced_length lay + GmBatchModel.fcst_step_num p * fw <= total).
Proof.
  intros p lengths lay VP SS n fw total. split.
  - intros valid e r E1 R T. destruct (C197_training _ _ _ _ _ _ VP E1 R T) as (_ & _ & _ & TI & _). split.
    + intros cur H. destruct (TI cur H). unfold total, n, fw. lia.
    + intros NV. destruct valid as [vl|]; [|congruence]. destruct (C197_validation _ _ _ _ _ _ VP T) as (m & _ & RV & NE & _).
      unfold total, n, fw. rewrite RV, (NE SS). lia.
  - intros T. destruct (C197_testing _ _ _ VP T) as (_ & _ & RV & _). unfold total, fw. rewrite RV. lia.
Qed.

(** two series of three times each, with features of the whole series and of the calendar *)
Definition demo_times : list (list stamp) := [[monday; sunday; monday]; [sunday; monday; sunday]].
Definition demo_tsf : list (list nat) := [repeat 1 40; repeat 2 40].
Definition demo_features : option (list feature) := Some [FTsfeatures; FLastHour; FSimpleDate].
Definition plain (s : nat) (v : list R) : nat * list R := (S s, repeat 0%R 9).
Definition strict (s : nat) (v : list R) : nat * list R := if length v =? 76 then (S s, repeat 0%R 8 ++ [1%R]) else (0, []).
Example C316_case : arrays demo_tsf demo_times 3 /\ rnn_input_size demo_features 2 1 = 76
  /\ (exists rows, fed_features demo_features demo_tsf demo_times monday 1 3 = Some rows /\ map (@length nat) rows = [72; 72])
  /\ (forall step cur, In (step, cur) [(0, 2); (1, 3)] -> 2 <= cur <= 3 /\ fed_features demo_features demo_tsf demo_times monday (cur - 2) cur <> None)
  /\ alike (rnn_input_size demo_features 2 1) (rnn_output_size 2 3 1) plain strict.
Proof.
  split; [|split; [reflexivity|split; [|split]]].
  - split; [|split; [reflexivity|]].
    + intros ts [<-|[<-|[]]]; reflexivity.
    + eexists. split; [vm_compute; reflexivity|]. intros row [<-|[<-|[]]]; reflexivity.
  - eexists. split; vm_compute; reflexivity.
  - intros step cur [H|[H|[]]]; injection H as <- <-; (split; [lia|vm_compute; discriminate]).
  - intros s v L. unfold strict. rewrite L. split; reflexivity.
Qed.
Definition demo_params : GmBatchModel.params :=
  {| GmBatchModel.s2s := true; GmBatchModel.input_window := 2; GmBatchModel.fcst_window := 1; GmBatchModel.min_training_step_num := 1;
     GmBatchModel.step_length := 1; GmBatchModel.min_warming_up := 1; GmBatchModel.validation_step_num := 1;
     GmBatchModel.fcst_step_num := 2; GmBatchModel.seasonality := 1; GmBatchModel.ratio := QArith_base.inject_Z 3 |}.
Example C316_inside_case : valid_params demo_params /\ exists lay, GmBatchModel.train_layout demo_params [8; 6] (Some [2; 2]) 2 1 = Some lay
  /\ 1 <= GmBatchModel.step_bound demo_params 8 2 /\ GmBatchModel.train_indices lay = [2; 3; 4] /\ GmBatchModel.valid_indices lay = [6; 7]
  /\ GmBatchModel.reduced_length lay = 6 /\ GmBatchModel.reduced_valid_length lay = 2.
Proof. split; [repeat split; cbn; lia|]. eexists. split; [vm_compute; reflexivity|]. split; [vm_compute; lia|]. repeat split. Qed.
(** the sequence-to-sequence networks: an encoder with four outputs, two windows of one value after the index 1 *)
Example C316_s2s_case : encoder_input_size demo_features 1 = 71 /\ decoder_input_size demo_features 1 4 = 73
  /\ (forall step cur n, In (step, cur, n) [(0, 1, 2)] -> 1 <= cur /\ cur + n * 1 <= 3 /\ fed_features demo_features demo_tsf demo_times monday (cur - 1) cur <> None
       /\ forall k, k < n -> fed_features demo_features demo_tsf demo_times monday (cur + k * 1) (cur + k * 1 + 1) <> None).
Proof.
  split; [reflexivity|]. split; [reflexivity|]. intros step cur n [H|[]]. injection H as <- <- <-. split; [lia|]. split; [lia|]. split; [vm_compute; discriminate|].
  intros [|[|k]] K; [vm_compute; discriminate|vm_compute; discriminate|lia].
Qed.

Print Assumptions C316_features.
Print Assumptions C316_raises.
Print Assumptions C316_once_refuted.
Print Assumptions C316_rnn.
Print Assumptions C316_outputs.
Print Assumptions C316_s2s.
Print Assumptions C316_rnn_inside.
Print Assumptions C316_s2s_inside.

Print Assumptions C316_decoder_outputs.
