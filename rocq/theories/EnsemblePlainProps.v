(** C47, C49, C96: names, accepted parameters, and forecasts of a series without seasonality. *)
From Verif Require Import Common MedianSpec MedianProofs EnsembleModel EnsembleSpec EnsembleProofs EnsembleProps EnsembleKatsProps.
From Verif Require MetricsModel.
From Coq Require Import String Ascii Permutation Sorted.
Open Scope nat_scope.

(** ** names *)
Lemma get_some_lt i s (c : ascii) : String.get i s = Some c -> i < String.length s.
Proof. revert i. induction s as [|a s IH]; intros i H; [destruct i; discriminate|]. destruct i; cbn in *; [lia|]. apply IH in H. lia. Qed.
Lemma letter_pair i a b : String.get i capitals = Some a -> String.get i smalls = Some b -> lower1 a = b /\ lower1 b = b /\ Ascii.eqb a "_" = false /\ Ascii.eqb b "_" = false.
Proof.
  intros Ha Hb. pose proof (get_some_lt _ _ _ Ha) as Hi. cbn in Hi.
  do 26 (destruct i as [|i]; [cbn in Ha, Hb; injection Ha as <-; injection Hb as <-; repeat split; reflexivity|]). lia.
Qed.
Lemma same_letter_lower a b : same_letter a b -> lower1 a = lower1 b /\ Ascii.eqb a "_" = Ascii.eqb b "_".
Proof.
  intros [->|(i & [[Ha Hb]|[Ha Hb]])]; [auto| |]; destruct (letter_pair _ _ _ Ha Hb) as (H1 & H2 & H3 & H4); split; congruence.
Qed.
Lemma same_name_lower s t : same_name s t -> lower s = lower t /\ lower (until_underscore s) = lower (until_underscore t).
Proof.
  induction 1 as [|a b s t L S [I1 I2]]; [auto|]. destruct (same_letter_lower _ _ L) as [L1 L2].
  cbn [lower until_underscore]. rewrite L2. split; [congruence|]. destruct (Ascii.eqb b "_"); cbn [lower]; congruence.
Qed.
(** A learner is found whatever the case its name is written in, and nothing else is found: names
    that are not a registered one up to case (and, for the Kats ensemble, up to what follows the first
    underscore) are refused. *)
Theorem C47_names : forall s t,
  same_name s t -> base_class s = base_class t /\ kats_class s = kats_class t.
Proof.
  intros s t H. destruct (same_name_lower _ _ H) as [A B]. unfold base_class, kats_class. rewrite A, B. split; reflexivity.
Qed.
Lemma lower_of c : same_letter c (lower1 c).
Proof.
  unfold lower1. destruct ((65 <=? nat_of_ascii c) && (nat_of_ascii c <=? 90)) eqn:E; [|left; reflexivity].
  apply andb_true_iff in E as [E1 E2]. apply Nat.leb_le in E1, E2.
  assert (H : exists j, nat_of_ascii c = 65 + j /\ j < 26) by (exists (nat_of_ascii c - 65); lia). destruct H as (j & Hj & Hl).
  right. exists j. left. rewrite <- (ascii_nat_embedding c), Hj. clear - Hl.
  do 26 (destruct j as [|j]; [split; reflexivity|]). lia.
Qed.
Lemma lower_same s : same_name s (lower s).
Proof. induction s as [|c s IH]; cbn; constructor; [apply lower_of|exact IH]. Qed.
Lemma mem_in' s l : mem s l = true <-> In s l.
Proof.
  unfold mem. rewrite existsb_exists. split; [intros (x & I & E); apply String.eqb_eq in E; subst; exact I|].
  intros I. exists s. split; [exact I|apply String.eqb_refl].
Qed.
Theorem C47_registered : forall s c,
  base_class s = Some c <->
  In c ["arima"; "holtwinters"; "sarima"; "prophet"; "linear"; "quadratic"]%string /\ same_name s c.
Proof.
  intros s c. unfold base_class. split.
  - destruct (mem (lower s) base_models) eqn:E; [|discriminate]. intros H. injection H as <-. apply mem_in' in E.
    split; [exact E|]. apply lower_same.
  - intros [I S]. destruct (same_name_lower _ _ S) as [A _].
    assert (lower c = c). { cbn in I. repeat (destruct I as [<-|I]; [reflexivity|]). destruct I. }
    rewrite A, H. replace (mem c base_models) with true; [reflexivity|]. symmetry. apply mem_in'. exact I.
Qed.
Example C47_names_case : same_name "ProPHet" "prophet" /\ kats_class "THETA_smodel" = Some "theta"%string /\
  base_class "theta" = None /\ kats_class "Sarima" = Some "sarima"%string.
Proof.
  split; [|repeat split; reflexivity].
  apply (lower_same "ProPHet").
Qed.

(** ** accepted parameters *)
Theorem C96_accepted : forall P agg decomp len (ms : list (spec P)) data k,
  validate P agg decomp len ms data = Some k <->
  (agg = "median"%string \/ agg = "weightedavg"%string) /\
  (forall L, len = Some L -> L + L <= List.length data) /\
  k_len P k = len /\ k_models P k = ms /\
  (k_median P k = true <-> agg = "median"%string) /\ (k_mult P k = true <-> decomp = "multiplicative"%string).
Proof.
  intros P agg decomp len ms data k.
  assert (HL : forall L, (List.length data / 2 <? L) = false <-> L + L <= List.length data).
  { intros L. rewrite Nat.ltb_ge. pose proof (Nat.div_mod (List.length data) 2 ltac:(lia)).
    pose proof (Nat.mod_upper_bound (List.length data) 2 ltac:(lia)). lia. }
  assert (HK : forall k', k' = KParams P (String.eqb agg "median") (String.eqb decomp "multiplicative") len ms <->
     k_len P k' = len /\ k_models P k' = ms /\ (k_median P k' = true <-> agg = "median"%string) /\ (k_mult P k' = true <-> decomp = "multiplicative"%string)).
  { intros k'. split.
    - intros ->. cbn. rewrite !String.eqb_eq. tauto.
    - destruct k' as [a b c d]. cbn. intros (-> & -> & H1 & H2). rewrite <- String.eqb_eq in H1, H2.
      f_equal; apply eq_true_iff_eq; assumption. }
  unfold validate. destruct (mem agg ["median"; "weightedavg"]%string) eqn:E.
  - apply mem_in' in E. cbn in E.
    assert (EA : agg = "median"%string \/ agg = "weightedavg"%string) by (destruct E as [<-|[<-|[]]]; auto).
    destruct len as [L|].
    + destruct (List.length data / 2 <? L) eqn:EL.
      * split; [discriminate|]. intros (_ & H & _). specialize (H L eq_refl). apply HL in H. congruence.
      * apply HL in EL. split.
        -- intros H. injection H as H. symmetry in H. apply HK in H. split; [exact EA|]. split; [intros L' HL'; injection HL' as <-; exact EL|exact H].
        -- intros (_ & _ & H). f_equal. symmetry. apply HK, H.
    + split.
      * intros H. injection H as H. symmetry in H. apply HK in H. split; [exact EA|]. split; [discriminate|exact H].
      * intros (_ & _ & H). f_equal. symmetry. apply HK, H.
  - split; [discriminate|]. intros ([->| ->] & _); discriminate.
Qed.
Example C96_accepted_case :
  validate unit "weightedavg" "additive" (Some 2) [] [Some 1; Some 2; Some 1; Some 2; None]%Q
    = Some (KParams unit false false (Some 2) []) /\
  validate unit "weightedavg" "additive" (Some 3) [] [Some 1; Some 2; Some 1; Some 2; None]%Q = None.
Proof. split; reflexivity. Qed.

(** ** no seasonality *)
Section Plain.
Variables (P F M : Type).
Variable train : string -> P -> list oQ -> option F.
Variable predict : F -> nat -> option frame.
Variable backtest : string -> P -> list oQ -> M -> option Q.
Variable detect : list oQ -> bool.
Variable seasonal : bool -> list oQ -> list oQ.

Lemma dummy_spec f : fc (add_dummy f) = fc f /\ interval_or_nan (ci f) (ci (add_dummy f)) (List.length (fc f)).
Proof.
  unfold add_dummy, interval_or_nan. destruct (ci f) as [p|] eqn:E; [auto|]. cbn. split; [reflexivity|].
  do 2 eexists. split; [reflexivity|]. rewrite map_length. repeat split; apply Forall_forall; intros x I; apply in_map_iff in I as (y & <- & _); reflexivity.
Qed.
(** Without seasonality [forecast] returns, for each configured learner and only for those, its own
    forecasts of the data as they are, with its own interval if it has one and NaN otherwise. *)
Theorem C49_plain_forecast : forall (mape : M) (k : kparams P) data steps p w,
  detect data = false -> NoDup (map (sname P) (k_models P k)) ->
  kats_forecast P F M train predict backtest detect seasonal mape k data steps = Some (p, w) ->
  (forall m, In m (k_models P k) ->
     exists c g fr fr', kats_class (sname P m) = Some c /\ train c (sparams P m) data = Some g /\
       predict g steps = Some fr /\ entry (sname P m) fr' p /\
       fc fr' = fc fr /\ interval_or_nan (ci fr) (ci fr') (List.length (fc fr))) /\
  names p = map (sname P) (k_models P k).
Proof.
  intros mape k data steps p w Hd N H. unfold kats_forecast in H. rewrite Hd in H. unfold forecast_executor in H.
  destruct (fit_all P F train kats_class (k_models P k) data) as [f1|] eqn:F1; [|discriminate].
  destruct (predict_all F predict f1 steps) as [q1|] eqn:Q1; [|discriminate].
  assert (Hp : p = map (fun kv => (fst kv, add_dummy (snd kv))) q1).
  { destruct (negb (k_median P k)).
    - destruct (errors_all P M backtest kats_class (k_models P k) data mape) as [e|]; [|discriminate].
      destruct (weights_of e); [|discriminate]. inversion H; reflexivity.
    - inversion H; reflexivity. }
  clear H. split.
  - intros m Im. destruct (fit_all_entry P F train kats_class _ _ _ _ N F1 Im) as (c & g & C1 & C2 & C3).
    destruct (dmap_image _ _ _ _ _ Q1 C3) as (fr & I & E). destruct (dummy_spec fr) as [D1 D2].
    exists c, g, fr, (add_dummy fr). repeat split; try assumption. unfold entry. rewrite Hp. apply in_map_iff.
    exists (sname P m, fr). split; [reflexivity|exact I].
  - unfold names. rewrite Hp, map_map. cbn. transitivity (keys q1); [unfold keys; apply map_ext; intros []; reflexivity|]. rewrite (dmap_keys _ _ _ Q1).
    unfold fit_all in F1. destruct (submit P kats_class (k_models P k) []) as [js|] eqn:S; [|discriminate].
    rewrite (dmap_keys _ _ _ F1). clear - N S.
    assert (G : forall ms d js, NoDup (keys d ++ map (sname P) ms) -> submit P kats_class ms d = Some js -> keys js = keys d ++ map (sname P) ms).
    { clear. induction ms as [|m r IH]; intros d js N S; cbn in S |- *.
      - injection S as <-. rewrite app_nil_r. reflexivity.
      - destruct (kats_class (sname P m)) as [c|]; [|discriminate]. 
        assert (K : keys (@dset (job P) (sname P m) (c, sparams P m) d) = keys d ++ [sname P m]).
        { cbn in N. apply NoDup_remove_2 in N. assert (~ In (sname P m) (keys d)) by (intros C; apply N, in_app_iff; auto).
          clear - H. induction d as [|[n v] d IH]; [reflexivity|]. cbn in *. destruct (String.eqb (sname P m) n) eqn:E.
          - apply String.eqb_eq in E. exfalso. apply H. auto.
          - cbn. f_equal. apply IH. tauto. }
        
        pose proof (IH (dset (sname P m) (c, sparams P m) d) js) as G. unfold keys in K, G |- *. unfold job in *. rewrite K, <- !app_assoc in G.
        exact (G N S). }
    apply (G _ [] _ N S).
Qed.
(** [predict] after [fit] likewise shows each fitted learner's own forecasts. *)
Theorem C49_plain_predict : forall (k : kparams P) st steps p,
  st_seasonal F st = false ->
  kats_predict P F predict k st steps = Some p ->
  names p = names (st_fitted F st) /\
  forall n g, NoDup (names (st_fitted F st)) -> entry n g (st_fitted F st) ->
    exists fr fr', predict g steps = Some fr /\ entry n fr' p /\
      fc fr' = fc fr /\ interval_or_nan (ci fr) (ci fr') (List.length (fc fr)).
Proof.
  intros k st steps p Hs H. unfold kats_predict in H. rewrite Hs in H.
  destruct (predict_all F predict (st_fitted F st) steps) as [q|] eqn:Q; [|discriminate]. injection H as <-. split.
  - unfold names. rewrite map_map. transitivity (keys q); [unfold keys; apply map_ext; intros []; reflexivity|]. apply (dmap_keys _ _ _ Q).
  - intros n g N I. destruct (dmap_image _ _ _ _ _ Q I) as (fr & J & E). destruct (dummy_spec fr) as [D1 D2].
    exists fr, (add_dummy fr). repeat split; try assumption. apply in_map_iff. exists (n, fr). split; [reflexivity|exact J].
Qed.
End Plain.
Example C49_plain_case : exists p, kats_forecast Q toy_F unit toy_train naive_predict toy_backtest (fun _ => false) toy_sea tt (toy_k true) toy_season_data 2 = Some (p, None)
  /\ names p = ["theta"%string].
Proof. eexists. split; vm_compute; reflexivity. Qed.

Print Assumptions C47_names.
Print Assumptions C47_registered.
Print Assumptions C96_accepted.
Print Assumptions C49_plain_forecast.
Print Assumptions C49_plain_predict.
