(** C306 (change points compared and put in sets) and C307 (CUSUM detector models compared). *)
From Verif Require Import Common SerialModel SerialSpec SerialProps PointEqModel.
Require Import String Sorted.
Require Import List. Import ListNotations.
Open Scope nat_scope.

(** ** Specification *)
Definition is_cusum (a : point) : Prop := exists c, det a = Cusum c.
(** equal numbers, neither of them missing *)
Definition same_number (x y : option Q) : Prop := exists p q, x = Some p /\ y = Some q /\ (p == q)%Q.
Definition same_event (a b : point) : Prop :=
  start_time a = start_time b /\ end_time a = end_time b /\ same_number (confidence a) (confidence b).
(** the attributes of CUSUM change points of one series *)
Definition scalar (n : number) : Prop := exists x, n = Num x.
Definition one_series (c : cusum_details) : Prop := scalar (mu0 c) /\ scalar (mu1 c) /\ scalar (delta c).
Definition same_scalar (m n : number) : Prop := exists x y, m = Num x /\ n = Num y /\ same_number x y.
Definition same_shift (c e : cusum_details) : Prop :=
  direction c = direction e /\ cp_index c = cp_index e /\ same_scalar (delta c) (delta e) /\ regression_detected c = regression_detected e /\
  stable_changepoint c = stable_changepoint e /\ same_scalar (mu0 c) (mu0 e) /\ same_scalar (mu1 c) (mu1 e) /\ same_number (llr c) (llr e) /\
  same_number (llr_int c) (llr_int e) /\ same_number (p_value c) (p_value e).

(** ** Lemmas *)
Lemma feq_spec x y : feq x y = true <-> same_number x y.
Proof.
  unfold feq, same_number. destruct x as [p|], y as [q|]; split; intros H; try discriminate.
  - apply Qeq_bool_iff in H. exists p, q. repeat split. exact H.
  - destruct H as (p' & q' & E & E' & H). injection E as <-. injection E' as <-. apply Qeq_bool_iff. exact H.
  - destruct H as (p' & q' & E & E' & H). discriminate.
  - destruct H as (p' & q' & E & E' & H). discriminate.
  - destruct H as (p' & q' & E & E' & H). discriminate.
Qed.
Lemma same_number_sym x y : same_number x y -> same_number y x.
Proof. intros (p & q & E & E' & H). exists q, p. repeat split; try assumption. symmetry. exact H. Qed.
Lemma same_number_trans x y z : same_number x y -> same_number y z -> same_number x z.
Proof. intros (p & q & E & E' & H) (q' & r & F & F' & H'). rewrite E' in F. injection F as <-. exists p, r. repeat split; try assumption. rewrite H. exact H'. Qed.
Lemma base_spec a b : base_eq a b = T true <-> same_event a b.
Proof.
  unfold base_eq, same_event. split.
  - intros E. injection E as E. apply andb_true_iff in E as (E & C). apply andb_true_iff in E as (S0 & E). apply Z.eqb_eq in S0, E. apply feq_spec in C. repeat split; assumption.
  - intros (S0 & E & C). apply (f_equal T). rewrite !andb_true_iff, !Z.eqb_eq, feq_spec. repeat split; assumption.
Qed.
Lemma not_cusum_base a b : ~ is_cusum a -> ~ is_cusum b -> py_eq a b = base_eq a b \/ py_eq a b = base_eq b a.
Proof.
  intros A B. unfold py_eq, method_eq. destruct (det a) eqn:DA; destruct (det b) eqn:DB; try (left; reflexivity); try (right; reflexivity);
    exfalso; first [apply A; eexists; exact DA | apply B; eexists; exact DB].
Qed.
Lemma base_comm a b : base_eq a b = base_eq b a.
Proof.
  unfold base_eq. rewrite (Z.eqb_sym (start_time a)), (Z.eqb_sym (end_time a)). apply (f_equal T). apply (f_equal (andb _)).
  destruct (feq (confidence a) (confidence b)) eqn:F; symmetry.
  - apply feq_spec, same_number_sym, feq_spec. exact F.
  - destruct (feq (confidence b) (confidence a)) eqn:G; [|reflexivity]. apply feq_spec, same_number_sym, feq_spec in G. congruence.
Qed.
Lemma conj_true l : (forall x, In x l -> exists b, x = T b) -> (exists b, conj l = T b) /\ (conj l = T true <-> Forall (fun x => x = T true) l).
Proof.
  induction l as [|x l IH]; intros H; [split; [exists true; reflexivity|split; [constructor|reflexivity]]|].
  destruct (H x (or_introl eq_refl)) as (b & ->). destruct (IH (fun y I => H y (or_intror I))) as (E & I). destruct b; cbn.
  - split; [exact E|]. rewrite I. split; [intros F; constructor; [reflexivity|exact F]|intros F; inversion F; assumption].
  - split; [exists false; reflexivity|]. split; [discriminate|]. intros F. inversion F as [|? ? K _]. discriminate K.
Qed.
Lemma number_scalar m n : scalar m -> scalar n -> (exists b, number_eq m n = T b) /\ (number_eq m n = T true <-> same_scalar m n).
Proof.
  intros (x & ->) (y & ->). cbn. split; [eexists; reflexivity|]. split.
  - intros E. injection E as E. apply feq_spec in E. exists x, y. repeat split. exact E.
  - intros (x' & y' & E & E' & H). injection E as <-. injection E' as <-. apply (f_equal T). apply feq_spec. exact H.
Qed.
Lemma T_true b (P : Prop) : (b = true <-> P) -> (T b = T true <-> P).
Proof. intros H. rewrite <- H. split; [intros E; injection E as ->; reflexivity|intros ->; reflexivity]. Qed.

(** ** Change points *)
(** Change points other than those of the CUSUM detector are compared without an exception, and are equal exactly if start,
    end and confidence are. *)
Theorem C306_base : forall a b, ~ is_cusum a -> ~ is_cusum b ->
  py_eq a b <> Err /\ (py_eq a b = T true <-> same_event a b).
Proof.
  intros a b A B. destruct (not_cusum_base a b A B) as [-> | ->]; [|rewrite base_comm]; (split; [discriminate|apply base_spec]).
Qed.
(** Two CUSUM change points of one series are compared without an exception, and are equal exactly if times, confidence,
    direction, index, means, change, flags, likelihood ratios and p-value are. *)
Theorem C306_cusum : forall a b c e, det a = Cusum c -> det b = Cusum e -> one_series c -> one_series e ->
  py_eq a b <> Err /\ (py_eq a b = T true <-> same_event a b /\ same_shift c e).
Proof.
  intros a b c e DA DB (C0 & C1 & C2) (E0 & E1 & E2). unfold py_eq, method_eq. rewrite DA. unfold cusum_eq. rewrite DB.
  destruct (number_scalar _ _ C0 E0) as ((b0 & N0) & S0). destruct (number_scalar _ _ C1 E1) as ((b1 & N1) & S1). destruct (number_scalar _ _ C2 E2) as ((b2 & N2) & S2).
  match goal with |- context [conj ?l] => destruct (conj_true l) as ((bb & EX) & IFF) end.
  { intros x I. cbn [In] in I. repeat (destruct I as [<-|I]; [eexists; (reflexivity || eassumption)|]). destruct I. }
  split; [rewrite EX; discriminate|]. rewrite IFF. unfold same_event, same_shift.
  rewrite !Forall_cons_iff, S0, S1, S2, !(T_true _ _ (Z.eqb_eq _ _)), !(T_true _ _ (feq_spec _ _)), !(T_true _ _ (eqb_true_iff _ _)), (T_true _ _ (String.eqb_eq _ _)).
  split; [intros H; repeat (destruct H as (? & H)); repeat split; assumption|]. intros ((? & ? & ?) & ? & ? & ? & ? & ? & ? & ? & ? & ? & ?). repeat split; try assumption. constructor.
Qed.
Lemma same_event_equiv a b c : (confidence a <> None -> same_event a a) /\ (same_event a b -> same_event b a) /\ (same_event a b -> same_event b c -> same_event a c).
Proof.
  unfold same_event. repeat split.
  - destruct (confidence a) as [q|]; [|contradiction]. exists q, q. repeat split. 
  - symmetry; apply H.
  - symmetry; apply H.
  - apply same_number_sym, H.
  - etransitivity; [apply H|apply H0].
  - etransitivity; [apply H|apply H0].
  - eapply same_number_trans; [apply H|apply H0].
Qed.
(** Among change points other than those of CUSUM, == is symmetric, transitive and, where the confidence is not missing,
    reflexive. *)
Theorem C306_equivalence : forall a b c, ~ is_cusum a -> ~ is_cusum b -> ~ is_cusum c ->
  (confidence a <> None -> py_eq a a = T true) /\ py_eq a b = py_eq b a /\ (py_eq a b = T true -> py_eq b c = T true -> py_eq a c = T true).
Proof.
  intros a b c A B C. repeat split.
  - intros N. apply (proj2 (proj2 (C306_base a a A A))). exact (proj1 (same_event_equiv a a a) N).
  - destruct (not_cusum_base a b A B) as [-> | ->]; destruct (not_cusum_base b a B A) as [-> | ->]; try reflexivity; apply base_comm.
  - intros H K. apply (proj2 (C306_base a b A B)) in H. apply (proj2 (C306_base b c B C)) in K. apply (proj2 (C306_base a c A C)). exact (proj2 (proj2 (same_event_equiv a b c)) H K).
Qed.
(** Refuted: symmetry.  A change point of another detector can be equal to one of CUSUM, while the comparison the other way
    round raises. *)
Theorem C306_symmetric_refuted : forall a b, ~ is_cusum a -> det a <> Plain -> is_cusum b ->
  (py_eq a b = T true <-> same_event a b) /\ py_eq b a = Err.
Proof.
  intros a b A NP (c & B). unfold py_eq, method_eq. rewrite B. destruct (det a) eqn:D; try contradiction; try (split; [apply base_spec|unfold cusum_eq; rewrite D; reflexivity]).
  exfalso. apply A. eexists. exact D.
Qed.
(** Refuted: that a TimeSeriesChangePoint can be compared with any other: with one of CUSUM it raises on either side. *)
Theorem C306_plain_refuted : forall a b, det a = Plain -> is_cusum b -> py_eq a b = Err /\ py_eq b a = Err.
Proof. intros a b A (c & B). unfold py_eq, method_eq. rewrite A, B. unfold cusum_eq. rewrite A. split; reflexivity. Qed.
(** Refuted: that equal change points agree in what they report: the attributes of the detector do not matter, nor does its
    kind, nor, for CUSUM, the p-value in the interest window. *)
Theorem C306_details_refuted :
  (forall s e q d d', (forall c, d <> Cusum c) -> (forall c, d' <> Cusum c) -> py_eq (Point s e (Some q) d) (Point s e (Some q) d') = T true) /\
  (forall a b c e, det a = Cusum c -> det b = Cusum e -> one_series c -> one_series e -> forall p,
     py_eq a b = py_eq a (Point (start_time b) (end_time b) (confidence b)
       (Cusum (CD (direction e) (cp_index e) (mu0 e) (mu1 e) (delta e) (llr_int e) (llr e) (regression_detected e) (stable_changepoint e) (p_value e) p)))).
Proof.
  split.
  - intros s e q d d' N N'. apply C306_base; [intros (c & E); exact (N c E)|intros (c & E); exact (N' c E)|]. repeat split. exists q, q. repeat split.
  - intros a b c e DA DB _ _ p. unfold py_eq, method_eq. rewrite DA. unfold cusum_eq. rewrite DB. reflexivity.
Qed.
(** Refuted: that CUSUM change points of several series can be compared: even with itself the comparison raises. *)
Theorem C306_arrays_refuted : forall a c x y l, det a = Cusum c -> delta c = Arr (x :: y :: l) -> confidence a <> None -> py_eq a a = Err.
Proof.
  intros a c x y l DA DE N. unfold py_eq, method_eq. rewrite DA. unfold cusum_eq. rewrite DA, DE, !Z.eqb_refl, String.eqb_refl.
  assert (feq (confidence a) (confidence a) = true) as ->. { apply feq_spec. destruct (confidence a) as [q|]; [|contradiction]. exists q, q. repeat split. }
  cbn. destruct l; cbn; rewrite ?Nat.eqb_refl; reflexivity.
Qed.
(** Equal change points that can be hashed have the same hash. *)
Theorem C306_hash : forall a b h h', hashed a = Some h -> hashed b = Some h' -> py_eq a b = T true -> h = h'.
Proof. intros a b h h' A B _. unfold hashed in *. destruct (det a); try discriminate; destruct (det b); try discriminate; congruence. Qed.
(** Refuted: that the hash depends on the change point: it is one and the same for all, and none for those of CUSUM. *)
Theorem C306_hash_refuted : (forall a b, ~ is_cusum a -> ~ is_cusum b -> hashed a = hashed b) /\ (forall a, hashed a = None <-> is_cusum a).
Proof.
  split.
  - intros a b A B. unfold hashed. destruct (det a) eqn:DA; destruct (det b) eqn:DB; try reflexivity; exfalso; first [apply A; eexists; exact DA | apply B; eexists; exact DB].
  - intros a. unfold hashed, is_cusum. destruct (det a) eqn:D; (split; [intros E; try discriminate E|intros (c' & E); try discriminate E]); [eexists; reflexivity|reflexivity].
Qed.
Lemma hashed_some a : ~ is_cusum a -> hashed a <> None.
Proof. intros A E. apply A. apply C306_hash_refuted. exact E. Qed.
Lemma same_key_spec x y : ~ is_cusum x -> ~ is_cusum y -> (same_key x y = true <-> same_event y x).
Proof.
  intros X Y. unfold same_key. destruct (hashed x) as [h|] eqn:HX; [|destruct (hashed_some x X HX)]. destruct (hashed y) as [h'|] eqn:HY; [|destruct (hashed_some y Y HY)].
  assert (h = h') as <- by (pose proof (proj1 C306_hash_refuted x y X Y) as E; congruence). rewrite String.eqb_refl. cbn [andb].
  destruct (C306_base y x Y X) as (NE & I). destruct (py_eq y x) as [b|]; [|contradiction]. rewrite <- I. split; [intros ->; reflexivity|intros E; injection E as ->; reflexivity].
Qed.
Lemma to_set_spec l : forall seen, (forall x, In x (seen ++ l) -> ~ is_cusum x) ->
  (forall s, to_set seen l = Some s -> incl s (seen ++ l) /\ incl seen s /\ (ForallOrdPairs (fun x y => ~ same_event x y) seen -> ForallOrdPairs (fun x y => ~ same_event x y) s) /\
     forall x, In x l -> In x s \/ exists y, In y s /\ same_event y x) /\ to_set seen l <> None.
Proof.
  induction l as [|x l IH]; intros seen N.
  - split; [|discriminate]. intros s E. injection E as <-. rewrite app_nil_r. repeat split; [intros y I; exact I|intros y I; exact I|tauto|intros y []].
  - cbn [to_set]. assert (NX : ~ is_cusum x) by (apply N; rewrite in_app_iff; right; left; reflexivity).
    destruct (hashed x) as [h|] eqn:HX; [|destruct (hashed_some x NX HX)]. destruct (existsb (same_key x) seen) eqn:EX.
    + destruct (IH seen) as (A & B); [intros y I; apply N; rewrite in_app_iff in *; cbn; tauto|]. split; [|exact B]. intros s E. destruct (A s E) as (I1 & I2 & FO & C). repeat split.
      * intros y I. apply I1 in I. rewrite in_app_iff in *. cbn. tauto.
      * exact I2.
      * exact FO.
      * intros y [<-|I]; [|apply C; exact I]. right. apply existsb_exists in EX as (y & I & K). exists y. split; [apply I2; exact I|]. apply same_key_spec; [exact NX|apply N; rewrite in_app_iff; left; exact I|exact K].
    + destruct (IH (seen ++ [x])) as (A & B); [intros y I; apply N; rewrite <- app_assoc in I; exact I|]. split; [|exact B]. intros s E. destruct (A s E) as (I1 & I2 & FO & C). repeat split.
      * intros y I. apply I1 in I. rewrite <- app_assoc in I. exact I.
      * intros y I. apply I2. rewrite in_app_iff. left. exact I.
      * intros F. apply FO. assert (NS : forall y, In y seen -> ~ same_event y x).
        { intros y I K. assert (existsb (same_key x) seen = true); [|congruence]. apply existsb_exists. exists y. split; [exact I|]. apply same_key_spec; [exact NX|apply N; rewrite in_app_iff; left; exact I|exact K]. }
        clear - F NS. induction F as [|y seen AL F IHF]; cbn; [repeat constructor|]. constructor.
        -- apply Forall_app. split; [exact AL|]. repeat constructor. apply NS. left. reflexivity.
        -- apply IHF. intros z I. apply NS. right. exact I.
      * intros y [<-|I]; [left; apply I2; rewrite in_app_iff; right; left; reflexivity|apply C; exact I].
Qed.
(** A set of change points other than those of CUSUM holds given change points, no two of the same event, and every event. *)
Theorem C306_set : forall l, (forall x, In x l -> ~ is_cusum x) -> exists s, to_set [] l = Some s /\ incl s l /\
  ForallOrdPairs (fun x y => ~ same_event x y) s /\ forall x, In x l -> In x s \/ exists y, In y s /\ same_event y x.
Proof.
  intros l N. destruct (to_set_spec l [] N) as (A & B). destruct (to_set [] l) as [s|]; [|contradiction]. exists s. destruct (A s eq_refl) as (I1 & _ & F & C). repeat split; [exact I1|apply F; constructor|exact C].
Qed.
(** Refuted: that a set keeps the change points of different series apart, and that change points of CUSUM can be put in one. *)
Theorem C306_set_refuted :
  (forall s e q m n n', to_set [] [Point s e (Some q) (Bocpd m (Some n)); Point s e (Some q) (Bocpd m (Some n'))] = Some [Point s e (Some q) (Bocpd m (Some n))]) /\
  (forall l x, In x l -> is_cusum x -> forall seen, to_set seen l = None).
Proof.
  split.
  - intros s e q m n n'. unfold to_set. cbn [hashed det existsb app]. assert (same_key (Point s e (Some q) (Bocpd m (Some n'))) (Point s e (Some q) (Bocpd m (Some n))) = true) as ->; [|reflexivity].
    apply same_key_spec; try (intros (c & E); discriminate E). repeat split. exists q, q. repeat split.
  - induction l as [|y l IH]; intros x I C seen; [destruct I|]. cbn. destruct I as [->|I].
    + destruct (hashed x) eqn:H; [|reflexivity]. apply C306_hash_refuted in C. congruence.
    + destruct (hashed y); [|reflexivity]. destruct (existsb (same_key y) seen); eapply IH; eassumption.
Qed.
Definition shift0 (d : number) : cusum_details := CD "increase" 3 (Num (Some 1%Q)) (Num (Some 2%Q)) d (Some 9%Q) (Some 8%Q) true true (Some 0%Q) None.
Example C306_case :
  py_eq (Point 1 2 (Some (1 # 2)) (Bocpd 1 None)) (Point 1 2 (Some (2 # 4)) (Dtw None)) = T true /\
  py_eq (Point 1 2 (Some (1 # 2)) (Bocpd 1 None)) (Point 1 3 (Some (1 # 2)) (Bocpd 1 None)) = T false /\
  py_eq (Point 1 2 (Some 1%Q) (Cusum (shift0 (Num (Some 1%Q))))) (Point 1 2 (Some 1%Q) (Cusum (shift0 (Num (Some 1%Q))))) = T true /\
  py_eq (Point 1 2 (Some 1%Q) (Cusum (shift0 (Num (Some 1%Q))))) (Point 1 2 (Some 1%Q) (Cusum (shift0 (Num (Some 2%Q))))) = T false /\
  py_eq (Point 1 2 (Some 1%Q) (Cusum (shift0 (Arr [Some 1%Q; Some 2%Q])))) (Point 1 2 (Some 1%Q) (Cusum (shift0 (Arr [Some 1%Q; Some 2%Q])))) = Err /\
  py_eq (Point 1 2 None Plain) (Point 1 2 None Plain) = T false /\
  option_map (@List.length _) (to_set [] [Point 1 2 (Some 1%Q) Plain; Point 3 4 (Some 1%Q) Plain; Point 1 2 (Some 1%Q) (Robust 0 None)]) = Some 2.
Proof. repeat split; vm_compute; reflexivity. Qed.

(** ** CUSUM detector models *)
(** Two CUSUM detector models are equal exactly if the detection state and nine of the parameters are. *)
Theorem C307_equal : forall same a b,
  model_eq same a b = true <->
  Forall2 (fun x y => same x y = true)
    (map snd (state_dict (c_state a)) ++ [scan_window (c_params a); historical_window (c_params a); step_window (c_params a); c_threshold (c_params a); delta_std_ratio (c_params a);
       magnitude_quantile (c_params a); magnitude_ratio (c_params a); change_directions (c_params a); score_func (c_params a)])
    (map snd (state_dict (c_state b)) ++ [scan_window (c_params b); historical_window (c_params b); step_window (c_params b); c_threshold (c_params b); delta_std_ratio (c_params b);
       magnitude_quantile (c_params b); magnitude_ratio (c_params b); change_directions (c_params b); score_func (c_params b)]).
Proof.
  intros same a b. unfold model_eq. cbn [state_dict map snd app]. rewrite !andb_true_iff. split.
  - intros H. repeat (destruct H as (H & ?)). repeat (constructor; [assumption|]). constructor.
  - intros F. repeat (match goal with H : Forall2 _ (_ :: _) _ |- _ => inversion H; clear H; subst end). repeat split; assumption.
Qed.
(** A model made from the serialised form of another is equal to it, whatever other arguments are given. *)
Theorem C307_reload : forall same m a' vectorized', (forall x, same x x = true) ->
  (forall k v, In (k, v) (params_dict (c_params m) ++ state_dict (c_state m)) -> plain v) -> plain (c_vectorized m) -> plain (trans_flag m) ->
  exists o m', cusum_serialize m = Some o /\ cusum_init (Some o) a' vectorized' = Some m' /\ model_eq same m m' = true /\ model_eq same m' m = true.
Proof.
  intros same [p v s f] a' v' R P PV PF. cbn [c_params c_vectorized c_state trans_flag] in *. unfold cusum_serialize. cbn [c_params c_vectorized c_state trans_flag].
  match goal with |- context [dumps_dict ?d] => destruct (dict_trip d) as (o & D & L) end.
  { intros k w H. rewrite !in_app_iff in H. destruct H as [H|[H|H]].
    - apply (P k w). rewrite in_app_iff. now right.
    - apply (P k w). rewrite in_app_iff. now left.
    - destruct H as [H|[H|[]]]; injection H as <- <-; assumption. }
  exists o. unfold cusum_init. rewrite L. destruct p, s. cbn -[is_none]. eexists. split; [exact D|]. split; [reflexivity|]. unfold model_eq. cbn. rewrite !R. split; reflexivity.
Qed.
(** Refuted: that equal models answer alike: models that remove the seasonality and that do not, with other periods, with and
    without vectorisation and adapted means are equal. *)
Theorem C307_settings_refuted : forall same a r f ad v b b', (forall x, same x x = true) ->
  cusum_init None a VNone = Some b ->
  cusum_init None (CusumParams (scan_window a) (historical_window a) (step_window a) (c_threshold a) (delta_std_ratio a) (magnitude_quantile a) (magnitude_ratio a)
                     (change_directions a) (score_func a) r f ad) v = Some b' ->
  model_eq same b b' = true /\ c_remove_seasonality (c_params b') = r /\ season_period_freq (c_params b') = f /\
  (truthy v = true -> c_vectorized b' = v) /\ (truthy ad = true -> adapted_pre_mean (c_params b') = ad).
Proof.
  intros same a r f ad v b b' R I I'. unfold cusum_init, new_params in I, I'. cbn [scan_window historical_window score_func] in I'.
  destruct (is_none (scan_window a) || is_none (historical_window a)); [discriminate|]. destruct (score_value (score_func a)) as [sf|]; [|discriminate].
  injection I as <-. injection I' as <-. split; [unfold model_eq; cbn; rewrite !R; reflexivity|]. cbn. split; [reflexivity|]. split; [reflexivity|]. split; intros ->; reflexivity.
Qed.
Example C307_case : let same x y := match x, y with VNum p, VNum q => Qeq_bool p q | VStr s, VStr t => String.eqb s t | VNone, VNone => true | VBool b, VBool b' => Bool.eqb b b' | VList [], VList [] => true | VList [VStr s], VList [VStr t] => String.eqb s t | _, _ => false end in
  let a w r := CusumParams (VNum w) (VNum 100) (VNum 5) (VNum (1#100)) (VNum 1) (VNum (3#4)) (VNum (4#3)) (VStr "increase") (VEnum "z_score") (VBool r) (VStr "weekly") VNone in
  match cusum_init None (a 10%Q true) VNone, cusum_init None (a 10%Q false) (VBool true), cusum_init None (a 11%Q true) VNone with
  | Some x, Some y, Some z => model_eq same x y = true /\ model_eq same x z = false
  | _, _, _ => False
  end.
Proof. vm_compute. split; reflexivity. Qed.

Print Assumptions C306_base.
Print Assumptions C306_cusum.
Print Assumptions C306_equivalence.
Print Assumptions C306_symmetric_refuted.
Print Assumptions C306_plain_refuted.
Print Assumptions C306_details_refuted.
Print Assumptions C306_arrays_refuted.
Print Assumptions C306_hash.
Print Assumptions C306_hash_refuted.
Print Assumptions C306_set.
Print Assumptions C306_set_refuted.
Print Assumptions C307_equal.
Print Assumptions C307_reload.
Print Assumptions C307_settings_refuted.
