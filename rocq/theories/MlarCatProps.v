(** Theorems about the categorical columns of the autoregressive forecaster (C300). *)
From Coq Require Import List ZArith Bool Lia FinFun.
From Verif Require Import MlarGridModel MlarGridProps MlarNewModel MlarNewProps.
Import ListNotations.
Open Scope Z_scope.

(** ** Specification *)
(** the row of a label among the columns: 1 in the column of the label, 0 in the others *)
Definition one_hot (columns : list Z) (c : Z) (r : list bool) : Prop :=
  length r = length columns /\ forall k d, nth_error columns k = Some d -> nth_error r k = Some (if Z.eq_dec c d then true else false).
(** the series has the label c in every row *)
Definition constant {A} (f : frame A) (c : Z) : Prop := forall t r, In (t, r) f -> snd r = Some c.
(** rows at consecutive times *)
Definition gapless {A} (f : frame A) : Prop := exists a b, map fst f = span a b.

(** ** Lemmas *)
Lemma uniq_in : forall l seen c, In c (uniq seen l) <-> In c l /\ ~ In c seen.
Proof.
  induction l as [|x l IH]; intros seen c; cbn [uniq]; [cbn; tauto|]. destruct (existsb (Z.eqb x) seen) eqn:E.
  - apply existsb_exists in E as (y & I & E). apply Z.eqb_eq in E. subst y. rewrite IH. cbn. split; [tauto|]. intros [[->|H] N]; [tauto|tauto].
  - assert (N : ~ In x seen). { intros I. assert (existsb (Z.eqb x) seen = true) by (apply existsb_exists; exists x; split; [exact I|apply Z.eqb_refl]). congruence. }
    cbn [In]. rewrite IH. cbn [In]. split; [intros [->|[H K]]; [tauto|tauto]|]. intros [[->|H] K]; [tauto|]. destruct (Z.eq_dec x c); [tauto|]. right. tauto.
Qed.
Lemma uniq_nodup : forall l seen, NoDup (uniq seen l).
Proof.
  induction l as [|x l IH]; intros seen; cbn [uniq]; [constructor|]. destruct (existsb (Z.eqb x) seen); [apply IH|]. constructor; [|apply IH]. intros I. apply uniq_in in I as [_ N]. apply N. left. reflexivity.
Qed.
Lemma encode_hot cats c : one_hot cats c (encode cats (Some c)).
Proof.
  split; [apply map_length|]. intros k d H. unfold encode. rewrite nth_error_map, H. cbn. f_equal. destruct (Z.eqb_spec c d), (Z.eq_dec c d); congruence.
Qed.
Lemma hot_unique cats c r r' : one_hot cats c r -> one_hot cats c r' -> r = r'.
Proof.
  intros [L H] [L' H']. apply (nth_ext r r' false false); [congruence|]. intros k K. rewrite L in K. apply nth_error_Some in K. destruct (nth_error cats k) as [d|] eqn:E; [|congruence]. specialize (H k d E). specialize (H' k d E). rewrite (nth_error_nth _ _ false H), (nth_error_nth _ _ false H'). reflexivity.
Qed.
Lemma heads_first {A} (fs : list (frame A)) cs : Forall2 (fun f c => exists t v rest, f = (t, (v, Some c)) :: rest) fs cs -> heads fs = Some cs.
Proof. induction 1 as [|f c fs cs (t & v & rest & ->) F IH]; [reflexivity|]. cbn [heads]. rewrite IH. reflexivity. Qed.
Lemma last_snoc {B} (l : list B) x d : last (l ++ [x]) d = x.
Proof. apply last_last. Qed.
Lemma gapless_frame {A} (f : frame A) a b : map fst f = span a b -> f = map (fun t => (t, at_time f t)) (span a b).
Proof.
  intros E. assert (ND : is_series f). { unfold is_series. rewrite E. unfold span. apply FinFun.Injective_map_NoDup; [intros x y; lia|apply seq_NoDup]. }
  rewrite <- E. rewrite map_map. assert (H : forall r, In r f -> r = (fst r, at_time f (fst r))). { intros [t r] I. cbn [fst]. unfold at_time. rewrite (proj2 (find_in f t r ND) I). reflexivity. }
  clear E ND. rewrite <- (map_id f) at 1. apply map_ext_in. exact H.
Qed.

(** ** Theorems *)
(** the columns are the labels of the first rows of the series, each once *)
Theorem C300_columns : forall A L (fs : list (frame A)) columns rows, encoded L fs = Some (columns, rows) ->
  NoDup columns /\ (forall c, In c columns <-> exists t v rest, In ((t, (v, Some c)) :: rest) fs) /\ length rows = length fs.
Proof.
  intros A L fs columns rows H. unfold encoded, cat_labels in H. destruct (heads fs) as [l|] eqn:E; [|discriminate]. cbn [option_map] in H. assert (columns = uniq [] l) as -> by congruence. assert (ER : length rows = length fs). { assert (rows = map (fun f => map (fun r => encode (uniq [] l) (snd (snd r))) (origins L f)) fs) as -> by congruence. apply map_length. } clear H. split; [apply uniq_nodup|]. split; [|exact ER]. clear ER.
  intros c. rewrite uniq_in. transitivity (In c l); [cbn; tauto|]. revert l E. induction fs as [|f fs IH]; intros l E; cbn [heads] in E.
  - assert (l = []) as -> by congruence. cbn. split; [tauto|]. intros (t & v & rest & []).
  - destruct f as [|[t [v d]] rest].
    + rewrite (IH l E). split; intros (t & v & rest & I); exists t, v, rest; [right; exact I|destruct I as [I|I]; [discriminate|exact I]].
    + destruct d as [d|]; [|discriminate]. destruct (heads fs) as [l'|]; [|discriminate]. assert (l = d :: l') as -> by congruence. cbn [In]. rewrite (IH l' eq_refl). split.
      * intros [->|(t' & v' & rest' & I)]; [exists t, v, rest; left; reflexivity|exists t', v', rest'; right; exact I].
      * intros (t' & v' & rest' & [I|I]); [left; congruence|right; exists t', v', rest'; exact I].
Qed.
(** every row of an origin with a label says which column is its label, if there is a column for it; a row without a label is 0 in
    every column *)
Theorem C300_rows : forall A L (fs : list (frame A)) columns rows, encoded L fs = Some (columns, rows) ->
  forall k f r, nth_error fs k = Some f -> nth_error rows k = Some r ->
  Forall2 (fun q e => (forall c, snd (snd q) = Some c -> one_hot columns c e) /\ (snd (snd q) = None -> e = map (fun _ => false) columns)) (origins L f) r.
Proof.
  intros A L fs columns rows H k f r F R. unfold encoded in H. destruct (cat_labels fs) as [cats|]; [|discriminate]. assert (cats = columns) as -> by congruence. assert (E : rows = map (fun f => map (fun r => encode columns (snd (snd r))) (origins L f)) fs) by congruence. rewrite E, nth_error_map, F in R. cbn in R. assert (r = map (fun r => encode columns (snd (snd r))) (origins L f)) as -> by congruence. clear. induction (origins L f) as [|q l IH]; [constructor|]. cbn [map]. constructor; [|exact IH]. split.
  - intros c E. rewrite E. apply encode_hot.
  - intros E. rewrite E. reflexivity.
Qed.
(** a NaN among the first labels is an error *)
Theorem C300_missing_first : forall A L (fs : list (frame A)), (exists f t v rest, In f fs /\ f = (t, (v, None)) :: rest) -> encoded L fs = None.
Proof.
  intros A L fs (f & t & v & rest & I & ->). unfold encoded, cat_labels. enough (heads fs = None) as -> by reflexivity. induction fs as [|g fs IH]; [destruct I|]. destruct I as [->|I]; [reflexivity|]. cbn [heads]. destruct g as [|[u [x c]] g]; [exact (IH I)|]. destruct c; [|reflexivity]. rewrite (IH I). reflexivity.
Qed.
Lemma window_nothing {A} L (f : frame A) a b c o v : (1 <= L)%nat -> map fst f = span a b -> constant f c -> target f o v -> (forall t u, target f t u -> t <= o) -> a <= o - Z.of_nat L + 1 ->
  exists w, in_window L f Nothing = Some w /\ (exists t x rest, w = (t, (x, Some c)) :: rest) /\ (exists t x rest, f = (t, (x, Some c)) :: rest) /\
    origins L w = [(o, (Some v, Some c))] /\ exists before, origins L f = before ++ [(o, (Some v, Some c))].
Proof.
  intros HL G C T M LE. pose proof (gapless_frame f a b G) as EF. assert (OF : ordered f) by (rewrite EF; apply map_ordered). pose proof (last_valid_is f o v OF T M) as LV.
  assert (OB : a <= o <= b). { destruct T as (d & I). assert (J : In o (map fst f)) by (apply in_map_iff; exists (o, (Some v, d)); auto). rewrite G in J. apply span_in in J. exact J. }
  assert (GR : greatest (map fst f) = Some b). { rewrite G. apply greatest_spec. split; [apply span_in; lia|]. intros t I. apply span_in in I. lia. }
  assert (CL : forall t, a <= t <= b -> snd (at_time f t) = Some c). { intros t R. apply (C t). rewrite EF. apply in_map_self. split; [apply span_in; exact R|]. rewrite <- EF. reflexivity. }
  assert (AO : at_time f o = (Some v, Some c)). { apply injective_projections; [apply (at_target f o v (ordered_series f OF)); exact T|apply CL; lia]. }
  assert (SL : span (o - Z.of_nat L + 1) o = span (o - Z.of_nat L + 1) (o - 1) ++ [o]). { rewrite (span_split _ (o - 1) o) by lia. replace (o - 1 + 1) with o by lia. f_equal. unfold span. replace (Z.to_nat (o - o + 1)) with 1%nat by lia. cbn. f_equal. lia. }
  assert (SP : forall x y, x <= y -> span x y = x :: span (x + 1) y). { intros x y R. rewrite (span_split x x y) by lia. unfold span at 1. replace (Z.to_nat (x - x + 1)) with 1%nat by lia. cbn [seq map app]. f_equal. lia. }
  assert (W : in_window L f Nothing = Some (map (fun t => (t, at_time f t)) (span (o - Z.of_nat L + 1) b))).
  { unfold in_window. cbn [bounds]. rewrite LV, GR, (Z.max_r o b) by lia. replace (o - (Z.of_nat L - 1)) with (o - Z.of_nat L + 1) by lia. destruct (span (o - Z.of_nat L + 1) b) as [|x y] eqn:E; [|reflexivity]. rewrite SP in E by lia. discriminate E. }
  exists (map (fun t => (t, at_time f t)) (span (o - Z.of_nat L + 1) b)). split; [exact W|]. split; [|split; [|split]].
  - rewrite SP by lia. cbn [map]. set (t := o - Z.of_nat L + 1) in *. exists t, (fst (at_time f t)), (map (fun t => (t, at_time f t)) (span (t + 1) b)). rewrite <- (CL t) by (unfold t; lia). rewrite <- surjective_pairing. reflexivity.
  - rewrite EF. rewrite SP by lia. cbn [map]. exists a, (fst (at_time f a)), (map (fun t => (t, at_time f t)) (span (a + 1) b)). rewrite <- (CL a) by lia. rewrite <- surjective_pairing. reflexivity.
  - set (w := map _ _). destruct (C299_one_origin A L f Nothing w o v HL W) as (d & E).
    + exists (Some c). apply in_map_self. split; [apply span_in; lia|symmetry; exact AO].
    + intros t u (d & I). apply in_map_self in I as [I E]. apply (M t u). exists d. rewrite EF. apply in_map_self. split; [apply span_in in I; apply span_in; lia|exact E].
    + intros t I. unfold w in I. rewrite map_map in I. cbn [fst] in I. rewrite map_id in I. apply span_in in I. lia.
    + unfold w. rewrite map_map. cbn [fst]. rewrite map_id. apply span_in. lia.
    + rewrite E. assert (I : In (o, (Some v, d)) (origins L w)) by (rewrite E; left; reflexivity). unfold origins in I. assert (J : In (o, (Some v, d)) (cut w)). { rewrite <- (firstn_skipn (L - 1) (cut w)). apply in_or_app. right. exact I. } apply in_cut in J as [J _]. apply in_map_self in J as [_ J]. rewrite AO in J. assert (d = Some c) as -> by congruence. reflexivity.
  - assert (CU : cut f = map (fun t => (t, at_time f t)) (span a o)). { pose proof (cut_span (at_time f) a b o) as CU. rewrite <- EF in CU. apply CU; [lia|exact LV]. } unfold origins. rewrite CU. rewrite (span_split a (o - Z.of_nat L) o) by lia. replace (o - Z.of_nat L + 1) with (o - Z.of_nat L + 1) by lia. rewrite SL. rewrite app_assoc, map_app. cbn [map]. rewrite AO. rewrite skipn_app. replace (L - 1 - length _)%nat with 0%nat by (rewrite map_length, app_length, !span_length; lia). cbn [skipn]. eexists. reflexivity.
Qed.
(** series whose label never changes and is never missing, with at least max_lags rows up to the last target: predicting without
    new data, the columns mean the same as in training, and the row forecast from has the code that the same origin had in
    training *)
Theorem C300_same_partial : forall A L (fs : list (frame A)) labels, (1 <= L)%nat ->
  Forall2 (fun f c => gapless f /\ constant f c /\
    exists o v, target f o v /\ (forall t u, target f t u -> t <= o) /\ exists a r, In (a, r) f /\ a <= o - Z.of_nat L + 1) fs labels ->
  exists ws columns rows rows', windows L fs (map (fun _ => Nothing) fs) = Some ws /\ encoded L fs = Some (columns, rows) /\ encoded L ws = Some (columns, rows') /\
    Forall2 (fun trained predicted => exists before e, trained = before ++ [e] /\ predicted = [e]) rows rows' /\ Forall2 (fun c predicted => exists e, predicted = [e] /\ one_hot columns c e) labels rows'.
Proof.
  intros A L fs labels HL H.
  assert (K : Forall2 (fun f c => exists w o v, in_window L f Nothing = Some w /\ (exists t x rest, w = (t, (x, Some c)) :: rest) /\ (exists t x rest, f = (t, (x, Some c)) :: rest) /\
    origins L w = [(o, (Some v, Some c))] /\ exists before, origins L f = before ++ [(o, (Some v, Some c))]) fs labels).
  { clear - HL H. induction H as [|f c fs cs ((a & b & G) & C & o & v & T & M & LE) F IH]; constructor; [|exact IH]. destruct (window_nothing L f a b c o v HL G C T M) as (w & W); [|exists w, o, v; exact W].
    destruct LE as (a' & r & J & LE'). assert (J' : In a' (map fst f)) by (apply in_map_iff; exists (a', r); auto). rewrite G in J'. apply span_in in J'. lia. }
  clear H. assert (WS : exists ws, windows L fs (map (fun _ => Nothing) fs) = Some ws /\ Forall2 (fun w c => exists t x rest, w = (t, (x, Some c)) :: rest) ws labels /\
    Forall2 (fun w c => exists o v, origins L w = [(o, (Some v, Some c))]) ws labels /\ Forall2 (fun f w => exists before e, origins L f = before ++ [e] /\ origins L w = [e]) fs ws).
  { clear - K. induction K as [|f c fs cs (w & o & v & W & HW & HF & OW & (before & OFs)) F (ws & E & F1 & F2 & F3)]; [exists []; split; [reflexivity|repeat constructor]|].
    exists (w :: ws). cbn [map windows]. rewrite W, E. split; [reflexivity|]. split; [constructor; [exact HW|exact F1]|]. split; [constructor; [exists o, v; exact OW|exact F2]|]. constructor; [exists before, (o, (Some v, Some c)); split; assumption|exact F3]. }
  destruct WS as (ws & E & F1 & F2 & F3). assert (HW : heads ws = Some labels) by (apply heads_first; exact F1).
  assert (HF : heads fs = Some labels). { apply heads_first. clear - K. induction K as [|f c fs cs (w & o & v & W & HW & HF & _) F IH]; constructor; assumption. }
  exists ws. unfold encoded, cat_labels. rewrite HW, HF. cbn [option_map]. do 3 eexists. split; [exact E|]. split; [reflexivity|]. split; [reflexivity|]. split.
  - clear - F3. induction F3 as [|f w fs ws (before & e & E1 & E2) F IH]; cbn [map]; constructor; [|exact IH]. rewrite E1, E2, map_app. cbn [map]. eexists. eexists. split; reflexivity.
  - clear - F2. revert F2. generalize (uniq [] labels). intros cats F2. induction F2 as [|w c ws cs (o & v & E) F IH]; cbn [map]; constructor; [|exact IH]. rewrite E. cbn [map snd]. eexists. split; [reflexivity|apply encode_hot].
Qed.
(** with a label that changes, the columns of a prediction are not those of training: the model reads the code of one label as
    that of another *)
Theorem C300_changed_refuted : forall x y, x <> y -> exists (f g : frame Z) ws,
  ordered f /\ ordered g /\ (exists r, encoded 1 [f; g] = Some ([x; y], r)) /\ windows 1 [f; g] [Nothing; Nothing] = Some ws /\ encoded 1 ws = Some ([y], [[[true]]; [[true]]]).
Proof.
  intros x y D. exists [(0, (Some 1, Some x)); (1, (Some 1, Some y))], [(0, (Some 1, Some y)); (1, (Some 1, Some y))], [[(1, (Some 1, Some y))]; [(1, (Some 1, Some y))]]. split; [|split; [|split; [|split]]].
  - cbn. repeat split; intros q H; repeat (destruct H as [<-|H]; [cbn; lia|]); destruct H.
  - cbn. repeat split; intros q H; repeat (destruct H as [<-|H]; [cbn; lia|]); destruct H.
  - unfold encoded, cat_labels. cbn [heads option_map uniq existsb orb]. destruct (Z.eqb_spec y x) as [E|_]; [congruence|]. cbn [orb]. destruct (Z.eqb_spec y x) as [E|_]; [congruence|]. eexists. reflexivity.
  - reflexivity.
  - unfold encoded, cat_labels, origins, cut, last_valid, encode. cbn [heads option_map uniq existsb map fold_left fst snd filter skipn Nat.sub orb]. rewrite ?Z.eqb_refl. cbn. rewrite ?Z.eqb_refl. reflexivity.
Qed.
(** two labels that change places: same number of columns, each read as the other *)
Theorem C300_swapped_refuted : forall x y, x <> y -> exists (f g : frame Z) ws trained predicted,
  encoded 1 [f; g] = Some ([x; y], trained) /\ windows 1 [f; g] [Nothing; Nothing] = Some ws /\ encoded 1 ws = Some ([y; x], predicted) /\
  nth_error trained 0 = Some [[true; false]; [false; true]] /\ nth_error predicted 0 = Some [[true; false]].
Proof.
  intros x y D. exists [(0, (Some 1, Some x)); (1, (Some 1, Some y))], [(0, (Some 1, Some y)); (1, (Some 1, Some x))].
  assert (E1 : x =? y = false) by (apply Z.eqb_neq; exact D). assert (E2 : y =? x = false) by (apply Z.eqb_neq; congruence). exists [[(1, (Some 1, Some y))]; [(1, (Some 1, Some x))]], [[[true; false]; [false; true]]; [[false; true]; [true; false]]], [[[true; false]]; [[false; true]]].
  split; [|split; [reflexivity|split; [|split; reflexivity]]].
  - unfold encoded, cat_labels, origins, cut, last_valid, encode. cbn [heads option_map uniq existsb map fold_left fst snd filter skipn Nat.sub orb]. rewrite E2. cbn. rewrite !Z.eqb_refl, E1, E2. reflexivity.
  - unfold encoded, cat_labels, origins, cut, last_valid, encode. cbn [heads option_map uniq existsb map fold_left fst snd filter skipn Nat.sub orb]. rewrite E1. cbn. rewrite !Z.eqb_refl, E1, E2. reflexivity.
Qed.
(** forecasting further than the horizon, from the model's own forecasts: the row forecast from has no label, whatever the series
    was labelled *)
Theorem C300_iterated_refuted : forall A L (f w : frame A) fc o m columns, is_series f -> bounds f (Forecasts fc) = Some (o, m) -> in_window L f (Forecasts fc) = Some w -> (forall t, In t (map fst f) -> t < o) ->
  forall r, In (o, r) w -> snd r = None /\ encode columns (snd r) = map (fun _ => false) columns.
Proof.
  intros A L f w fc o m columns ND B H LATE r I. apply window_shape in H as (o' & m' & B' & ->). assert (o' = o /\ m' = m) as [-> ->] by (split; congruence). apply in_map_self in I as [_ ->]. cbn [cell snd].
  assert (E : at_time f o = (None, None)). { unfold at_time. destruct (find_row f o) as [x|] eqn:E; [|reflexivity]. apply (find_in f o x ND) in E. exfalso. assert (o < o); [|lia]. apply LATE. apply in_map_iff. exists (o, x). auto. }
  rewrite E. split; reflexivity.
Qed.
(** and as soon as the window is past the end of the data, the prediction fails *)
Theorem C300_iterated_fails_refuted : forall A L (f w : frame A) fc o m fs, is_series f -> bounds f (Forecasts fc) = Some (o, m) -> in_window L f (Forecasts fc) = Some w -> (forall t, In t (map fst f) -> t < o - Z.of_nat L + 1) ->
  In w fs -> encoded L fs = None.
Proof.
  intros A L f w fc o m fs ND B H LATE I. apply C300_missing_first. unfold in_window in H. rewrite B in H. destruct (span (o - (Z.of_nat L - 1)) m) as [|t ts] eqn:SP; [discriminate|].
  assert (T : t = o - (Z.of_nat L - 1)). { unfold span in SP. destruct (Z.to_nat _) as [|n]; [discriminate|]. cbn [seq map] in SP. assert (E : o - (Z.of_nat L - 1) + Z.of_nat 0 = t) by congruence. lia. }
  assert (E : at_time f t = (None, None)). { unfold at_time. destruct (find_row f t) as [x|] eqn:E; [|reflexivity]. apply (find_in f t x ND) in E. exfalso. assert (t < o - Z.of_nat L + 1); [|lia]. apply LATE. apply in_map_iff. exists (t, x). auto. }
  exists w, t, (fst (cell f (Forecasts fc) o t)), (map (fun t => (t, cell f (Forecasts fc) o t)) ts). split; [exact I|]. assert (EW : w = map (fun t => (t, cell f (Forecasts fc) o t)) (t :: ts)) by congruence. rewrite EW. cbn [map]. apply f_equal2; [|reflexivity]. apply f_equal. cbn [cell fst]. rewrite E. reflexivity.
Qed.
(** ** Cases *)
Example C300_case : let f := [(0, (Some 1, Some 5)); (1, (Some 2, Some 5)); (2, (Some 3, Some 5))] in let g := [(0, (Some 7, Some 4)); (1, (Some 8, Some 4))] in
  encoded 2 [f; g] = Some ([5; 4], [[[true; false]; [true; false]]; [[false; true]]]) /\
  (exists ws, windows 2 [f; g] [Nothing; Nothing] = Some ws /\ encoded 2 ws = Some ([5; 4], [[[true; false]]; [[false; true]]])) /\
  (exists w, in_window 2 f (Forecasts [(3, 4); (4, 5)]) = Some w /\ encoded 2 [w] = None) /\
  (exists w, in_window 2 f (Forecasts [(3, 4); (5, 6)]) = Some w /\ encoded 2 [w] = Some ([5], [[[false]]])).
Proof. cbv zeta. split; [reflexivity|]. split; [eexists; split; reflexivity|]. split; (eexists; split; reflexivity). Qed.

Print Assumptions C300_columns.
Print Assumptions C300_rows.
Print Assumptions C300_missing_first.
Print Assumptions C300_same_partial.
Print Assumptions C300_changed_refuted.
Print Assumptions C300_swapped_refuted.
Print Assumptions C300_iterated_refuted.
Print Assumptions C300_iterated_fails_refuted.
