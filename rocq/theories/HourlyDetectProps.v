(** C42, C113, C114, C115, C116: the days compared by the hourly ratio detector. *)
From Verif Require Import Common MedianSpec MedianProofs HourlyModel HourlySpec HourlyProofs HourlyProps.
From Verif Require TSDataModel TSDataSpec TSDataProofs MetricsModel.
From Coq Require Import Permutation Sorted.
Open Scope Z_scope.

(** ** a date's rows depend on that date's observations only *)
Lemma dropna_app a b : dropna (a ++ b) = dropna a ++ dropna b.
Proof. unfold dropna. apply flat_map_app. Qed.
Lemma hour_of_day data d h : 0 <= h < 24 -> seen_hour data d h = filter (fun r => ((24 * d + h) * 3600000000000 <=? fst r) && (fst r <? (24 * d + h + 1) * 3600000000000)) (seen data d).
Proof.
  intros R. unfold seen_hour, seen. rewrite !seen_filter, filter_filter. apply filter_ext_in'. intros r _.
  apply eq_true_iff_eq. rewrite !andb_true_iff, !Z.leb_le, !Z.ltb_lt. lia.
Qed.
Lemma prepared_day f agg data data' d : seen data d = seen data' d ->
  filter (of_date d) (prepared f agg data) = filter (of_date d) (prepared f agg data').
Proof.
  intros E. assert (P : filter (of_date d) (plain data) = filter (of_date d) (plain data')) by (rewrite !plain_date, E; reflexivity).
  assert (G : forall a, filter (of_date d) (grouped a (plain data)) = filter (of_date d) (grouped a (plain data'))).
  { intros a. rewrite !grouped_date.
    assert (S : forall h, 0 <= h < 24 -> seen_hour data d h = seen_hour data' d h) by (intros h R; rewrite !hour_of_day, E by exact R; reflexivity).
    assert (H : hours_of data d = hours_of data' d).
    { unfold hours_of. apply filter_ext_in'. intros h I. apply in_hours in I. rewrite (S h I). reflexivity. }
    rewrite H. apply map_ext_in. intros h I. apply hours_in in I as [I _]. rewrite (S h I). reflexivity. }
  unfold prepared. fold (plain data). fold (plain data'). destruct f, agg; try exact P; apply G.
Qed.
(** Whatever the other days hold, and whether or not they are complete, a day's rows are the same. *)
Theorem C42_independent : forall f agg data data' inc inc' rows rows' d,
  preprocess f agg data = Some (inc, rows) -> preprocess f agg data' = Some (inc', rows') ->
  seen data d = seen data' d ->
  filter (fun r => h_date (r_row r) =? d) rows = filter (fun r => h_date (r_row r) =? d) rows' /\ (In d inc <-> In d inc').
Proof.
  intros f agg data data' inc inc' rows rows' d H H' E. pose proof (prepared_day f agg _ _ _ E) as P.
  split.
  - pose proof (rows_date _ _ _ _ _ d H) as R. pose proof (rows_date _ _ _ _ _ d H') as R'. cbv zeta in R, R'. unfold day_rows, count in R, R'. rewrite P in R. congruence.
  - rewrite (inc_date _ _ _ _ _ d H), (inc_date _ _ _ _ _ d H'). unfold count. rewrite P. reflexivity.
Qed.

(** ** C113: every date is accounted for, with one row per hour *)
Definition hourly_data (d : Z) (v : Z -> Q) : list (Z * option Q) :=
  map (fun k => (d * day_ns + Z.of_nat k * hour_ns, Some (v (Z.of_nat k)))) (seq 0 24).
(** a day of half-hourly observations next to a complete one *)
Definition half_hours (d : Z) : list (Z * option Q) :=
  map (fun k => (d * day_ns + Z.of_nat k * (hour_ns / 2), Some 1%Q)) (seq 0 48).
Theorem C113_dates_refuted : exists data inc rows,
  preprocess Hourly None data = Some (inc, rows) /\
  seen data 1 <> [] /\ ~ In 1 inc /\ forall r, In r rows -> h_date (r_row r) <> 1.
Proof.
  exists (hourly_data 0 (fun _ => 1%Q) ++ half_hours 1).
  destruct (preprocess Hourly None (hourly_data 0 (fun _ => 1%Q) ++ half_hours 1)) as [[inc rows]|] eqn:E.
  - exists inc, rows. split; [reflexivity|]. destruct (C42_hourly _ _ _ _ _ (or_introl eq_refl) E 1) as (A & B & _).
    assert (L : length (seen (hourly_data 0 (fun _ => 1%Q) ++ half_hours 1) 1) = 48%nat) by (vm_compute; reflexivity).
    split; [intros C; rewrite C in L; discriminate L|]. split; [rewrite A, L; lia|]. apply B. rewrite L. discriminate.
  - exfalso. revert E. vm_compute. discriminate.
Qed.
(** a day with 24 observations, hour 0 twice and hour 23 never *)
Definition twice (d : Z) : list (Z * option Q) :=
  (d * day_ns + 1, Some 5%Q) :: map (fun k => (d * day_ns + Z.of_nat k * hour_ns, Some 1%Q)) (seq 0 23).
Theorem C113_hours_refuted : exists data inc rows,
  preprocess Hourly None data = Some (inc, rows) /\ ~ In 0 inc /\
  (exists r, In r rows /\ h_date (r_row r) = 0) /\
  (forall r, In r rows -> h_date (r_row r) = 0 -> h_hour (r_row r) <> 23) /\
  length (filter (fun r => h_hour (r_row r) =? 0) rows) = 2%nat.
Proof.
  exists (twice 0). do 2 eexists. split; [vm_compute; reflexivity|]. split; [intros []|]. split.
  - eexists. split; [left; reflexivity|reflexivity].
  - split; [|reflexivity]. intros r I. repeat (destruct I as [<-|I]; [intros _; discriminate|]). destruct I.
Qed.
(** When the data are aggregated every observed date is kept or reported, never both. *)
Theorem C113_dates_partial : forall f a data inc rows, f <> Hourly ->
  preprocess f (Some a) data = Some (inc, rows) -> forall d, seen data d <> [] ->
  (In d inc /\ (forall r, In r rows -> h_date (r_row r) <> d)) \/
  (~ In d inc /\ map (fun r => h_hour (r_row r)) (filter (fun r => h_date (r_row r) =? d) rows) = map Z.of_nat (seq 0 24)).
Proof.
  intros f a data inc rows Hf H d N. destruct (C42_aggregated _ _ _ _ _ Hf H d) as (A & B & C). cbv zeta in A, B, C.
  assert (Dec : (forall h, 0 <= h < 24 -> seen_hour data d h <> []) \/ ~ (forall h, 0 <= h < 24 -> seen_hour data d h <> [])).
  { destruct (length (hours_of data d) =? 24)%nat eqn:E; [left; apply hours_all, E|right]. intros C'. apply hours_all in C'. congruence. }
  destruct Dec as [F|F]; [right|left].
  - split; [rewrite A; tauto|]. apply (C F).
  - split; [apply A; auto|apply B, F].
Qed.

(** ** the detector *)
Lemma all_some_spec {A} (l : list (option A)) x : all_some l = Some x <-> l = map Some x.
Proof.
  revert x. induction l as [|[a|] l IH]; intros x; cbn.
  - split; [intros H; injection H as <-; reflexivity|destruct x; [reflexivity|discriminate]].
  - split.
    + destruct (all_some l) as [y|] eqn:E; [|discriminate]. intros H. injection H as <-. cbn. f_equal. apply IH. reflexivity.
    + destruct x as [|b x]; [discriminate|]. cbn. intros H. injection H as -> H. apply IH in H. rewrite H. reflexivity.
  - split; [discriminate|]. destruct x; discriminate.
Qed.
Lemma chunks_concat {A} k (ls : list (list A)) : (1 <= k)%nat -> (forall l, In l ls -> length l = k) ->
  forall n, (length (concat ls) <= n)%nat -> chunks n k (concat ls) = ls.
Proof.
  intros Hk. induction ls as [|l ls IH]; intros H n Hn.
  - destruct n; reflexivity.
  - cbn [concat] in *. pose proof (H l (or_introl eq_refl)) as L. rewrite app_length in Hn. destruct n as [|n]; [lia|].
    assert (NE : exists a r, l ++ concat ls = a :: r) by (destruct l as [|a r]; [cbn in L; lia|eexists; eexists; reflexivity]).
    cbn [chunks]. destruct NE as (a & r & E). rewrite E. rewrite <- E.
    rewrite firstn_app, skipn_app, L, Nat.sub_diag, <- L, firstn_all, skipn_all. cbn [firstn skipn]. rewrite app_nil_r. cbn [app]. f_equal.
    rewrite L. apply IH; [intros; apply H; right; assumption|lia].
Qed.
Lemma combine_nth' {A B} (l : list A) (r : list B) i a b : length l = length r -> nth i (combine l r) (a, b) = (nth i l a, nth i r b).
Proof. apply combine_nth. Qed.
Lemma minus_nth x y i : length x = length y -> (nth i (minus x y) 0 == nth i x 0 - nth i y 0)%Q.
Proof.
  revert y i. induction x as [|a x IH]; intros [|b y] i H; try discriminate; [destruct i; cbn; ring|]. destruct i; [cbn; ring|].
  unfold minus in *. cbn. apply IH. cbn in H. lia.
Qed.
Lemma minus_len x y : length x = length y -> length (minus x y) = length x.
Proof. intros H. unfold minus. rewrite map_length, combine_length. lia. Qed.
Lemma dot_sumn x y : length x = length y -> (dot x y == sumn (length x) (fun i => nth i x 0 * nth i y 0))%Q.
Proof.
  revert y. induction x as [|a x IH]; intros [|b y] H; try discriminate; [reflexivity|].
  unfold dot in *. cbn [combine map qsum fst snd length]. rewrite IH by (cbn in H; lia). rewrite sumn_S_first. cbn [nth]. reflexivity.
Qed.
Lemma score_quadratic p x : length p = length x -> (forall row, In row p -> length row = length x) ->
  (score p x == quadratic p x)%Q.
Proof.
  intros L R. unfold score, quadratic. rewrite dot_sumn by (rewrite map_length; auto). apply sumn_ext. intros i Hi.
  assert (E : nth i (map (fun row => dot row x) p) 0%Q = dot (nth i p []) x).
  { rewrite (nth_indep _ 0%Q (dot [] x)) by (rewrite map_length; lia). apply (map_nth (fun row => dot row x)). }
  rewrite E. assert (LI : length (nth i p []) = length x) by (apply R, nth_In; lia).
  rewrite dot_sumn by exact LI. rewrite LI. rewrite <- sumn_scale. apply sumn_ext. intros j Hj. ring.
Qed.
Lemma weekday_falls w d : falls_on w d <-> weekday d = w.
Proof.
  unfold falls_on, weekday. split.
  - intros (k & -> & R). symmetry. apply (Z.mod_unique _ 7 k w); lia.
  - intros <-. exists ((d + 3) / 7). pose proof (Z.div_mod (d + 3) 7 ltac:(lia)). pose proof (Z.mod_pos_bound (d + 3) 7 ltac:(lia)). lia.
Qed.
Definition pat (rows : list ratio_row) (d : Z) : list Q := map (fun r => number (r_ratio r)) (day_rows d rows).
Definition rdate (r : ratio_row) : Z := h_date (r_row r).
(** what is known of a prepared table *)
Definition table_ok (rows : list ratio_row) : Prop :=
  StronglySorted (fun a b => rdate a <= rdate b) rows /\ forall r, In r rows -> length (day_rows (rdate r) rows) = 24%nat.
Lemma prepared_sorted f agg data : StronglySorted (fun a b => h_date a <= h_date b) (prepared f agg data).
Proof.
  assert (P : StronglySorted (fun a b => h_date a <= h_date b) (plain data)).
  { eapply sorted_weaken; [|apply plain_sorted]. cbn. intros a b [L|[L _]]; lia. }
  assert (G : forall a, StronglySorted (fun a b => h_date a <= h_date b) (grouped a (plain data))).
  { intros a. unfold grouped. apply (sorted_map (fun x y : Z * Z => fst x <= fst y)); [intros x y H; exact H|].
    apply (uniq_sorted _ keyb_iff (fun x y => fst x <= fst y)); [auto|]. apply (sorted_map (fun a b => h_date a <= h_date b)); [intros x y H; exact H|exact P]. }
  unfold prepared. fold (plain data). destruct f, agg; try exact P; apply G.
Qed.
Lemma pre_table f agg data inc rows : preprocess f agg data = Some (inc, rows) -> table_ok rows.
Proof.
  intros H. destruct (pre_inv _ _ _ _ _ H) as (_ & E & _). split.
  - rewrite E. apply (sorted_map (fun a b => h_date a <= h_date b)); [intros x y L; exact L|]. apply sorted_filter, prepared_sorted.
  - intros r I. rewrite E in I. apply in_map_iff in I as (x & <- & I). unfold rdate. cbn [r_row].
    unfold keep in I. apply filter_In in I as [I C]. pose proof (rows_date _ _ _ _ _ (h_date x) H) as R. cbv zeta in R. rewrite C in R. rewrite R, map_length. apply Nat.eqb_eq in C. exact C.
Qed.
Definition kept_days (rows : list ratio_row) (w : Z) : list Z :=
  uniq Z.eqb (map rdate (filter (fun r => weekday (rdate r) =? w) rows)).
Lemma kept_days_in rows w d : In d (kept_days rows w) <-> weekday d = w /\ exists r, In r rows /\ rdate r = d.
Proof.
  unfold kept_days. rewrite (uniq_in _ zeqb_iff), in_map_iff. split.
  - intros (r & <- & I). apply filter_In in I as [I W]. apply Z.eqb_eq in W. eauto.
  - intros (W & r & I & <-). exists r. split; [reflexivity|]. apply filter_In. split; [exact I|]. apply Z.eqb_eq, W.
Qed.
Lemma kept_days_sorted rows w : table_ok rows -> StronglySorted Z.lt (kept_days rows w).
Proof.
  intros [S _]. apply (uniq_sorted _ zeqb_iff Z.le); [intros; lia|].
  apply (sorted_map (fun a b => rdate a <= rdate b)); [intros a b H; exact H|]. apply sorted_filter, S.
Qed.
Lemma weekday_rows rows w : table_ok rows ->
  filter (fun r => weekday (rdate r) =? w) rows = flat_map (fun d => day_rows d rows) (kept_days rows w).
Proof.
  intros [S _]. rewrite (grouped_sorted rdate (filter (fun r => weekday (rdate r) =? w) rows)) at 1 by (apply sorted_filter, S).
  fold (kept_days rows w). assert (G : forall D, (forall d, In d D -> weekday d = w) ->
    flat_map (fun d => filter (fun r => rdate r =? d) (filter (fun r => weekday (rdate r) =? w) rows)) D = flat_map (fun d => day_rows d rows) D).
  { induction D as [|d D IH]; intros HD; [reflexivity|]. cbn [flat_map]. rewrite IH by (intros; apply HD; right; assumption). f_equal.
    rewrite filter_filter. unfold day_rows. apply filter_ext_in'. intros r _. fold (rdate r). destruct (Z.eqb_spec (rdate r) d) as [->|]; [|apply andb_false_r].
    rewrite (HD d (or_introl eq_refl)), Z.eqb_refl. reflexivity. }
  apply G. intros d I. apply kept_days_in in I. apply I.
Qed.
Lemma flat_concat {A B C} (g : B -> C) (f : A -> list B) l : map g (flat_map f l) = concat (map (fun x => map g (f x)) l).
Proof. induction l as [|x l IH]; [reflexivity|]. cbn. rewrite map_app, IH. reflexivity. Qed.
Lemma numbers_of {A} (g : A -> option Q) l x : map g l = map Some x -> map (fun a => number (g a)) l = x.
Proof.
  revert x. induction l as [|a l IH]; intros [|y x] H; try discriminate; [reflexivity|]. cbn in *. injection H as E H. rewrite E. cbn. f_equal. apply IH, H.
Qed.
Lemma weekday_obs rows w l : table_ok rows ->
  all_some (map r_ratio (filter (fun r => weekday (h_date (r_row r)) =? w) rows)) = Some l ->
  chunks (length l) 24 l = map (pat rows) (kept_days rows w) /\ (l = [] <-> kept_days rows w = []) /\
  forall r, In r rows -> weekday (rdate r) = w -> exists x, r_ratio r = Some x.
Proof.
  intros T H. apply all_some_spec in H.
  assert (L24 : forall o, In o (map (pat rows) (kept_days rows w)) -> length o = 24%nat).
  { intros o I. apply in_map_iff in I as (d & <- & I). apply kept_days_in in I as (_ & r & I & <-). unfold pat. rewrite map_length. apply T, I. }
  assert (E : l = concat (map (pat rows) (kept_days rows w))).
  { rewrite <- (numbers_of r_ratio _ _ H). change (filter (fun r => weekday (h_date (r_row r)) =? w) rows) with (filter (fun r => weekday (rdate r) =? w) rows).
    rewrite (weekday_rows _ _ T), flat_concat. reflexivity. }
  split; [|split].
  - rewrite E at 2. apply chunks_concat; [lia|exact L24|rewrite <- E; lia].
  - rewrite E. split; [|intros ->; reflexivity]. intros C. destruct (kept_days rows w) as [|d D]; [reflexivity|]. cbn in C. apply app_eq_nil in C as [C _].
    specialize (L24 (pat rows d) (or_introl eq_refl)). rewrite C in L24. discriminate.
  - intros r I W. assert (J : In (r_ratio r) (map r_ratio (filter (fun r => weekday (h_date (r_row r)) =? w) rows))).
    { apply in_map. apply filter_In. split; [exact I|]. apply Z.eqb_eq, W. }
    rewrite H in J. apply in_map_iff in J as (x & Ex & _). exists x. auto.
Qed.
Lemma medians_ok rows D h : (h < 24)%nat -> median_of (map (fun d => nth h (pat rows d) 0%Q) D) (nth h (medians (map (pat rows) D)) 0%Q).
Proof.
  intros Hh. unfold medians.
  rewrite (nth_indep _ 0%Q (MetricsModel.qmedian (map (fun r => nth 24%nat r 0%Q) (map (pat rows) D)))) by (rewrite map_length, seq_length; exact Hh).
  rewrite (map_nth (fun j => MetricsModel.qmedian (map (fun r => nth j r 0%Q) (map (pat rows) D)))), seq_nth by exact Hh.
  cbn [Nat.add]. rewrite map_map. apply qmedian_spec.
Qed.
Lemma nth_number {A} (g : A -> option Q) l h : nth h (map (fun a => number (g a)) l) 0%Q = number (nth h (map g l) None).
Proof. revert h. induction l as [|a l IH]; intros [|h]; cbn; auto. Qed.
Lemma nth_first {A} n (l : list A) i d : (i < n)%nat -> nth i (firstn n l) d = nth i l d.
Proof. revert l i. induction n as [|n IH]; intros [|x l] [|i] H; cbn; try lia; try reflexivity. apply IH. lia. Qed.

(** ** C114: which days are reported *)
Section Detect.
Variable precision : list (list Q) -> option (list (list Q)).
Variable tail : Q -> Q.
Hypothesis tail_ext : forall x y, (x == y)%Q -> (tail x == tail y)%Q.
Hypothesis precision_shape : forall x p, precision x = Some p -> length p = 23%nat /\ forall row, In row p -> length row = 23%nat.

(** one weekday: the days compared, the medians, the differences, the matrix, and what is reported *)
Definition compared (rows : list ratio_row) (w : Z) (days : list Z) (typical : list Q) (x p : list (list Q)) : Prop :=
  days <> [] /\ StronglySorted Z.lt days /\
  (forall d, In d days <-> falls_on w d /\ exists r, In r rows /\ h_date (r_row r) = d) /\
  length typical = 24%nat /\ ~ (qsum typical == 0)%Q /\
  (forall h, (h < 24)%nat ->
     median_of (map (fun d => number (nth h (map r_ratio (filter (fun r => h_date (r_row r) =? d) rows)) None)) days) (nth h typical 0%Q)) /\
  precision x = Some p /\ length x = length days /\
  (forall i, (i < length days)%nat -> length (nth i x []) = 23%nat /\ forall h, (h < 23)%nat ->
     (nth h (nth i x []) 0 == number (nth h (map r_ratio (filter (fun r => h_date (r_row r) =? nth i days 0%Z) rows)) None)
                              - 24 * (nth h typical 0 / qsum typical))%Q).
Lemma weekday_ok rows w out : table_ok rows -> one_weekday precision tail rows w = Some out ->
  exists days typical x p, compared rows w days typical x p /\
    (forall r, In r rows -> weekday (rdate r) = w -> exists x, r_ratio r = Some x) /\
    out = map (fun dp => (fst dp, (1 - snd dp)%Q)) (filter (fun dp => Qle_bool (snd dp) (1 # 100)) (combine days (map (fun d => tail (score p d)) x))).
Proof.
  intros T H. unfold one_weekday in H.
  destruct (all_some (map r_ratio (filter (fun r => weekday (h_date (r_row r)) =? w) rows))) as [l|] eqn:E; [|discriminate].
  destruct (weekday_obs _ _ _ T E) as (EO & NE & AS).
  assert (NL : l <> []) by (intros ->; discriminate). destruct l as [|a l']; [congruence|]. set (l := a :: l') in *.
  rewrite EO in H. set (obs := map (pat rows) (kept_days rows w)) in *.
  destruct (centre obs) as [c|] eqn:EC; [|discriminate].
  destruct (precision (map (fun o => minus (firstn 23 o) c) obs)) as [p|] eqn:EP; [|discriminate]. injection H as H.
  unfold centre in EC. destruct (Qeq_bool (qsum (medians obs)) 0) eqn:EQ; [discriminate|].
  assert (NQ : ~ (qsum (medians obs) == 0)%Q) by (intros C; apply Qeq_bool_iff in C; congruence).
  assert (LM : length (medians obs) = 24%nat) by (unfold medians; rewrite map_length, seq_length; reflexivity).
  assert (Ec : c = firstn 23 (map (fun x => x / qsum (medians obs) * 24)%Q (medians obs))) by congruence. clear EC.
  assert (LC : length c = 23%nat) by (rewrite Ec, firstn_length, map_length, LM; reflexivity).
  assert (NC : forall h, (h < 23)%nat -> (nth h c 0 == 24 * (nth h (medians obs) 0 / qsum (medians obs)))%Q).
  { intros h Hh. rewrite Ec, nth_first by exact Hh.
    rewrite (nth_indep _ 0%Q (0 / qsum (medians obs) * 24)%Q) by (rewrite map_length; lia).
    rewrite (map_nth (fun x => x / qsum (medians obs) * 24)%Q). ring. }
  exists (kept_days rows w), (medians obs), (map (fun o => minus (firstn 23 o) c) obs), p.
  split; [|split; [exact AS|]].
  - refine (conj _ (conj _ (conj _ (conj LM (conj NQ (conj _ (conj EP (conj _ _)))))))).
    + intros C. apply NE in C. congruence.
    + apply kept_days_sorted, T.
    + intros d. rewrite kept_days_in, weekday_falls. reflexivity.
    + intros h Hh. pose proof (medians_ok rows (kept_days rows w) h Hh) as M. fold obs in M. erewrite map_ext; [exact M|]. intros d. unfold pat, day_rows. symmetry. apply nth_number.
    + unfold obs. rewrite !map_length. reflexivity.
    + intros i Hi.
      assert (L24 : length (pat rows (nth i (kept_days rows w) 0)) = 24%nat).
      { assert (I : In (nth i (kept_days rows w) 0) (kept_days rows w)) by (apply nth_In, Hi). apply kept_days_in in I as (_ & r & I & Er). unfold pat. rewrite map_length, <- Er. apply T, I. }
      assert (EI : nth i (map (fun o => minus (firstn 23 o) c) obs) [] = minus (firstn 23 (pat rows (nth i (kept_days rows w) 0))) c).
      { unfold obs. rewrite map_map. rewrite (nth_indep _ [] (minus (firstn 23 (pat rows 0)) c)) by (rewrite map_length; exact Hi).
        apply (map_nth (fun d => minus (firstn 23 (pat rows d)) c)). }
      assert (LF : length (firstn 23 (pat rows (nth i (kept_days rows w) 0))) = length c) by (rewrite firstn_length, L24, LC; reflexivity).
      rewrite EI. split; [rewrite minus_len by exact LF; rewrite LF; exact LC|].
      intros h Hh. rewrite minus_nth by exact LF. rewrite nth_first by exact Hh. rewrite (NC h Hh).
      unfold pat, day_rows. rewrite nth_number. reflexivity.
  - rewrite <- H. reflexivity.
Qed.
(** The reported dates are exactly the kept days whose distance is significant at the 1% level, each
    reported once with confidence one minus its p-value.  For each weekday the distance of a day is the
    quadratic form of its own first 23 ratios minus 24 times the normalised medians of the days of that
    weekday.  All seven weekdays need kept days. *)
Theorem C114_flagged : forall f agg data inc rows res,
  preprocess f agg data = Some (inc, rows) -> detector precision tail f agg data = Some res ->
  NoDup (map fst res) /\
  (forall d c, In (d, c) res -> exists r, In r rows /\ h_date (r_row r) = d) /\
  (forall r, In r rows -> exists x, r_ratio r = Some x) /\
  forall w, 0 <= w < 7 -> exists days typical x p, compared rows w days typical x p /\
    forall i, (i < length days)%nat ->
      (forall c, In (nth i days 0, c) res -> (c == 1 - tail (quadratic p (nth i x [])))%Q) /\
      ((exists c, In (nth i days 0, c) res) <-> (tail (quadratic p (nth i x [])) <= 1 # 100)%Q).
Proof.
  intros f agg data inc rows res HP HD. pose proof (pre_table _ _ _ _ _ HP) as T. unfold detector in HD.
  destruct (valid_frequency f agg); [|discriminate]. rewrite HP in HD.
  destruct (all_some (map (one_weekday precision tail rows) [0; 1; 2; 3; 4; 5; 6])) as [outs|] eqn:EA; [|discriminate]. cbn in HD. injection HD as <-.
  apply all_some_spec in EA.
  assert (W : forall w, 0 <= w < 7 -> one_weekday precision tail rows w = Some (nth (Z.to_nat w) outs [])).
  { intros w R. cbn in EA. destruct outs as [|o0 [|o1 [|o2 [|o3 [|o4 [|o5 [|o6 [|]]]]]]]]; try discriminate. injection EA as E0 E1 E2 E3 E4 E5 E6.
    assert (C : w = 0 \/ w = 1 \/ w = 2 \/ w = 3 \/ w = 4 \/ w = 5 \/ w = 6) by lia.
    destruct C as [->|[->|[->|[->|[->|[->| ->]]]]]]; assumption. }
  assert (L7 : length outs = 7%nat) by (apply (f_equal (@length _)) in EA; rewrite !map_length in EA; symmetry; exact EA).
  assert (IN : forall d c, In (d, c) (concat outs) <-> exists w, 0 <= w < 7 /\ In (d, c) (nth (Z.to_nat w) outs [])).
  { intros d c. rewrite in_concat. split.
    - intros (o & Io & I). apply (In_nth _ _ []) in Io as (n & Hn & <-). exists (Z.of_nat n). rewrite Nat2Z.id. split; [lia|exact I].
    - intros (w & R & I). exists (nth (Z.to_nat w) outs []). split; [apply nth_In; lia|exact I]. }
  assert (KEY : forall w, 0 <= w < 7 -> exists days typical x p, compared rows w days typical x p /\
     (forall r, In r rows -> weekday (rdate r) = w -> exists x, r_ratio r = Some x) /\
     nth (Z.to_nat w) outs [] = map (fun dp => (fst dp, (1 - snd dp)%Q)) (filter (fun dp => Qle_bool (snd dp) (1 # 100)) (combine days (map (fun d => tail (score p d)) x)))).
  { intros w R. apply (weekday_ok _ _ _ T (W w R)). }
  assert (WD : forall w d c, 0 <= w < 7 -> In (d, c) (nth (Z.to_nat w) outs []) -> falls_on w d /\ exists r, In r rows /\ h_date (r_row r) = d).
  { intros w d c R I. destruct (KEY w R) as (days & typical & x & p & C & _ & E). rewrite E in I. apply in_map_iff in I as ([d' v] & Ed & I). cbn in Ed. injection Ed as -> _.
    apply filter_In in I as [I _]. apply in_combine_l in I. apply C, I. }
  assert (ND : forall w, 0 <= w < 7 -> NoDup (map fst (nth (Z.to_nat w) outs []))).
  { intros w R. destruct (KEY w R) as (days & typical & x & p & C & _ & E). rewrite E, map_map. cbn [fst].
    destruct C as (_ & S & _). assert (N : NoDup days).
    { clear - S. induction S as [|d D S IH F]; constructor; [|exact IH]. intros I. rewrite Forall_forall in F. specialize (F d I). lia. }
    generalize (map (fun d => tail (score p d)) x). clear - N. induction N as [|d D N1 N2 IH]; intros q; [constructor|]. destruct q as [|v q]; [constructor|]. cbn [combine filter snd].
    destruct (Qle_bool v (1 # 100)); [|apply IH]. cbn [map]. constructor; [|apply IH]. intros I. apply in_map_iff in I as ([d' v'] & Ed & I). cbn in Ed. subst d'. apply filter_In in I as [I _]. apply in_combine_l in I. auto. }
  split; [|split; [|split]].
  - assert (G : forall n k, (forall i, (i < n)%nat -> NoDup (map fst (nth (k + i) outs []))) ->
       (forall i j d, (i < n)%nat -> (j < n)%nat -> In d (map fst (nth (k + i) outs [])) -> In d (map fst (nth (k + j) outs [])) -> i = j) ->
       NoDup (map fst (concat (map (fun i => nth (k + i) outs []) (seq 0 n))))).
    { clear. induction n as [|n IH]; intros k A B; [constructor|]. rewrite seq_S, map_app, concat_app, map_app. cbn [map concat]. rewrite app_nil_r. cbn [Nat.add].
      assert (AP : forall l1 l2 : list Z, NoDup l1 -> NoDup l2 -> (forall d, In d l1 -> In d l2 -> False) -> NoDup (l1 ++ l2)).
      { clear. induction l1 as [|x l1 IH]; intros l2 N1 N2 D; [exact N2|]. inversion N1; subst. cbn. constructor.
        - rewrite in_app_iff. intros [I|I]; [auto|]. apply (D x); [left; reflexivity|exact I].
        - apply IH; auto. intros d I. apply D. right; exact I. }
      apply AP; [apply IH; [intros; apply A; lia|intros i j d Hi Hj; apply B; lia]|apply A; lia|].
      intros d I J. apply in_map_iff in I as ([d' c] & Ed & I). cbn in Ed. subst d'. apply in_concat in I as (o & Io & I). apply in_map_iff in Io as (i & <- & Ii). apply in_seq in Ii.
      assert (i = n); [|lia]. apply (B i n d); [lia|lia|apply in_map_iff; exists (d, c); auto|exact J]. }
    specialize (G 7%nat 0%nat). cbn [Nat.add] in G.
    assert (EO : map (fun i => nth i outs []) (seq 0 7) = outs).
    { rewrite <- L7. clear. induction outs as [|o outs IH]; [reflexivity|]. cbn [length seq map nth]. f_equal. rewrite <- seq_shift, map_map. exact IH. }
    rewrite EO in G. apply G.
    + intros i Hi. specialize (ND (Z.of_nat i) ltac:(lia)). rewrite Nat2Z.id in ND. exact ND.
    + intros i j d Hi Hj Ii Ij. apply in_map_iff in Ii as ([d1 c1] & E1 & I1). apply in_map_iff in Ij as ([d2 c2] & E2 & I2). cbn in E1, E2. subst d1 d2.
      assert (F1 : falls_on (Z.of_nat i) d) by (apply (WD (Z.of_nat i) d c1); [lia|rewrite Nat2Z.id; exact I1]).
      assert (F2 : falls_on (Z.of_nat j) d) by (apply (WD (Z.of_nat j) d c2); [lia|rewrite Nat2Z.id; exact I2]).
      apply weekday_falls in F1, F2. lia.
  - intros d c I. apply IN in I as (w & R & I). apply (WD w d c R I).
  - intros r I. assert (R : 0 <= weekday (rdate r) < 7) by (unfold weekday; apply Z.mod_pos_bound; lia).
    destruct (KEY _ R) as (_ & _ & _ & _ & _ & A & _). apply (A r I eq_refl).
  - intros w R. destruct (KEY w R) as (days & typical & x & p & C & _ & E). exists days, typical, x, p. split; [exact C|].
    intros i Hi. destruct C as (_ & S & HD & _ & _ & _ & EP & LX & HX).
    destruct (precision_shape _ _ EP) as [LP RP]. destruct (HX i Hi) as [LXi _].
    assert (SQ : (tail (score p (nth i x [])) == tail (quadratic p (nth i x [])))%Q).
    { apply tail_ext, score_quadratic; [rewrite LP, LXi; reflexivity|]. intros row I. rewrite LXi. apply RP, I. }
    assert (PAIR : forall v, In (nth i days 0, v) (combine days (map (fun d => tail (score p d)) x)) <-> v = tail (score p (nth i x []))).
    { assert (N : NoDup days).
      { clear - S. induction S as [|d D S IH F]; constructor; [|exact IH]. intros I. rewrite Forall_forall in F. specialize (F d I). lia. }
      intros v. split.
      - intros I. apply (In_nth _ _ (0, tail (score p []))) in I as (j & Hj & Ej). rewrite combine_length, map_length, LX in Hj.
        rewrite combine_nth in Ej by (rewrite map_length; auto). injection Ej as E1 E2.
        assert (i = j). { apply (proj1 (NoDup_nth days 0) N); [exact Hi|lia|congruence]. } subst j. rewrite <- E2. apply (map_nth (fun d => tail (score p d))).
      - intros ->. assert (Q : nth i (combine days (map (fun d => tail (score p d)) x)) (0, tail (score p [])) = (nth i days 0, tail (score p (nth i x [])))).
        { rewrite combine_nth by (rewrite map_length; auto). f_equal. apply (map_nth (fun d => tail (score p d))). }
        rewrite <- Q. apply nth_In. rewrite combine_length, map_length, LX. lia. }
    assert (FW : falls_on w (nth i days 0)) by (apply HD, nth_In, Hi).
    assert (OW : forall c, In (nth i days 0, c) (concat outs) <-> (c = (1 - tail (score p (nth i x []))))%Q /\ (tail (score p (nth i x [])) <= 1 # 100)%Q).
    { intros c. rewrite IN. split.
      - intros (w' & R' & I). assert (F' : falls_on w' (nth i days 0)) by (apply (WD w' _ c R' I)). apply weekday_falls in FW, F'. assert (EW : w' = w) by lia. rewrite EW in I. clear EW F'.
        rewrite E in I. apply in_map_iff in I as ([d v] & Ed & I). cbn in Ed. injection Ed as -> <-. apply filter_In in I as [I Q]. cbn in Q. apply PAIR in I. subst v. split; [reflexivity|]. apply Qle_bool_iff, Q.
      - intros [-> Q]. exists w. split; [exact R|]. rewrite E. apply in_map_iff. exists (nth i days 0, tail (score p (nth i x []))). split; [reflexivity|]. apply filter_In. split; [apply PAIR; reflexivity|]. apply Qle_bool_iff, Q. }
    split.
    + intros c I. apply OW in I as [-> _]. rewrite SQ. reflexivity.
    + rewrite <- SQ. split; [intros (c & I); apply OW in I; apply I|]. intros Q. eexists. apply OW. split; [reflexivity|exact Q].
Qed.
End Detect.

Print Assumptions C42_independent.
Print Assumptions C113_dates_refuted.
Print Assumptions C113_hours_refuted.
Print Assumptions C113_dates_partial.
Print Assumptions C114_flagged.
