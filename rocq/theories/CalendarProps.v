(** C53: calendar features; C125: circular encoding. *)
From Coq Require Import List ZArith Lia Bool Reals Lra.
From Verif Require Import CalendarModel CalendarSpec.
Import ListNotations.
Open Scope Z_scope.

(** ** The calendar *)
Lemma mod_divide k y : 0 < k -> (y mod k =? 0) = true <-> (k | y).
Proof. intros H. rewrite Z.eqb_eq. split; [intros E; apply Z.mod_divide; lia|intros E; apply Z.mod_divide in E; lia]. Qed.
Lemma leap_ok y : leap y = true <-> leap_year y.
Proof.
  unfold leap, leap_year. rewrite orb_true_iff, andb_true_iff, negb_true_iff, !mod_divide by lia. rewrite <- not_true_iff_false, mod_divide by lia.
  split; [intros [[A B]|A]|intros [A [B|B]]]; auto. split; [|auto]. destruct A as (k & ->). exists (k * 100). lia.
Qed.
Lemma length_ok y m n : 1 <= m <= 12 -> days_in y m n <-> n = month_length y m.
Proof.
  intros H. unfold days_in, month_length. destruct (leap y) eqn:L.
  - assert (LY : leap_year y) by (apply leap_ok; exact L). assert (M : In m [1;2;3;4;5;6;7;8;9;10;11;12]) by (cbn; lia). cbn in M. split.
    + intros [[A ->]|[[A ->]|[(A & _ & ->)|(_ & C & _)]]]; [| | |contradiction]; cbn in A; repeat (destruct A as [<-|A]; [reflexivity|]); try contradiction. subst; reflexivity.
    + intros ->. repeat (destruct M as [<-|M]; [cbn; tauto|]). contradiction.
  - assert (LY : ~ leap_year y) by (rewrite <- leap_ok, L; discriminate). assert (M : In m [1;2;3;4;5;6;7;8;9;10;11;12]) by (cbn; lia). cbn in M. split.
    + intros [[A ->]|[[A ->]|[(_ & C & _)|(A & _ & ->)]]]; [| |contradiction|]; cbn in A; repeat (destruct A as [<-|A]; [reflexivity|]); try contradiction. subst; reflexivity.
    + intros ->. repeat (destruct M as [<-|M]; [cbn; tauto|]). contradiction.
Qed.
Lemma days_month y m n : days_in y m n -> 1 <= m <= 12 /\ 28 <= n <= 31.
Proof. unfold days_in. cbn. lia. Qed.
Lemma month_step y m : 1 <= m < 12 -> before_month y (m + 1) = before_month y m + month_length y m.
Proof.
  intros H. unfold before_month. replace (Z.to_nat (m + 1 - 1)) with (S (Z.to_nat (m - 1))) by lia. rewrite seq_S, map_app, fold_right_app. cbn [map fold_right]. replace (Z.of_nat (1 + Z.to_nat (m - 1))) with m by lia.
  generalize (map (fun k => month_length y (Z.of_nat k)) (seq 1 (Z.to_nat (m - 1)))). intros l. induction l as [|x l IH]; cbn; lia.
Qed.
Lemma year_days y : before_month y 12 + 31 = 365 + (if leap y then 1 else 0).
Proof. unfold before_month. cbn [Z.sub Z.to_nat]. change (Z.to_nat (12 - 1)) with 11%nat. cbn. unfold month_length. cbn. destruct (leap y); reflexivity. Qed.
Lemma ordinal_next d e : follows d e -> ordinal e = ordinal d + 1.
Proof.
  intros [y m d0 _ _|y m n H D|y]; unfold ordinal; cbn [d_year d_month d_day].
  - lia.
  - destruct (days_month _ _ _ D). rewrite (length_ok y m n) in D by lia. rewrite month_step by lia. subst n. lia.
  - pose proof (year_days y) as Y. change (before_month (y + 1) 1) with 0. replace (y + 1 - 1) with y by lia.
    assert (L : (if leap y then 1 else 0) = (y / 4 - (y - 1) / 4) - (y / 100 - (y - 1) / 100) + (y / 400 - (y - 1) / 400)).
    { unfold leap. destruct (y mod 4 =? 0) eqn:A, (y mod 100 =? 0) eqn:B, (y mod 400 =? 0) eqn:C; cbn [andb orb negb];
        rewrite ?Z.eqb_eq, ?Z.eqb_neq in *; Z.to_euclidean_division_equations; lia. }
    lia.
Qed.
(** the day of the week: 1 January of year 1 was a Monday, and each day is followed by the next *)
Lemma weekday_range d : 0 <= dayofweek d <= 6.
Proof. unfold dayofweek. pose proof (Z.mod_pos_bound (ordinal d + 6) 7). lia. Qed.
Theorem C53_weekday : dayofweek (Date 1 1 1) = 0 /\ forall d e, follows d e -> dayofweek e = if dayofweek d =? 6 then 0 else dayofweek d + 1.
Proof.
  split; [reflexivity|]. intros d e F. unfold dayofweek. rewrite (ordinal_next _ _ F). destruct ((ordinal d + 6) mod 7 =? 6) eqn:E; rewrite ?Z.eqb_eq, ?Z.eqb_neq in E; Z.to_euclidean_division_equations; lia.
Qed.

(** ** The maps *)
Definition mapped (m : list (Z * Z)) (v r : Z) : Prop := In (v, r) m \/ (~ In v (map fst m) /\ r = v).
Lemma assign_length values kv result : List.length result = List.length values -> List.length (assign values kv result) = List.length values.
Proof. intros L. unfold assign. rewrite map_length, combine_length. lia. Qed.
Lemma assign_forall2 (R : Z -> Z -> Prop) values kv result : Forall2 R values result ->
  Forall2 (fun v r => (v = fst kv /\ r = snd kv) \/ (v <> fst kv /\ R v r)) values (assign values kv result).
Proof.
  induction 1 as [|v r values result H F IH]; cbn; constructor; [|exact IH]. cbn. destruct (v =? fst kv) eqn:E; [left|right]; rewrite ?Z.eqb_eq, ?Z.eqb_neq in E; auto.
Qed.
Lemma forall2_impl {A B} (R S : A -> B -> Prop) l r : (forall a b, R a b -> S a b) -> Forall2 R l r -> Forall2 S l r.
Proof. intros H. induction 1; constructor; auto. Qed.
(** every value is replaced by its own image, never by the image of an image; other values stay *)
Theorem C53_map : forall values m, NoDup (map fst m) -> Forall2 (mapped m) values (map_values values m).
Proof.
  intros values m N. unfold map_values.
  enough (G : forall done result, NoDup (map fst (done ++ m)) -> Forall2 (mapped done) values result ->
    Forall2 (mapped (done ++ m)) values (fold_left (fun result kv => assign values kv result) m result)).
  { apply (G []); [exact N|]. clear. induction values; constructor; [right; split; [intros []|reflexivity]|assumption]. }
  clear N. induction m as [|kv m IH]; intros done result N F; cbn [fold_left]; [rewrite app_nil_r; exact F|].
  replace (done ++ kv :: m) with ((done ++ [kv]) ++ m) in * by (rewrite <- app_assoc; reflexivity). apply IH; [exact N|].
  eapply forall2_impl; [|apply (assign_forall2 (mapped done)), F]. intros v r [[-> ->]|[Nv M]].
  - left. apply in_or_app. right. left. destruct kv; reflexivity.
  - destruct M as [I|[NI ->]]; [left; apply in_or_app; auto|]. right. split; [|reflexivity]. rewrite map_app, in_app_iff. cbn. intros [C|[C|[]]]; [contradiction|congruence].
Qed.
Lemma forall2_combine {A B C} (R : B -> C -> Prop) (f : A -> B) (l : list A) r : Forall2 R (map f l) r ->
  Forall (fun p => R (f (fst p)) (snd p)) (combine l r) /\ map fst (combine l r) = l.
Proof.
  revert r. induction l as [|x l IH]; intros r F; cbn in F; inversion F; subst; cbn; [split; [constructor|reflexivity]|]. destruct (IH _ H3) as [A1 A2]. split; [constructor; auto|f_equal; exact A2].
Qed.
Lemma forall2_rows {A B C} (P : A -> C -> Prop) (g : A * B -> C) (c : list (A * B)) : Forall (fun p => P (fst p) (g p)) c -> Forall2 P (map fst c) (map g c).
Proof. induction 1; cbn; constructor; auto. Qed.

(** ** Date features *)
Lemma month_end_ok d : valid d -> month_end d = true <-> last_of_month d.
Proof.
  intros (n & D & H). destruct (days_month _ _ _ D). unfold month_end, last_of_month. rewrite Z.eqb_eq. rewrite (length_ok _ _ (d_day d)) by lia. reflexivity.
Qed.
Lemma date_rows index (P : stamp -> date_row -> Prop) :
  (forall s sea, mapped season_map (d_month (local s)) sea -> P s (DateRow sea ((dayofweek (Date (d_year (utc s)) (d_month (utc s)) 1) + d_day (local s) + 6) / 7) (5 <=? dayofweek (local s))
            ((d_month (local s) =? 2) && (d_day (local s) =? 29)) (month_end (local s)) (month_end (local s) && (d_month (local s) mod 4 =? 3)))) ->
  Forall2 P index (date_features index).
Proof.
  intros H. unfold date_features.
  assert (N : NoDup (map fst season_map)) by (cbn; repeat constructor; cbn; lia).
  destruct (forall2_combine _ _ _ _ (C53_map (map (fun s => d_month (local s)) index) season_map N)) as [A E].
  rewrite <- E at 1. apply forall2_rows. rewrite Forall_forall in *. intros p Hp. cbv zeta. apply H, A, Hp.
Qed.
(** What the flags mean, for all dates: weekends are Saturdays and Sundays, leap days exist only in leap years,
    month ends are the last dates of months; the season of each month. *)
Theorem C53_flags : forall index, Forall (fun s => valid (local s)) index ->
  Forall2 (fun s r =>
    (f_weekend r = true <-> dayofweek (local s) = 5 \/ dayofweek (local s) = 6) /\
    (f_leap_day r = true <-> leap_year (d_year (local s)) /\ last_of_month (local s) /\ d_month (local s) = 2) /\
    (f_month_end r = true <-> last_of_month (local s)) /\
    In (d_month (local s), f_season r) [(1, 0); (2, 1); (3, 1); (4, 1); (5, 1); (6, 2); (7, 2); (8, 2); (9, 3); (10, 3); (11, 3); (12, 0)])
  index (date_features index).
Proof.
  intros index V. 
  assert (G : Forall2 (fun s r => valid (local s) -> (f_weekend r = true <-> dayofweek (local s) = 5 \/ dayofweek (local s) = 6) /\
    (f_leap_day r = true <-> leap_year (d_year (local s)) /\ last_of_month (local s) /\ d_month (local s) = 2) /\
    (f_month_end r = true <-> last_of_month (local s)) /\
    In (d_month (local s), f_season r) [(1, 0); (2, 1); (3, 1); (4, 1); (5, 1); (6, 2); (7, 2); (8, 2); (9, 3); (10, 3); (11, 3); (12, 0)]) index (date_features index)).
  { apply date_rows. intros s sea M Vs. cbn [f_weekend f_leap_day f_month_end f_season]. split; [|split; [|split]].
    - rewrite Z.leb_le. pose proof (weekday_range (local s)). lia.
    - rewrite andb_true_iff, !Z.eqb_eq. unfold last_of_month. destruct Vs as (n & D & Hd). destruct (days_month _ _ _ D). split.
      + intros [A B]. rewrite A, B in *. destruct D as [[C _]|[[C _]|[(_ & L & _)|(_ & _ & C)]]]; [cbn in C; lia|cbn in C; lia| |lia]. split; [exact L|]. split; [|reflexivity]. right. right. left. auto.
      + intros (L & LM & E). split; [exact E|]. destruct LM as [[C _]|[[C _]|[(_ & _ & C)|(_ & C & _)]]]; [cbn in C; lia|cbn in C; lia|exact C|contradiction].
    - apply month_end_ok, Vs.
    - destruct Vs as (n & D & _). destruct (days_month _ _ _ D) as [Hm _]. destruct M as [M|[M _]]; [|exfalso; apply M; cbn; lia].
      destruct M as [M|M]; [assert (d_month (local s) = 0) by congruence; lia|exact M]. }
  revert V. induction G; intros V; constructor; inversion V; subst; auto.
Qed.
(** "quarter ends" are the last days of March, July and November: of the four quarter ends three are missed *)
Theorem C53_quarter_end_refuted : forall index, Forall (fun s => valid (local s)) index ->
  Forall2 (fun s r => f_quarter_end r = true <-> last_of_month (local s) /\ In (d_month (local s)) [3; 7; 11]) index (date_features index).
Proof.
  intros index V.
  assert (G : Forall2 (fun s r => valid (local s) -> (f_quarter_end r = true <-> last_of_month (local s) /\ In (d_month (local s)) [3; 7; 11])) index (date_features index)).
  { apply date_rows. intros s sea _ Vs. cbn [f_quarter_end]. rewrite andb_true_iff, (month_end_ok _ Vs), Z.eqb_eq. destruct Vs as (n & D & _). destruct (days_month _ _ _ D) as [Hm _].
    apply and_iff_compat_l. cbn. split; intros H; [Z.to_euclidean_division_equations; lia|destruct H as [<-|[<-|[<-|[]]]]; reflexivity]. }
  revert V. induction G; intros V; constructor; inversion V; subst; auto.
Qed.
(** February is spring and seasons are not three months each, against the formula given in the comment *)
Theorem C53_season_refuted : exists index, Forall (fun s => valid (local s)) index /\
  ~ Forall2 (fun s r => f_season r = ((d_month (local s) + 1) mod 12) / 3) index (date_features index) /\
  ~ Forall2 (fun s r => f_season r = (d_month (local s) mod 12) / 3) index (date_features index).
Proof.
  exists [Stamp (Date 2024 2 10) (Date 2024 2 10) 0 0; Stamp (Date 2024 5 10) (Date 2024 5 10) 0 0]. split; [|split].
  - constructor; [|constructor; [|constructor]]; cbn [local].
    + exists 29. split; [|cbn; lia]. right. right. left. split; [reflexivity|]. split; [|reflexivity]. apply leap_ok. reflexivity.
    + exists 31. split; [left; cbn; tauto|cbn; lia].
  - intros F. cbn in F. inversion F; subst. inversion H4; subst. discriminate.
  - intros F. cbn in F. inversion F; subst. discriminate.
Qed.
(** Week of month, without time zone: 1 on the first of the month, and one more on each Monday after it. *)
Theorem C53_weekofmonth : forall index, Forall (fun s => utc s = local s) index ->
  Forall2 (fun s r => (d_day (local s) = 1 -> f_weekofmonth r = 1)) index (date_features index) /\
  forall s s' r r', date_features [s; s'] = [r; r'] -> utc s = local s -> utc s' = local s' ->
    follows (local s) (local s') -> d_month (local s') = d_month (local s) ->
    f_weekofmonth r' = f_weekofmonth r + (if dayofweek (local s') =? 0 then 1 else 0).
Proof.
  intros index U. split.
  - assert (G : Forall2 (fun s r => utc s = local s -> d_day (local s) = 1 -> f_weekofmonth r = 1) index (date_features index)).
    { apply date_rows. intros s sea _ Us D. cbn [f_weekofmonth]. rewrite D. pose proof (weekday_range (Date (d_year (utc s)) (d_month (utc s)) 1)). Z.to_euclidean_division_equations. lia. }
    revert U. induction G; intros U; constructor; inversion U; subst; auto.
  - intros s s' r r' E Us Us' F M. cbn in E.
    match type of E with [?x; ?y] = _ => assert (f_weekofmonth r = f_weekofmonth x /\ f_weekofmonth r' = f_weekofmonth y) as [-> ->] by (split; congruence) end. clear E. cbn [f_weekofmonth].
    rewrite Us, Us'. destruct F as [y m d _ _|y m n H D|y]; cbn [d_year d_month d_day] in *; [|lia|lia].
    assert (W : dayofweek (Date y m (d + 1)) = (dayofweek (Date y m 1) + d) mod 7).
    { unfold dayofweek, ordinal. cbn [d_year d_month d_day]. Z.to_euclidean_division_equations. lia. }
    rewrite W. pose proof (weekday_range (Date y m 1)). destruct ((dayofweek (Date y m 1) + d) mod 7 =? 0) eqn:E; rewrite ?Z.eqb_eq, ?Z.eqb_neq in E; Z.to_euclidean_division_equations; lia.
Qed.
(** With a time zone the first of the month is taken in UTC but the day locally: on the evening of 31 January
    2020 in New York the week of month is 6 instead of 5. *)
Theorem C53_weekofmonth_zone_refuted : exists s r, well_formed s /\ zoned s /\ date_features [s] = [r] /\
  f_weekofmonth r = 6 /\ exists r0, date_features [Stamp (local s) (local s) (hour s) (minute s)] = [r0] /\ f_weekofmonth r0 = 5.
Proof.
  exists (Stamp (Date 2020 1 31) (Date 2020 2 1) 20 0). eexists. split; [|split; [|split; [vm_compute; reflexivity|split; [reflexivity|]]]].
  - split; [exists 31; split; [left; cbn; tauto|cbn; lia]|cbn; lia].
  - right. right. cbn. apply (next_month 2020 1 31); [lia|]. left. cbn. tauto.
  - eexists. split; [vm_compute; reflexivity|reflexivity].
Qed.

(** ** Time features *)
Theorem C53_time : forall index, Forall well_formed index ->
  Forall2 (fun s r =>
    1 <= f_quarterhour r <= 4 /\ 15 * (f_quarterhour r - 1) <= minute s < 15 * f_quarterhour r /\
    0 <= f_hourofweek r <= 167 /\ f_hourofweek r mod 24 = hour s /\ f_hourofweek r / 24 = dayofweek (local s) /\
    f_daytime r = (if hour s <? 5 then 0 else if hour s <? 8 then 1 else if hour s <? 13 then 2 else if hour s <? 18 then 3 else if hour s <? 20 then 4 else if hour s <? 23 then 5 else 0))
  index (time_features index).
Proof.
  intros index V. unfold time_features.
  assert (N : NoDup (map fst daytime_map)) by (cbn; repeat constructor; cbn; lia).
  destruct (forall2_combine _ _ _ _ (C53_map (map hour index) daytime_map N)) as [A E].
  rewrite <- E at 1. apply forall2_rows. rewrite Forall_forall in *. intros p Hp. specialize (A p Hp).
  assert (W : well_formed (fst p)) by (apply V; rewrite <- E; apply in_map, Hp). cbv zeta. cbn [f_quarterhour f_hourofweek f_daytime]. destruct W as (_ & Hh & Hm). pose proof (weekday_range (local (fst p))) as Hw.
  split; [Z.to_euclidean_division_equations; lia|]. split; [Z.to_euclidean_division_equations; lia|]. split; [lia|]. split; [Z.to_euclidean_division_equations; lia|]. split; [Z.to_euclidean_division_equations; lia|].
  destruct A as [I|[NI _]]; [|exfalso; apply NI; cbn; lia]. clear - I. destruct p as [[l u h mi] q]; cbn [fst snd hour] in *. unfold daytime_map in I. cbn [In] in I.
  repeat (destruct I as [I|I]; [assert (h = fst (h, q)) by reflexivity; injection I as <- <-; reflexivity|]). contradiction.
Qed.

(** ** C125: circular encoding *)
Lemma cos_one x : (0 < x < 2 * PI)%R -> cos x <> 1%R.
Proof.
  intros H E. assert (S : (0 < sin (x / 2))%R) by (apply sin_gt_0; lra). pose proof (cos_2a_sin (x / 2)) as C. replace (2 * (x / 2))%R with x in C by lra. rewrite E in C. nra.
Qed.
Lemma angle_period k x : (cos (x + IZR k * (2 * PI)) = cos x /\ sin (x + IZR k * (2 * PI)) = sin x)%R.
Proof.
  assert (N : forall n x, (cos (x + INR n * (2 * PI)) = cos x /\ sin (x + INR n * (2 * PI)) = sin x)%R).
  { intros n y. rewrite <- (cos_period y n), <- (sin_period y n). split; f_equal; lra. }
  destruct (Z_le_gt_dec 0 k) as [H|H].
  - rewrite <- (Z2Nat.id k H), <- INR_IZR_INZ. apply N.
  - destruct (N (Z.to_nat (- k)) (x + IZR k * (2 * PI))%R) as [A B]. rewrite INR_IZR_INZ, Z2Nat.id in A, B by lia. rewrite opp_IZR in A, B. replace (x + IZR k * (2 * PI) + - IZR k * (2 * PI))%R with x in A, B by lra. auto.
Qed.
(** The encoding lies on the unit circle, does not depend on the reduction, and tells two values apart exactly
    when they differ modulo the period. *)
Theorem C125_circle : forall modulo period values, 0 < period ->
  circle true period values = circle false period values /\
  Forall (fun p => fst p * fst p + snd p * snd p = 1)%R (circle modulo period values) /\
  Forall2 (fun v p => Forall2 (fun v' p' => p = p' <-> (v - v') mod period = 0) values (circle modulo period values)) values (circle modulo period values).
Proof.
  intros modulo period values Hp. assert (PP : (0 < IZR period)%R) by (apply IZR_lt; exact Hp).
  assert (RED : forall v, (cos (IZR (v mod period) * (PI * 2 / IZR period)), sin (IZR (v mod period) * (PI * 2 / IZR period))) = (cos (IZR v * (PI * 2 / IZR period)), sin (IZR v * (PI * 2 / IZR period)))).
  { intros v. destruct (angle_period (v / period) (IZR (v mod period) * (PI * 2 / IZR period))) as [A B].
    assert (V : (IZR v = IZR period * IZR (v / period) + IZR (v mod period))%R) by (rewrite <- mult_IZR, <- plus_IZR; f_equal; apply Z.div_mod; lia).
    replace (IZR v * (PI * 2 / IZR period))%R with (IZR (v mod period) * (PI * 2 / IZR period) + IZR (v / period) * (2 * PI))%R by (rewrite V; field; lra). rewrite A, B. reflexivity. }
  assert (SAME : circle true period values = circle false period values) by (unfold circle; apply map_ext; intros v; apply RED).
  split; [exact SAME|]. split.
  - unfold circle. rewrite Forall_map, Forall_forall. intros v _. cbn [fst snd]. pose proof (sin2_cos2 (IZR (if modulo then v mod period else v) * (PI * 2 / IZR period))) as S. unfold Rsqr in S. lra.
  - assert (EQ : circle modulo period values = circle true period values) by (destruct modulo; [reflexivity|symmetry; exact SAME]). rewrite EQ.
    set (e := fun v => (cos (IZR (v mod period) * (PI * 2 / IZR period)), sin (IZR (v mod period) * (PI * 2 / IZR period)))).
    assert (INJ : forall v v', e v = e v' <-> (v - v') mod period = 0).
    { intros v v'. split.
      - intros E. unfold e in E. injection E as EC ES. pose proof (Z.mod_pos_bound v period Hp). pose proof (Z.mod_pos_bound v' period Hp).
        enough (v mod period = v' mod period) by (rewrite Zminus_mod, H1, Z.sub_diag; apply Z.mod_0_l; lia).
        destruct (Z.lt_trichotomy (v mod period) (v' mod period)) as [L|[L|L]]; [exfalso|exact L|exfalso].
        + apply (cos_one ((IZR (v' mod period) - IZR (v mod period)) * (PI * 2 / IZR period))).
          * assert (P : (0 < PI * 2 / IZR period)%R) by (apply Rdiv_lt_0_compat; [pose proof PI_RGT_0; lra|exact PP]).
            assert (B : (IZR (v' mod period) - IZR (v mod period) < IZR period)%R) by (rewrite <- minus_IZR; apply IZR_lt; lia).
            assert (B' : (0 < IZR (v' mod period) - IZR (v mod period))%R) by (rewrite <- minus_IZR; apply IZR_lt; lia).
            split; [apply Rmult_lt_0_compat; assumption|]. apply (Rmult_lt_compat_r _ _ _ P) in B. replace (IZR period * (PI * 2 / IZR period))%R with (2 * PI)%R in B by (field; lra). exact B.
          * rewrite Rmult_minus_distr_r, cos_minus, EC, ES. pose proof (sin2_cos2 (IZR (v' mod period) * (PI * 2 / IZR period))) as S. unfold Rsqr in S. lra.
        + apply (cos_one ((IZR (v mod period) - IZR (v' mod period)) * (PI * 2 / IZR period))).
          * assert (P : (0 < PI * 2 / IZR period)%R) by (apply Rdiv_lt_0_compat; [pose proof PI_RGT_0; lra|exact PP]).
            assert (B : (IZR (v mod period) - IZR (v' mod period) < IZR period)%R) by (rewrite <- minus_IZR; apply IZR_lt; lia).
            assert (B' : (0 < IZR (v mod period) - IZR (v' mod period))%R) by (rewrite <- minus_IZR; apply IZR_lt; lia).
            split; [apply Rmult_lt_0_compat; assumption|]. apply (Rmult_lt_compat_r _ _ _ P) in B. replace (IZR period * (PI * 2 / IZR period))%R with (2 * PI)%R in B by (field; lra). exact B.
          * rewrite Rmult_minus_distr_r, cos_minus, EC, ES. pose proof (sin2_cos2 (IZR (v' mod period) * (PI * 2 / IZR period))) as S. unfold Rsqr in S. lra.
      - intros E. unfold e. replace (v mod period) with (v' mod period); [reflexivity|]. apply Z.mod_divide in E; [|lia]. destruct E as (k & E). replace v with (v' + k * period) by lia. symmetry. apply Z.mod_add. lia. }
    change (circle true period values) with (map e values). clear - INJ.
    assert (ROW : forall v l, Forall2 (fun v' p' => e v = p' <-> (v - v') mod period = 0) l (map e l)) by (intros v l; induction l; constructor; auto).
    assert (G : forall l, Forall2 (fun v p => Forall2 (fun v' p' => p = p' <-> (v - v') mod period = 0) values (map e values)) l (map e l)) by (induction l; constructor; auto). apply G.
Qed.

(** ** Concrete cases *)
Example C53_case : date_features [Stamp (Date 2024 6 30) (Date 2024 6 30) 9 0; Stamp (Date 2024 7 31) (Date 2024 7 31) 9 0] =
  [DateRow 2 5 true false true false; DateRow 2 5 false false true true].
Proof. vm_compute. reflexivity. Qed.
Example C53_time_case : time_features [Stamp (Date 2024 6 30) (Date 2024 6 30) 22 31] = [TimeRow 3 166 5].
Proof. vm_compute. reflexivity. Qed.
Example C125_case : 0 < 24 /\ (25 - 1) mod 24 = 0 /\ (25 - 2) mod 24 <> 0.
Proof. repeat split; discriminate. Qed.

Print Assumptions C53_weekday.
Print Assumptions C53_map.
Print Assumptions C53_flags.
Print Assumptions C53_quarter_end_refuted.
Print Assumptions C53_season_refuted.
Print Assumptions C53_weekofmonth.
Print Assumptions C53_weekofmonth_zone_refuted.
Print Assumptions C53_time.
Print Assumptions C125_circle.
