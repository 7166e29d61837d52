(** C253–C257: the prophet based detectors. *)
From Coq Require Import List Bool Arith ZArith QArith Qabs Lia Lqa Sorted.
From Verif Require Import Common ProphetDetModel.
Import ListNotations.
Open Scope nat_scope.

(** ** C253: scores *)
(** The deviation is relative to the size of the forecast; there is none for a forecast of zero. *)
Theorem C253_deviation : forall v f,
  (deviation v f = None <-> yhat f == 0)%Q /\
  (forall s, deviation v f = Some s -> (s * Qabs (yhat f) == v - yhat f /\ (0 < s <-> yhat f < v) /\ (s < 0 <-> v < yhat f)))%Q.
Proof.
  intros v f. unfold deviation. destruct (Qeq_bool (yhat f) 0) eqn:E.
  - apply Qeq_bool_iff in E. split; [tauto|discriminate].
  - assert (N : ~ (yhat f == 0)%Q) by (intros X; apply Qeq_bool_iff in X; congruence). split; [split; [discriminate|contradiction]|]. intros s H. injection H as <-.
    assert (P : (0 < Qabs (yhat f))%Q). { destruct (Qlt_le_dec 0 (Qabs (yhat f))) as [P|P]; [exact P|]. exfalso. apply N. pose proof (Qabs_nonneg (yhat f)). pose proof (Qle_Qabs (yhat f)). pose proof (Qle_Qabs (- yhat f)). rewrite Qabs_opp in H1. lra. }
    assert (X : ((v - yhat f) / Qabs (yhat f) * Qabs (yhat f) == v - yhat f)%Q) by (field; lra). split; [exact X|].
    set (s := ((v - yhat f) / Qabs (yhat f))%Q) in *. set (a := Qabs (yhat f)) in *. clearbody s a. split; split; intros H; nra.
Qed.
Lemma qmax_ge a b : (a <= qmax a b)%Q /\ (b <= qmax a b)%Q /\ (qmax a b = a \/ qmax a b = b).
Proof.
  unfold qmax. destruct (Qle_bool a b) eqn:E; [apply Qle_bool_iff in E; split; [exact E|split; [apply Qle_refl|right; reflexivity]]|].
  assert (b < a)%Q by (apply Qnot_le_lt; intros X; apply Qle_bool_iff in X; congruence). split; [apply Qle_refl|]. split; [lra|left; reflexivity].
Qed.
(** The z-score is the distance to the forecast in units proportional to the width of the band, which are never below 1e-9. *)
Theorem C253_z_score : forall z v f, let width := match z with Legacy s ci => s * (upper f - lower f) / ci | Corrected s ppf => s * (upper f - lower f) / ppf end%Q in
  exists unit, (1 # 1000000000 <= unit)%Q /\ (width <= unit)%Q /\ (unit == width \/ unit == 1 # 1000000000)%Q /\
  (z_score z v f * unit == v - yhat f)%Q /\ (0 < z_score z v f <-> yhat f < v)%Q /\ (z_score z v f < 0 <-> v < yhat f)%Q.
Proof.
  intros z v f width. exists (qmax (scaled_std z f) min_stdev). destruct (qmax_ge (scaled_std z f) min_stdev) as (G1 & G2 & G3). split; [exact G2|]. assert (W : width = scaled_std z f) by (unfold width; destruct z; reflexivity).
  rewrite W. split; [exact G1|]. split; [destruct G3 as [-> | ->]; [left|right]; reflexivity|].
  unfold z_score. set (u := qmax _ _) in *. assert (P : (0 < u)%Q) by (assert (0 < min_stdev)%Q by reflexivity; lra).
  assert (X : ((v - yhat f) / u * u == v - yhat f)%Q) by (field; lra). split; [exact X|]. set (s := ((v - yhat f) / u)%Q) in *. clearbody s u. split; split; intros H; nra.
Qed.
(** A wider band never makes a point more anomalous. *)
Theorem C253_wider : forall z v f g, yhat g = yhat f -> (upper f - lower f <= upper g - lower g)%Q ->
  (match z with Legacy s ci => 0 < s /\ 0 < ci | Corrected s ppf => 0 < s /\ 0 < ppf end)%Q ->
  (Qabs (z_score z v g) <= Qabs (z_score z v f))%Q.
Proof.
  intros z v f g E W P. unfold z_score. rewrite E.
  assert (S : (scaled_std z f <= scaled_std z g)%Q).
  { destruct z; cbn; destruct P as [P1 P2]; unfold Qdiv; apply Qmult_le_compat_r; try (apply Qlt_le_weak, Qinv_lt_0_compat; exact P2); rewrite !(Qmult_comm scale); apply Qmult_le_compat_r; lra. }
  assert (M : (qmax (scaled_std z f) min_stdev <= qmax (scaled_std z g) min_stdev)%Q).
  { destruct (qmax_ge (scaled_std z f) min_stdev) as (_ & _ & [-> | ->]); destruct (qmax_ge (scaled_std z g) min_stdev) as (G1 & G2 & _); lra. }
  assert (PF : (0 < qmax (scaled_std z f) min_stdev)%Q). { destruct (qmax_ge (scaled_std z f) min_stdev) as (_ & G & _). assert (0 < min_stdev)%Q by reflexivity. lra. }
  set (a := qmax (scaled_std z f) min_stdev) in *. set (b := qmax (scaled_std z g) min_stdev) in *. clearbody a b.
  unfold Qdiv. rewrite !Qabs_Qmult. rewrite !(Qmult_comm (Qabs (v - yhat f))). apply Qmult_le_compat_r; [|apply Qabs_nonneg].
  rewrite !Qabs_pos by (apply Qlt_le_weak, Qinv_lt_0_compat; lra). apply Qle_shift_inv_l; [exact PF|]. setoid_replace (/ b * a)%Q with (a / b)%Q by (field; lra). apply Qle_shift_div_r; lra.
Qed.
Example C253_case : deviation 6 (Fcst (-4) 0 0) = Some (10 / 4)%Q /\ (z_score (Legacy 7 (8 # 10)) 6 (Fcst 4 3 5) == 2 / (35 # 2))%Q /\
  (z_score (Legacy 7 (8 # 10)) 6 (Fcst 4 3 3) == 2000000000)%Q.
Proof. repeat split; reflexivity. Qed.

(** ** C254: seasonalities *)
Lemma stype_eqb_eq a b : stype_eqb a b = true <-> a = b.
Proof. destruct a, b; cbn; split; congruence. Qed.
Lemma sget_sput k k' v d : sget k (sput k' v d) = if stype_eqb k k' then Some v else sget k d.
Proof.
  induction d as [|[e w] d IH]; cbn; [reflexivity|]. destruct (stype_eqb k' e) eqn:E; cbn.
  - apply stype_eqb_eq in E. subst e. destruct (stype_eqb k k'); reflexivity.
  - rewrite IH. destruct (stype_eqb k e) eqn:F; [|reflexivity]. apply stype_eqb_eq in F. subst e. destruct (stype_eqb k k') eqn:G; [|reflexivity].
    apply stype_eqb_eq in G. subst k'. destruct k; discriminate.
Qed.
Lemma sget_fill k k' d : sget k (fill k' d) = if stype_eqb k k' then
    match sget k d with Some v => Some v | None => Some (match k with WEEK => if truthy (sget WEEKEND d) then Off else Auto | DAY | YEAR => Auto | WEEKEND => Off end) end
  else sget k d.
Proof.
  unfold fill. destruct (stype_eqb k k') eqn:E.
  - apply stype_eqb_eq in E. subst k'. destruct (sget k d) eqn:G; [exact G|]. rewrite sget_sput. destruct k; reflexivity.
  - destruct (sget k' d); [reflexivity|]. rewrite sget_sput, E. reflexivity.
Qed.
(** What the user gave is kept, except that an automatic weekend may be switched off; the others are automatic, but there is no
    weekly seasonality next to a weekend, and no weekend unless asked for.  Only a value that is neither a truth value nor "auto"
    raises. *)
Theorem C254_process : forall times d,
  (forall r, process times d = Some r ->
     (sget DAY r = match sget DAY d with Some v => Some v | None => Some Auto end) /\
     (sget YEAR r = match sget YEAR d with Some v => Some v | None => Some Auto end) /\
     (sget WEEKEND r = match sget WEEKEND d with Some Auto => Some (if no_weekend times then Off else Auto) | Some v => Some v | None => Some Off end) /\
     (sget WEEK r = match sget WEEK d with Some v => Some v | None => if truthy (sget WEEKEND r) then Some Off else Some Auto end)) /\
  (process times d = None <-> exists k, sget k d = Some Odd).
Proof.
  intros times d. unfold process. set (d0 := match sget WEEKEND d with Some Auto => _ | _ => d end).
  assert (W : sget WEEKEND d0 = match sget WEEKEND d with Some Auto => Some (if no_weekend times then Off else Auto) | o => o end).
  { unfold d0. destruct (sget WEEKEND d) as [[]|] eqn:E; try exact E. destruct (no_weekend times); [rewrite sget_sput; reflexivity|exact E]. }
  assert (O : forall k, k <> WEEKEND -> sget k d0 = sget k d).
  { intros k N. unfold d0. destruct (sget WEEKEND d) as [[]|]; try reflexivity. destruct (no_weekend times); [|reflexivity]. rewrite sget_sput. destruct k; try reflexivity. contradiction. }
  assert (D : sget DAY d0 = sget DAY d) by (apply O; discriminate). assert (K : sget WEEK d0 = sget WEEK d) by (apply O; discriminate). assert (Y : sget YEAR d0 = sget YEAR d) by (apply O; discriminate).
  clearbody d0. clear O. unfold fill1. cbn [fold_left].
  set (d1 := fill DAY d0). set (d2 := fill WEEK d1). set (d3 := fill YEAR d2). set (d4 := fill WEEKEND d3).
  assert (G1 : sget DAY d1 = match sget DAY d with Some v => Some v | None => Some Auto end) by (unfold d1; rewrite sget_fill; cbn; rewrite D; reflexivity).
  assert (W1 : sget WEEKEND d1 = sget WEEKEND d0) by (unfold d1; rewrite sget_fill; reflexivity).
  assert (K1 : sget WEEK d1 = sget WEEK d) by (unfold d1; rewrite sget_fill; exact K).
  assert (G2 : sget WEEK d2 = match sget WEEK d with Some v => Some v | None => Some (if truthy (sget WEEKEND d0) then Off else Auto) end) by (unfold d2; rewrite sget_fill; cbn; rewrite K1, W1; reflexivity).
  assert (G3 : sget YEAR d3 = match sget YEAR d with Some v => Some v | None => Some Auto end) by (unfold d3, d2, d1; rewrite !sget_fill; cbn; rewrite Y; reflexivity).
  assert (G4 : sget WEEKEND d4 = match sget WEEKEND d0 with Some v => Some v | None => Some Off end) by (unfold d4, d3, d2, d1; rewrite !sget_fill; reflexivity).
  assert (F1 : sget DAY d4 = sget DAY d1) by (unfold d4, d3, d2; rewrite !sget_fill; reflexivity).
  assert (F2 : sget WEEK d4 = sget WEEK d2) by (unfold d4, d3; rewrite !sget_fill; reflexivity).
  assert (F3 : sget YEAR d4 = sget YEAR d3) by (unfold d4; rewrite !sget_fill; reflexivity).
  split.
  - intros r H. destruct (valid_value (sget DAY d1)); [|discriminate]. fold d2 in H. destruct (valid_value (sget WEEK d2)); [|discriminate]. fold d3 in H.
    destruct (valid_value (sget YEAR d3)); [|discriminate]. fold d4 in H. destruct (valid_value (sget WEEKEND d4)); [|discriminate]. injection H as <-.
    rewrite F1, F2, F3, G1, G2, G3, G4, W. split; [reflexivity|]. split; [reflexivity|]. split; [destruct (sget WEEKEND d) as [[]|]; reflexivity|].
    destruct (sget WEEK d); [reflexivity|]. destruct (sget WEEKEND d) as [[]|]; cbn; try reflexivity. destruct (no_weekend times); reflexivity.
  - split.
    + intros H. destruct (sget DAY d) as [[]|] eqn:E1; try (exists DAY; exact E1); rewrite G1 in H; cbn [valid_value] in H; fold d2 in H;
      (destruct (sget WEEK d) as [[]|] eqn:E2; try (exists WEEK; exact E2); rewrite G2 in H);
      try (destruct (truthy (sget WEEKEND d0))); cbn [valid_value] in H; fold d3 in H;
      (destruct (sget YEAR d) as [[]|] eqn:E3; try (exists YEAR; exact E3); rewrite G3 in H; cbn [valid_value] in H; fold d4 in H);
      rewrite G4, W in H; (destruct (sget WEEKEND d) as [[]|] eqn:E4; try (exists WEEKEND; exact E4); try discriminate; destruct (no_weekend times); discriminate).
    + intros (k & E). destruct k.
      * rewrite G1, E. reflexivity.
      * destruct (valid_value (sget DAY d1)); [|reflexivity]. fold d2. rewrite G2, E. reflexivity.
      * destruct (valid_value (sget DAY d1)); [|reflexivity]. fold d2. destruct (valid_value (sget WEEK d2)); [|reflexivity]. fold d3. rewrite G3, E. reflexivity.
      * destruct (valid_value (sget DAY d1)); [|reflexivity]. fold d2. destruct (valid_value (sget WEEK d2)); [|reflexivity]. fold d3. destruct (valid_value (sget YEAR d3)); [|reflexivity]. fold d4. rewrite G4, W, E. reflexivity.
Qed.
(** Seasonalities given as a type, a list of types or of names are those switched on; an unknown name raises. *)
Theorem C254_names : forall l, 
  (to_dict (Names l) = None <-> In None l) /\ (forall d, to_dict (Names l) = Some d -> forall k, sget k d = (if existsb (fun o => match o with Some s => stype_eqb k s | None => false end) l then Some On else None)) /\
  (forall s k, to_dict (Many s) = to_dict (Names (map Some s)) /\ option_map (sget k) (to_dict (One k)) = Some (Some On)).
Proof.
  intros l. cbn [to_dict]. split; [|split].
  - generalize (@nil (stype * sval)). induction l as [|[s|] l IH]; intros d; cbn; [split; [discriminate|tauto]| |split; [left; reflexivity|reflexivity]].
    rewrite IH. split; [intros H; right; exact H|intros [H|H]; [discriminate|exact H]].
  - assert (G : forall d0 d, of_names l d0 = Some d -> forall k, sget k d = if existsb (fun o => match o with Some s => stype_eqb k s | None => false end) l then Some On else sget k d0).
    { induction l as [|[s|] l IH]; intros d0 d H k; cbn in *; [injection H as <-; reflexivity| |discriminate]. rewrite (IH _ _ H k), sget_sput. destruct (stype_eqb k s); cbn; [|reflexivity]. destruct (existsb _ l); reflexivity. }
    intros d H k. rewrite (G [] d H k). reflexivity.
  - intros s k. split; [reflexivity|]. destruct k; reflexivity.
Qed.
Lemma zmin_spec l m : zmin l = Some m -> In m l /\ forall x, In x l -> (m <= x)%Z.
Proof.
  destruct l as [|a l]; [discriminate|]. cbn. intros E. injection E as <-. revert a. induction l as [|b l IH]; intros a; cbn; [split; [left; reflexivity|intros x [<-|[]]; lia]|].
  destruct (IH (Z.min a b)) as [I L]. cbn in I, L. split.
  - destruct I as [I|I]; [|right; right; exact I]. rewrite <- I. destruct (Z.min_spec a b) as [[_ ->]|[_ ->]]; auto.
  - intros x [<-|[<-|J]]; [|  |apply L; right; exact J]; specialize (L (Z.min a b) (or_introl eq_refl)); lia.
Qed.
Lemma diffs_in l t g : In (t, g) (diffs l) <-> exists i, S i < length l /\ nth (S i) l 0%Z = t /\ g = (nth (S i) l 0 - nth i l 0)%Z.
Proof.
  induction l as [|a l IH]; [cbn; split; [tauto|intros (i & H & _); lia]|]. destruct l as [|b l].
  - cbn. split; [tauto|intros (i & H & _); lia].
  - change (diffs (a :: b :: l)) with ((b, (b - a)%Z) :: diffs (b :: l)). cbn [In]. rewrite IH. split.
    + intros [E|(i & L & T & G)]; [injection E as <- <-; exists 0; cbn; split; [lia|split; reflexivity]|]. exists (S i). split; [cbn in *; lia|]. split; [exact T|exact G].
    + intros ([|i] & L & T & G); [left; cbn in *; subst; reflexivity|]. right. exists i. split; [cbn in *; lia|]. split; [exact T|exact G].
Qed.
(** An automatic weekend is switched off for less than two weeks of data, or if no two times are less than a week apart (times after
    1970, distinct). *)
Theorem C254_weekend_partial : forall times, StronglySorted Z.lt times -> 2 <= length times -> (forall t, In t times -> 0 < t)%Z ->
  (no_weekend times = true <-> (last times 0 - hd 0 times < 2 * week)%Z \/ forall i, S i < length times -> (week <= nth (S i) times 0 - nth i times 0)%Z).
Proof.
  intros times S L P. unfold no_weekend. cbv zeta. rewrite orb_true_iff, Z.ltb_lt.
  assert (F : filter (fun p => negb (fst p =? 0)%Z) (diffs times) = diffs times).
  { assert (H : forall p, In p (diffs times) -> fst p <> 0%Z).
    { intros [t g] I. apply diffs_in in I as (i & IL & <- & _). cbn. specialize (P (nth (Datatypes.S i) times 0%Z) (nth_In _ _ IL)). lia. }
    clear -H. induction (diffs times) as [|p l IH]; [reflexivity|]. cbn. specialize (IH (fun q I => H q (or_intror I))). pose proof (H p (or_introl eq_refl)).
    destruct (fst p =? 0)%Z eqn:E; [apply Z.eqb_eq in E; contradiction|]. cbn. rewrite IH. reflexivity. }
  rewrite F. destruct (zmin (map snd (diffs times))) as [m|] eqn:M.
  - apply zmin_spec in M as [MI ML]. rewrite Z.leb_le. split; (intros [H|H]; [left; exact H|right]).
    + intros i I. assert (J : In (nth (Datatypes.S i) times 0 - nth i times 0)%Z (map snd (diffs times))).
      { apply in_map_iff. exists (nth (Datatypes.S i) times 0, nth (Datatypes.S i) times 0 - nth i times 0)%Z. split; [reflexivity|]. apply diffs_in. exists i. split; [exact I|split; reflexivity]. }
      specialize (ML _ J). lia.
    + apply in_map_iff in MI as ([t g] & <- & I). cbn. apply diffs_in in I as (i & IL & _ & ->). apply H. exact IL.
  - exfalso. destruct times as [|a [|b times]]; cbn in L; try lia. discriminate.
Qed.
(** A time that occurs twice counts as a gap of zero: data with at most one value a week then keep the weekend (prophet's own weekly
    choice leaves gaps of zero out). *)
Theorem C254_twice_refuted : forall times i, StronglySorted Z.le times -> (2 * week <= last times 0 - hd 0 times)%Z -> S i < length times ->
  nth i times 0%Z = nth (S i) times 0%Z -> nth (S i) times 0%Z <> 0%Z -> no_weekend times = false.
Proof.
  intros times i S W L E N. unfold no_weekend. cbv zeta. apply orb_false_intro; [apply Z.ltb_ge; exact W|].
  destruct (zmin _) as [m|] eqn:M; [|reflexivity]. apply zmin_spec in M as [_ ML]. apply Z.leb_gt. specialize (ML 0%Z). assert (week = 604800)%Z by reflexivity. enough (m <= 0)%Z by lia. apply ML.
  apply in_map_iff. exists (nth (Datatypes.S i) times 0%Z, 0%Z). split; [reflexivity|]. apply filter_In. split; [apply diffs_in; exists i; split; [exact L|]; split; [reflexivity|lia]|]. cbn.
  apply negb_true_iff, Z.eqb_neq. exact N.
Qed.
(** The gap before 1970-01-01 is not seen: here two times are an hour apart. *)
Theorem C254_epoch_refuted : no_weekend [-3600; 0; 604800; 1209600]%Z = true.
Proof. reflexivity. Qed.
(** Every row is either of a weekend or of a workday, and the seasonality of weekends is only used if it was asked for. *)
Theorem C254_masks : (forall t, weekend_mask t = true <-> (t - 2 * 86400) mod (7 * 86400) < 2 * 86400)%Z (* the two days from Saturday, 1970-01-03, on *) /\
  (forall t, workday_mask t = negb (weekend_mask t)) /\ (forall times d r, process times d = Some r -> truthy (sget WEEKEND r) = true -> truthy (sget WEEKEND d) = true).
Proof.
  split; [|split].
  - intros t. unfold weekend_mask, weekday. rewrite Z.ltb_lt. Z.div_mod_to_equations. lia.
  - intros t. unfold workday_mask, weekend_mask. rewrite Z.ltb_antisym, negb_involutive. reflexivity.
  - intros times d r H T. destruct (C254_process times d) as [P _]. destruct (P r H) as (_ & _ & W & _). rewrite W in T. destruct (sget WEEKEND d) as [[]|]; try reflexivity; discriminate.
Qed.
Example C254_case : process [0; 86400; 1296000]%Z [(WEEKEND, Auto); (DAY, Off)] = Some [(WEEKEND, Auto); (DAY, Off); (WEEK, Off); (YEAR, Auto)] /\
  process [86400; 691200; 1296000]%Z [(WEEKEND, Auto)] = Some [(WEEKEND, Off); (DAY, Auto); (WEEK, Auto); (YEAR, Auto)] /\ weekend_mask (2 * 86400) = true.
Proof. repeat split; reflexivity. Qed.

(** ** C255: the training data *)
(** The rows outside all the ranges, ends included; a range that is no pair of timestamps raises. *)
Theorem C255_excluded : forall ranges s,
  (exclude_ranges s ranges = None <-> exists r, In r ranges /\ forall a b, r <> [Some a; Some b]) /\
  (forall l, exclude_ranges s ranges = Some l ->
    (forall p, In p l <-> In p s /\ forall a b, In [Some a; Some b] ranges -> ~ (a <= fst p <= b)%Z) /\
    (forall keep, (forall p, In p s -> (keep p = true <-> forall a b, In [Some a; Some b] ranges -> ~ (a <= fst p <= b)%Z)) -> l = filter keep s)).
Proof.
  assert (X : forall r : list (option Z), (exists a b, r = [Some a; Some b]) \/ (forall a b, r <> [Some a; Some b])).
  { intros [|[a|] [|[b|] [|]]]; try (right; intros; discriminate). left. eauto. }
  induction ranges as [|r ranges IH]; intros s.
  - split; [cbn; split; [discriminate|intros (r & [] & _)]|]. cbn. intros l E. injection E as <-. split; [intros p; split; [intros I; split; [exact I|intros a b []]|tauto]|].
    intros keep K. induction s as [|p s IHs]; [reflexivity|]. cbn. rewrite (proj2 (K p (or_introl eq_refl))) by (intros a b []). f_equal. apply IHs. intros q I. apply K. right. exact I.
  - destruct (X r) as [(a & b & ->)|N].
    + cbn [exclude_ranges]. destruct (IH (filter (fun p => (fst p <? a)%Z || (b <? fst p)%Z) s)) as [I1 I2].
      assert (T : forall p : Z * option Q, (fst p <? a)%Z || (b <? fst p)%Z = true <-> ~ (a <= fst p <= b)%Z) by (intros p; rewrite orb_true_iff, !Z.ltb_lt; lia).
      split.
      * rewrite I1. split; intros (q & J & K); [exists q; split; [right; exact J|exact K]|]. destruct J as [<-|J]; [destruct (K a b eq_refl)|exists q; split; assumption].
      * intros l E. destruct (I2 l E) as [J1 J2]. split.
        -- intros p. rewrite J1, filter_In, T. split.
           ++ intros [[A B] C]. split; [exact A|]. intros a' b' [Q|Q]; [injection Q as <- <-; exact B|apply C; exact Q].
           ++ intros [A B]. split; [split; [exact A|apply B; left; reflexivity]|]. intros a' b' Q. apply B. right. exact Q.
        -- intros keep K. rewrite (J2 keep).
           ++ clear -K T. induction s as [|p s IH]; [reflexivity|]. cbn. specialize (IH (fun q I => K q (or_intror I))). specialize (K p (or_introl eq_refl)). specialize (T p).
              destruct ((fst p <? a)%Z || (b <? fst p)%Z) eqn:Q; cbn; [destruct (keep p); rewrite IH; reflexivity|]. destruct (keep p) eqn:KP; [|exact IH]. exfalso.
              assert (false = true); [|discriminate]. apply T. apply (proj1 K eq_refl). left. reflexivity.
           ++ intros p I. apply filter_In in I as [I Q]. rewrite (K p I). split; [intros H a' b' J; apply H; right; exact J|]. intros H a' b' [J|J]; [injection J as <- <-; apply T; exact Q|apply H; exact J].
    + assert (E0 : exclude_ranges s (r :: ranges) = None).
      { destruct r as [|[a|] [|[b|] [|]]]; cbn; try reflexivity. destruct (N a b eq_refl). }
      rewrite E0. split; [|discriminate]. split; [intros _; exists r; split; [left; reflexivity|exact N]|reflexivity].
Qed.
(** Outliers: the rows kept are those within their interval (ends included) and those without a value. *)
Theorem C255_outliers : forall s f, length f = length s -> forall i t o x, nth_error s i = Some (t, o) -> nth_error f i = Some x ->
  ((forall y, o = Some y -> (lower x <= y <= upper x)%Q) -> In (t, o) (remove_outliers s f)) /\
  (NoDup (map fst s) -> In (t, o) (remove_outliers s f) -> forall y, o = Some y -> (lower x <= y <= upper x)%Q).
Proof.
  assert (O : forall p : (Z * option Q) * fcst, outside p = false <-> forall y, snd (fst p) = Some y -> (lower (snd p) <= y <= upper (snd p))%Q).
  { intros [[t [y|]] x]; cbn; [|split; [discriminate|reflexivity]]. rewrite orb_false_iff, !negb_false_iff, !Qle_bool_iff. split; [intros H z E; injection E as <-; exact H|intros H; apply H; reflexivity]. }
  intros s f L i t o x ES EF. assert (EC : nth_error (combine s f) i = Some ((t, o), x)).
  { clear -ES EF. revert s f ES EF. induction i as [|i IH]; intros [|a s] [|b f] ES EF; cbn in *; try discriminate; [congruence|apply IH; assumption]. }
  split.
  - intros H. unfold remove_outliers. apply in_map_iff. exists ((t, o), x). split; [reflexivity|]. apply filter_In. split; [apply nth_error_In with i; exact EC|]. apply negb_true_iff, O. exact H.
  - intros ND I y E. unfold remove_outliers in I. apply in_map_iff in I as ([p x'] & EP & I). cbn in EP. subst p. apply filter_In in I as [I Q]. apply negb_true_iff in Q.
    assert (x' = x). { apply In_nth_error in I as (j & EJ). assert (J : nth_error s j = Some (t, o)).
      { clear -EJ. revert s f EJ. induction j as [|j IH]; intros [|a s] [|b f] EJ; cbn in *; try discriminate; [congruence|eapply IH; exact EJ]. }
      assert (i = j). { apply (NoDup_nth_error (map fst s)) with (1 := ND); [rewrite map_length; apply nth_error_Some; congruence|]. rewrite !nth_error_map, ES, J. reflexivity. }
      subst j. rewrite EC in EJ. congruence. }
    subst x'. apply (proj1 (O _) Q). exact E.
Qed.
(** Both together: training raises if a range is malformed or nothing is left, and otherwise uses the rows left by the two steps. *)
Theorem C255_training : forall g saturation excluded forecast s, (g <> Logistic \/ exists a b, saturation = Some [a; b]) ->
  match excluded with
  | Some ranges => (training g saturation excluded forecast s = None <-> (exists r, In r ranges /\ forall a b, r <> [Some a; Some b]) \/
                      (forall p, In p s -> exists a b, In [Some a; Some b] ranges /\ (a <= fst p <= b)%Z))
  | None => training g saturation excluded forecast s <> None
  end /\
  forall kept, training g saturation excluded forecast s = Some kept -> exists left,
    match excluded with None => left = s | Some ranges => exclude_ranges s ranges = Some left end /\
    kept = match forecast with None => left | Some f => remove_outliers left f end.
Proof.
  intros g sat ex fc s G. assert (GU : forall (A : Type) (x y : A), match growth_used g sat, sat with Logistic, (None | Some []) => x | _, _ => y end = y).
  { intros A x y. destruct G as [G|(a & b & ->)]; [|reflexivity]. destruct sat as [[|a l]|]; destruct g; try reflexivity; contradiction. }
  unfold training. destruct ex as [ranges|].
  - destruct (C255_excluded ranges s) as [N S]. destruct (exclude_ranges s ranges) as [[|p l]|] eqn:E.
    + split; [|discriminate]. split; [|reflexivity]. intros _. right. destruct (S [] eq_refl) as [S1 _]. intros p I.
      assert (X : forall l : list (list (option Z)), (exists a b, In [Some a; Some b] l /\ (a <= fst p <= b)%Z) \/ (forall a b, In [Some a; Some b] l -> ~ (a <= fst p <= b)%Z)).
      { induction l as [|r l IH]; [right; intros a b []|]. destruct IH as [(a & b & J & H)|IH]; [left; exists a, b; split; [right; exact J|exact H]|].
        destruct r as [|[a|] [|[b|] [|]]]; try (right; intros a' b' [J|J]; [discriminate|apply IH, J]). destruct (Z_le_dec a (fst p)), (Z_le_dec (fst p) b); [left; exists a, b; split; [left; reflexivity|lia]|right|right|right]; intros a' b' [J|J]; try (injection J as <- <-; lia); apply IH, J. }
      destruct (X ranges) as [H|H]; [exact H|]. exfalso. apply (proj2 (S1 p)). split; [exact I|exact H].
    + rewrite GU. split.
      * split; [discriminate|]. intros [H|H]; [apply N in H; discriminate|]. exfalso. destruct (S (p :: l) eq_refl) as [S1 _]. destruct (proj1 (S1 p) (or_introl eq_refl)) as [I C]. destruct (H p I) as (a & b & J & K). apply (C a b J K).
      * intros kept K. injection K as <-. exists (p :: l). split; reflexivity.
    + split; [|discriminate]. split; [intros _; left; apply N; reflexivity|reflexivity].
  - rewrite GU. split; [discriminate|]. intros kept K. injection K as <-. exists s. split; reflexivity.
Qed.
(** Logistic growth without a saturation range is accepted by the detector, but training it always raises. *)
Theorem C255_logistic_refuted : forall excluded forecast s, valid_saturation None = true /\ training Logistic None excluded forecast s = None.
Proof. intros. split; [reflexivity|]. unfold training. destruct excluded as [r|]; [destruct (exclude_ranges s r) as [[|]|]|]; reflexivity. Qed.
(** A saturation range is two numbers, the minimum below the maximum, and the growth is then logistic, whatever was asked for. *)
Theorem C255_saturation : forall l g, l <> [] -> (valid_saturation (Some l) = true <-> exists a b, l = [a; b] /\ (a < b)%Q) /\ growth_used g (Some l) = Logistic.
Proof.
  intros l g N. split.
  - destruct l as [|a [|b [|c l]]]; try contradiction; cbn; try (split; [discriminate|intros (x & y & E & _); discriminate]).
    rewrite negb_true_iff. split.
    + intros H. exists a, b. split; [reflexivity|]. apply Qnot_le_lt. intros X. apply Qle_bool_iff in X. congruence.
    + intros (x & y & E & H). injection E as -> ->. destruct (Qle_bool y x) eqn:Q; [apply Qle_bool_iff in Q; lra|reflexivity].
  - destruct l; [contradiction|reflexivity].
Qed.
(** A detector should leave the history it is given alone; training with one appends the data to it. *)
Theorem C255_history_refuted : forall history data, data <> [] -> history_after_fit history data <> history.
Proof. intros h d N E. unfold history_after_fit in E. apply (f_equal (@length _)) in E. rewrite app_length in E. destruct d; [contradiction|cbn in E; lia]. Qed.
Example C255_case : training Linear (Some [0; 10]%Q) (Some [[Some 5; Some 6]%Z]) (Some [Fcst 1 0 2; Fcst 1 0 2; Fcst 1 0 2])
  [(4%Z, Some 1%Q); (5%Z, Some 1%Q); (7%Z, Some 3%Q); (8%Z, None)] = Some [(4%Z, Some 1%Q); (8%Z, None)].
Proof. reflexivity. Qed.

(** ** C256: prediction *)
Definition rows_for (forecast : list Z -> list fcst) : Prop := forall ts, length (forecast ts) = length ts.
Lemma weigh_times m h c s w : weigh m h c s = Some w -> map fst w = map fst s.
Proof.
  unfold weigh. destruct m as [x|]; [|intros E; injection E as <-; reflexivity]. destruct (multiplies (Some x)); [|intros E; injection E as <-; reflexivity].
  destruct (holiday_days h c) as [days|]; [|discriminate]. intros E. injection E as <-. rewrite map_map. apply map_ext. intros p. destruct (existsb _ _); reflexivity.
Qed.
Lemma combine_fst {A B} (a : list A) (b : list B) : length b = length a -> map fst (combine a b) = a.
Proof. revert b. induction a as [|x a IH]; intros [|y b] L; cbn in *; try discriminate; [reflexivity|]. rewrite IH by lia. reflexivity. Qed.
(** Nothing is predicted before training; afterwards there is one score, one forecast and one interval for every row of the data.
    The interval is prophet's for the z-score (with samples) and the forecast itself otherwise. *)
Theorem C256_rows : forall f z n m h country data,
  predict f z n m h country None data = None /\
  forall forecast r, rows_for forecast -> predict f z n m h country (Some forecast) data = Some r ->
    map fst (scores r) = map fst data /\ map fst (predicted r) = map fst data /\ map fst (band r) = map fst data /\
    forall i t o x, nth_error data i = Some (t, o) -> nth_error (forecast (map fst data)) i = Some x ->
      nth_error (predicted r) i = Some (t, yhat x) /\
      nth_error (band r) i = Some (t, if match f with ZScore => 0 <? n | Deviation => false end then (lower x, upper x) else (yhat x, yhat x)).
Proof.
  intros f z n m h country data. split; [reflexivity|]. intros forecast r RF H. unfold predict in H. cbv zeta in H.
  set (rows := combine data (forecast (map fst data))) in *.
  assert (RL : length (forecast (map fst data)) = length data) by (rewrite RF, map_length; reflexivity).
  assert (RT : map (fun p : (Z * option Q) * fcst => fst (fst p)) rows = map fst data) by (rewrite <- (map_map fst fst); unfold rows; rewrite combine_fst by exact RL; reflexivity).
  destruct (weigh m h country _) as [s|] eqn:W; [|discriminate]. injection H as <-. cbn [scores predicted band].
  split; [rewrite (weigh_times _ _ _ _ _ W), map_map; exact RT|]. split; [rewrite map_map; exact RT|]. split; [rewrite map_map; exact RT|].
  intros i t o x ED EF. assert (EC : nth_error rows i = Some ((t, o), x)).
  { unfold rows. revert EF. generalize (forecast (map fst data)). clear -ED. revert data ED. induction i as [|i IH]; intros [|a s] ED [|b f] EF; cbn in *; try discriminate; [congruence|apply IH; assumption]. }
  rewrite !nth_error_map, EC. cbn. split; [reflexivity|]. do 2 f_equal. destruct f; cbn; [reflexivity|]. destruct n; reflexivity.
Qed.
(** The scores: those of the score function, multiplied on the days that are holidays if there is a multiplier other than 1 (to ten
    decimals). *)
Definition is_holiday (h : option holidays) (country : option (list Z)) (day : Z) : Prop :=
  (exists l, (h = Some (HDict l) \/ h = Some (HList l)) /\ In day l) \/ (exists c, country = Some c /\ In day c).
Lemma holiday_days_ok h country days day : holiday_days h country = Some days -> (In day days <-> is_holiday h country day).
Proof.
  unfold is_holiday. intros E. destruct h as [[[|d l]|l]|]; cbn in E; try discriminate.
  - destruct country as [c|]; [|discriminate]. injection E as <-. split; [intros I; right; exists c; split; [reflexivity|exact I]|]. intros [(l & [X|X] & I)|(c' & X & I)]; try discriminate; injection X as <-; [destruct I|exact I].
  - injection E as <-. rewrite in_app_iff. split.
    + intros [I|I]; [left; exists l; split; [left; reflexivity|exact I]|right]. destruct country as [c|]; [|destruct I]. exists c. split; [reflexivity|exact I].
    + intros [(l' & [X|X] & I)|(c' & -> & I)]; [injection X as <-; left; exact I|discriminate|right; exact I].
  - destruct country as [c|]; [|discriminate]. injection E as <-. split; [intros I; right; exists c; split; [reflexivity|exact I]|]. intros [(l & [X|X] & I)|(c' & X & I)]; try discriminate. injection X as <-. exact I.
Qed.
Theorem C256_scores : forall f z n m h country data forecast r, rows_for forecast -> predict f z n m h country (Some forecast) data = Some r ->
  forall i t o x, nth_error data i = Some (t, o) -> nth_error (forecast (map fst data)) i = Some x ->
    let plain := match o with None => None | Some v => match f with Deviation => deviation v x | ZScore => Some (z_score z v x) end end in
    exists s, nth_error (scores r) i = Some (t, s) /\
      match m with
      | None => s = plain
      | Some mult =>
        ((Qabs (mult - 1) <= 1 # 20000000000)%Q -> s = plain) /\ (~ (Qabs (mult - 1) <= 1 # 20000000000)%Q ->
           (is_holiday h country (t / 86400)%Z -> s = option_map (fun v => v * mult)%Q plain) /\ (~ is_holiday h country (t / 86400)%Z -> s = plain))
      end.
Proof.
  intros f z n m h country data forecast r RF H i t o x ED EF plain. change plain with (score f z o x). clear plain. unfold predict in H. cbv zeta in H.
  set (rows := combine data (forecast (map fst data))) in *.
  assert (EC : nth_error rows i = Some ((t, o), x)).
  { unfold rows. revert EF. generalize (forecast (map fst data)). clear -ED. revert data ED. induction i as [|i IH]; intros [|a s] ED [|b g] EF; cbn in *; try discriminate; [congruence|apply IH; assumption]. }
  set (raw := map _ rows) in H. assert (ER : nth_error raw i = Some (t, score f z o x)) by (unfold raw; rewrite nth_error_map, EC; reflexivity).
  destruct (weigh m h country raw) as [w|] eqn:W; [|discriminate]. injection H as <-. cbn [scores]. unfold weigh in W. destruct m as [mult|].
  - destruct (multiplies (Some mult)) eqn:M; unfold multiplies in M.
    + apply negb_true_iff in M. assert (M' : ~ (Qabs (mult - 1) <= 1 # 20000000000)%Q) by (intros X; apply Qle_bool_iff in X; congruence).
      destruct (holiday_days h country) as [days|] eqn:D; [|discriminate]. injection W as <-. rewrite nth_error_map, ER. cbn [option_map fst snd].
      exists (if existsb (Z.eqb (t / 86400)) days then times_mult mult (score f z o x) else score f z o x). split; [destruct (existsb _ days); reflexivity|]. split; [intros X; contradiction|]. intros _.
      rewrite <- (holiday_days_ok _ _ _ (t / 86400)%Z D). split.
      * intros I. replace (existsb (Z.eqb (t / 86400)) days) with true; [reflexivity|]. symmetry. apply existsb_exists. exists (t / 86400)%Z. split; [exact I|apply Z.eqb_refl].
      * intros I. destruct (existsb (Z.eqb (t / 86400)) days) eqn:Q; [|reflexivity]. exfalso. apply existsb_exists in Q as (y & J & E). apply Z.eqb_eq in E. subst y. contradiction.
    + apply negb_false_iff, Qle_bool_iff in M. injection W as <-. exists (score f z o x). split; [exact ER|]. split; [reflexivity|contradiction].
  - injection W as <-. exists (score f z o x). split; [exact ER|reflexivity].
Qed.
(** With a multiplier and no holidays a warning is announced; predict raises, for all data. *)
Theorem C256_holidays_refuted : forall f z n m forecast data, multiplies (Some m) = true -> predict f z n (Some m) None None (Some forecast) data = None.
Proof. intros f z n m forecast data M. unfold predict, weigh. rewrite M. reflexivity. Qed.
(** Holidays given as a list of days work after training in the same object, but a detector created from a saved model raises. *)
Theorem C256_reloaded_refuted : forall f z n m d days country forecast data, multiplies (Some m) = true ->
  predict f z n (Some m) (Some (HList (d :: days))) country (Some forecast) data = None /\
  predict f z n (Some m) (after_fit (Some (HList (d :: days)))) country (Some forecast) data <> None.
Proof. intros f z n m d days country forecast data M. unfold predict, weigh. rewrite M. cbn. split; [reflexivity|discriminate]. Qed.
(** An unknown score function is not refused: the deviation is used. *)
Theorem C256_unknown_refuted : forall z n m h country fitted data, predict (score_of None) z n m h country fitted data = predict Deviation z n m h country fitted data.
Proof. reflexivity. Qed.
Example C256_case : option_map scores (predict Deviation (Legacy 1 1) 50 (Some 2)%Q (Some (HDict [1%Z])) None (Some (map (fun _ => Fcst 2 0 0)))
  [(100%Z, Some 4%Q); (86500%Z, Some 4%Q); (86600%Z, None)]) = Some [(100%Z, Some ((4 - 2) / 2)%Q); (86500%Z, Some ((4 - 2) / 2 * 2)%Q); (86600%Z, None)] /\ rows_for (map (fun _ => Fcst 2 0 0)).
Proof. split; [reflexivity|]. intros ts. apply map_length. Qed.

(** ** C257: the trend detector *)
Lemma put_at_len i v l : length (put_at i v l) = length l.
Proof. unfold put_at. rewrite <- (firstn_skipn i l) at 3. rewrite !app_length. destruct (skipn i l); reflexivity. Qed.
Lemma put_at_nth i v l j d : nth j (put_at i v l) d = if (j =? i) && (j <? length l) then v else nth j l d.
Proof.
  revert i j. induction l as [|x l IH]; intros i j.
  - unfold put_at. rewrite skipn_nil, firstn_nil. cbn. rewrite andb_false_r. reflexivity.
  - destruct i as [|i]; [destruct j; reflexivity|]. destruct j as [|j]; [reflexivity|]. change (nth (S j) (put_at (S i) v (x :: l)) d) with (nth j (put_at i v l) d). rewrite IH. reflexivity.
Qed.
Lemma trend_fold cps l : length (fold_left (fun out c => put_at (fst c) (mean_abs (snd c)) out) cps l) = length l.
Proof. revert l. induction cps as [|c cps IH]; intros l; cbn; [reflexivity|]. rewrite IH. apply put_at_len. Qed.
(** One score per row; a row that is no changepoint has score zero, a row that is one the size of the mean of its shifts. *)
Theorem C257_scores : forall n cps, NoDup (map fst cps) -> (forall i s, In (i, s) cps -> i < n) ->
  length (trend_scores n cps) = n /\
  (forall j, j < n -> ~ In j (map fst cps) -> nth j (trend_scores n cps) 0%Q = 0%Q) /\
  (forall i s, In (i, s) cps -> nth i (trend_scores n cps) 0%Q = Qabs (qsum s / inject_Z (Z.of_nat (length s)))) /\
  (forall x, In x (trend_scores n cps) -> 0 <= x)%Q.
Proof.
  intros n cps ND B.
  assert (G : forall l, length l = n -> (forall j, ~ In j (map fst cps) -> nth j (fold_left (fun out c => put_at (fst c) (mean_abs (snd c)) out) cps l) 0%Q = nth j l 0%Q) /\
     (forall i s, In (i, s) cps -> nth i (fold_left (fun out c => put_at (fst c) (mean_abs (snd c)) out) cps l) 0%Q = mean_abs s)).
  { induction cps as [|[i s] cps IH]; intros l L; [split; [reflexivity|intros i s []]|]. cbn [map fst] in ND. inversion ND as [|? ? NI ND']; subst.
    destruct (IH ND' (fun a b I => B a b (or_intror I)) (put_at i (mean_abs s) l) ltac:(apply put_at_len)) as [I1 I2]. cbn [fold_left fst snd]. split.
    - intros j NJ. rewrite I1 by (intros X; apply NJ; right; exact X). rewrite put_at_nth. destruct (j =? i) eqn:E; [|reflexivity]. apply Nat.eqb_eq in E. subst j. exfalso. apply NJ. left. reflexivity.
    - intros a b [E|I]; [|apply I2; exact I]. injection E as <- <-. rewrite I1 by exact NI. rewrite put_at_nth, Nat.eqb_refl. specialize (B i s (or_introl eq_refl)). apply Nat.ltb_lt in B. rewrite B. reflexivity. }
  destruct (G (repeat 0%Q n) (repeat_length _ _)) as [G1 G2]. unfold trend_scores.
  assert (L : length (fold_left (fun out c => put_at (fst c) (mean_abs (snd c)) out) cps (repeat 0%Q n)) = n) by (rewrite trend_fold; apply repeat_length).
  split; [exact L|]. split; [intros j J N; rewrite G1 by exact N; apply nth_repeat|]. split; [exact G2|].
  intros x I. apply In_nth with (d := 0%Q) in I as (j & J & <-). destruct (in_dec Nat.eq_dec j (map fst cps)) as [I|I].
  - apply in_map_iff in I as ([a s] & E & I). cbn in E. subst a. rewrite (G2 j s I). apply Qabs_nonneg.
  - rewrite G1 by exact I. rewrite nth_repeat. apply Qle_refl.
Qed.
(** prophet counts the changepoints among the rows that have a value.  Without missing values these are the rows of the data; after a
    missing value the score is put on an earlier row than the one where the trend changes. *)
Theorem C257_rows : forall v i, i < length v -> (forall j, j < i -> nth j v None <> None) -> history_row v i = i.
Proof.
  unfold history_row. induction v as [|[x|] v IH]; intros [|i] L H; cbn in *; try lia; try reflexivity.
  - f_equal. apply IH; [lia|]. intros j J. apply (H (S j)). lia.
  - exfalso. apply (H 0); [lia|reflexivity].
Qed.
Theorem C257_missing_refuted : forall v i j d, i < length v -> j < i -> nth j v (Some 0%Q) = None -> nth i v None <> None ->
  ~ (Qabs (qsum d / inject_Z (Z.of_nat (length d))) == 0)%Q ->
  nth i (trend_scores (length v) [(history_row v i, d)]) 0%Q = 0%Q /\ history_row v i < i /\ ~ (nth (history_row v i) (trend_scores (length v) [(history_row v i, d)]) 0 == 0)%Q.
Proof.
  intros v i j d L J M N D. assert (H : history_row v i < i).
  { clear N D. unfold history_row. revert i j L J M. induction v as [|o v IH]; intros [|i] [|j] L J M; cbn in *; try lia.
    - subst o. assert (length (filter (fun o : option Q => match o with Some _ => true | None => false end) (firstn i v)) <= i); [|lia]. assert (X : length (firstn i v) <= i) by (rewrite firstn_length; lia). revert X. generalize (firstn i v). intros l X. assert (length (filter (fun o : option Q => match o with Some _ => true | None => false end) l) <= length l); [|lia]. clear. induction l as [|[|] l IH]; cbn; lia.
    - specialize (IH i j ltac:(lia) ltac:(lia) M). destruct o; cbn; lia. }
  assert (ND : NoDup (map fst [(history_row v i, d)])) by (constructor; [intros []|constructor]).
  destruct (C257_scores (length v) [(history_row v i, d)] ND) as (_ & Z & P & _); [intros a b [E|[]]; injection E as <- <-; lia|].
  split; [apply Z; [exact L|]; cbn; intros [E|[]]; lia|]. split; [exact H|]. rewrite (P _ _ (or_introl eq_refl)). exact D.
Qed.
Example C257_case : trend_scores 4 [(1, [1; -(3)]%Q); (2, [2; 3]%Q)] = [0; Qabs ((1 + (-(3) + 0)) / 2); Qabs ((2 + (3 + 0)) / 2); 0]%Q /\ history_row [Some 1; None; Some 2]%Q 2 = 1.
Proof. split; reflexivity. Qed.

Print Assumptions C253_deviation.
Print Assumptions C253_z_score.
Print Assumptions C253_wider.
Print Assumptions C254_process.
Print Assumptions C254_names.
Print Assumptions C254_weekend_partial.
Print Assumptions C254_twice_refuted.
Print Assumptions C254_epoch_refuted.
Print Assumptions C254_masks.
Print Assumptions C255_excluded.
Print Assumptions C255_outliers.
Print Assumptions C255_logistic_refuted.
Print Assumptions C255_saturation.
Print Assumptions C255_history_refuted.
Print Assumptions C256_rows.
Print Assumptions C256_scores.
Print Assumptions C256_holidays_refuted.
Print Assumptions C256_reloaded_refuted.
Print Assumptions C256_unknown_refuted.
Print Assumptions C257_scores.
Print Assumptions C257_rows.
Print Assumptions C257_missing_refuted.

Print Assumptions C255_training.
