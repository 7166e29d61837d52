(** C115, C116, C117: the usual pattern, refused inputs, and units. *)
From Verif Require Import Common MedianSpec MedianProofs HourlyModel HourlySpec HourlyProofs HourlyProps HourlyDetectProps.
From Verif Require TSDataModel TSDataSpec TSDataProofs MetricsModel.
From Coq Require Import Permutation Sorted.
Open Scope Z_scope.

(** ** C115 *)
Lemma pattern_one f agg data inc rows d : preprocess f agg data = Some (inc, rows) ->
  (exists r, In r rows /\ h_date (r_row r) = d) -> (forall r, In r rows -> exists x, r_ratio r = Some x) ->
  (qsum (pat rows d) == 1)%Q.
Proof.
  intros H (r & Ir & Er) A. pose proof (rows_date _ _ _ _ _ d H) as R. cbv zeta in R.
  set (F := filter (of_date d) (prepared f agg data)) in *. set (s := qsum (map h_val F)) in *.
  assert (J : In r (day_rows d rows)) by (apply filter_In; split; [exact Ir|apply Z.eqb_eq, Er]).
  destruct (count d (prepared f agg data) =? 24)%nat; [|rewrite R in J; destruct J].
  destruct (Qeq_bool s 0) eqn:E.
  - exfalso. destruct (A r Ir) as (x & Ex). rewrite R in J. apply in_map_iff in J as (y & <- & _). discriminate.
  - assert (N : ~ (s == 0)%Q) by (intros C; apply Qeq_bool_iff in C; congruence).
    unfold pat. rewrite R, map_map. cbn [r_ratio number].
    destruct (shares_one (map h_val F) s ltac:(reflexivity) N) as (x & Ex & Sx). rewrite <- Sx. rewrite E in Ex. rewrite map_map in Ex.
    rewrite <- (numbers_of _ _ _ Ex). reflexivity.
Qed.
Lemma qsum_nth l l' : length l = length l' -> (forall i, (i < length l)%nat -> nth i l 0 == nth i l' 0)%Q -> (qsum l == qsum l')%Q.
Proof.
  revert l'. induction l as [|x l IH]; intros [|y l'] L H; try discriminate; [reflexivity|]. cbn. rewrite (H 0%nat) by (cbn; lia). cbn.
  rewrite (IH l'); [reflexivity|cbn in L; lia|]. intros i Hi. apply (H (S i)). cbn. lia.
Qed.
(** A day that follows the typical pattern of its weekday to the letter is compared as if it were 23
    times that pattern away: the pattern is scaled by 24 before it is subtracted from ratios which add
    up to one. *)
Theorem C115_typical_refuted : forall precision f agg data inc rows w days typical x p i,
  preprocess f agg data = Some (inc, rows) -> (forall r, In r rows -> exists v, r_ratio r = Some v) ->
  compared precision rows w days typical x p -> (i < length days)%nat ->
  (forall h, (h < 24)%nat -> number (nth h (map r_ratio (filter (fun r => h_date (r_row r) =? nth i days 0%Z) rows)) None) == nth h typical 0)%Q ->
  (forall h, (h < 23)%nat -> nth h (nth i x []) 0 == - (23) * nth h typical 0)%Q /\
  (quadratic p (nth i x []) == 529 * quadratic p (firstn 23 typical))%Q.
Proof.
  intros precision f agg data inc rows w days typical x p i HP A C Hi HT.
  destruct C as (_ & _ & HD & LT & NZ & _ & _ & LX & HX). destruct (HX i Hi) as [LXi HXi].
  assert (K : exists r, In r rows /\ h_date (r_row r) = nth i days 0) by (apply HD, nth_In, Hi).
  assert (L24 : length (pat rows (nth i days 0)) = 24%nat).
  { unfold pat. rewrite map_length. destruct K as (r & Ir & Er). rewrite <- Er. destruct (pre_table _ _ _ _ _ HP) as [_ T]. apply (T r Ir). }
  assert (S1 : (qsum typical == 1)%Q).
  { rewrite <- (pattern_one _ _ _ _ _ _ HP K A). symmetry. apply qsum_nth; [rewrite L24, LT; reflexivity|]. intros h Hh. rewrite L24 in Hh.
    rewrite <- (HT h Hh). unfold pat, day_rows. rewrite nth_number. reflexivity. }
  assert (E : forall h, (h < 23)%nat -> (nth h (nth i x []) 0 == - (23) * nth h typical 0)%Q).
  { intros h Hh. rewrite (HXi h Hh), (HT h ltac:(lia)), S1. field. }
  split; [exact E|]. unfold quadratic.
  assert (LF : length (firstn 23 typical) = 23%nat) by (rewrite firstn_length, LT; reflexivity). rewrite LXi, LF.
  rewrite <- sumn_scale. apply sumn_ext. intros a Ha. rewrite <- sumn_scale. apply sumn_ext. intros b Hb.
  rewrite (E a Ha), (E b Hb), !nth_first by assumption. ring.
Qed.
(** a week of seven days with the same, flat, pattern *)
Definition flat_week : list (Z * option Q) := flat_map (fun d => hourly_data d (fun _ => 1%Q)) [4; 5; 6; 7; 8; 9; 10].
Definition scaled_identity (c : Q) : list (list Q) := map (fun i => map (fun j => if Nat.eqb i j then c else 0%Q) (seq 0 23)) (seq 0 23).
Definition toy_tail (s : Q) : Q := (1 / (1 + Qabs s))%Q.
Lemma toy_tail_ext x y : (x == y)%Q -> (toy_tail x == toy_tail y)%Q.
Proof. unfold toy_tail. intros ->. reflexivity. Qed.

(** ** C116: refused inputs *)
(** without a kept day for one of the weekdays the detector raises, whatever the other days *)
Theorem C116_weekday_refuted : forall precision tail f agg data inc rows w,
  preprocess f agg data = Some (inc, rows) -> 0 <= w < 7 ->
  (forall r, In r rows -> ~ falls_on w (h_date (r_row r))) ->
  detector precision tail f agg data = None.
Proof.
  intros precision tail f agg data inc rows w HP R N. unfold detector. destruct (valid_frequency f agg); [|reflexivity]. rewrite HP.
  destruct (all_some (map (one_weekday precision tail rows) [0; 1; 2; 3; 4; 5; 6])) as [outs|] eqn:EA; [exfalso|reflexivity]. apply all_some_spec in EA.
  assert (W : exists o, one_weekday precision tail rows w = Some o).
  { cbn in EA. destruct outs as [|o0 [|o1 [|o2 [|o3 [|o4 [|o5 [|o6 [|]]]]]]]]; try discriminate. injection EA as E0 E1 E2 E3 E4 E5 E6.
    assert (C : w = 0 \/ w = 1 \/ w = 2 \/ w = 3 \/ w = 4 \/ w = 5 \/ w = 6) by lia.
    destruct C as [->|[->|[->|[->|[->|[->| ->]]]]]]; eauto. }
  destruct W as (o & W). destruct (weekday_ok _ _ _ _ _ (pre_table _ _ _ _ _ HP) W) as (days & t & x & p & C & _).
  destruct C as (ND & _ & HD & _). destruct days as [|d D]; [congruence|]. destruct (proj1 (HD d) (or_introl eq_refl)) as [F (r & I & E)].
  apply (N r I). rewrite E. exact F.
Qed.
(** a single complete day whose values add up to zero makes it raise as well *)
Theorem C116_zero_refuted : forall precision tail data d,
  length (seen data d) = 24%nat -> (total (seen data d) == 0)%Q -> detector precision tail Hourly None data = None.
Proof.
  intros precision tail data d L Z0. unfold detector. cbn [valid_frequency].
  destruct (preprocess Hourly None data) as [[inc rows]|] eqn:HP; [|reflexivity].
  destruct (all_some (map (one_weekday precision tail rows) [0; 1; 2; 3; 4; 5; 6])) as [outs|] eqn:EA; [exfalso|reflexivity]. apply all_some_spec in EA.
  destruct (C42_hourly _ _ _ _ _ (or_introl eq_refl) HP d) as (_ & _ & K). destruct (K L) as (obs & P & _ & F2 & _). clear K.
  set (w := weekday d). assert (R : 0 <= w < 7) by (apply Z.mod_pos_bound; lia).
  assert (W : exists o, one_weekday precision tail rows w = Some o).
  { cbn in EA. destruct outs as [|o0 [|o1 [|o2 [|o3 [|o4 [|o5 [|o6 [|]]]]]]]]; try discriminate. injection EA as E0 E1 E2 E3 E4 E5 E6.
    assert (C : w = 0 \/ w = 1 \/ w = 2 \/ w = 3 \/ w = 4 \/ w = 5 \/ w = 6) by lia.
    destruct C as [->|[->|[->|[->|[->|[->| ->]]]]]]; eauto. }
  destruct W as (o & W). destruct (weekday_ok _ _ _ _ _ (pre_table _ _ _ _ _ HP) W) as (days & t & x & p & _ & A & _).
  apply Permutation_length in P. rewrite L in P. destruct obs as [|o1 l1]; [discriminate|].
  inversion F2 as [|? r ? l2 (_ & SH & _) _ E1 E2]; subst.
  assert (I : In r (filter (fun r => h_date (r_row r) =? d) rows)) by (rewrite <- E2; left; reflexivity). apply filter_In in I as [I D]. apply Z.eqb_eq in D.
  destruct (A r I) as (v & Ev); [unfold rdate; rewrite D; reflexivity|].
  destruct SH as [[_ B]|[B _]]; [congruence|contradiction].
Qed.
(** Otherwise it runs: kept days on every weekday, positive values and a covariance estimate that
    exists are enough. *)
Lemma nth_pos l i : (forall x, In x l -> 0 < x)%Q -> (i < length l)%nat -> (0 < nth i l 0)%Q.
Proof. intros H L. apply H, nth_In, L. Qed.
Lemma median_pos l v : l <> [] -> (forall x, In x l -> 0 < x)%Q -> median_of l v -> (0 < v)%Q.
Proof.
  intros N H (s & P & _ & E). rewrite E. assert (L : (1 <= length l)%nat) by (destruct l; [congruence|cbn; lia]).
  destruct (half_bounds (length l) L) as (B1 & B2 & _). assert (H' : forall x, In x s -> (0 < x)%Q) by (intros x I; apply H, (Permutation_in _ (Permutation_sym P)), I).
  rewrite (Permutation_length P) in *. pose proof (nth_pos s ((length s - 1) / 2) H' ltac:(lia)). pose proof (nth_pos s (length s / 2) H' ltac:(lia)).
  apply Qlt_shift_div_l; lra.
Qed.
Lemma qsum_pos l : l <> [] -> (forall x, In x l -> 0 < x)%Q -> (0 < qsum l)%Q.
Proof.
  intros N H. destruct l as [|x l]; [congruence|]. cbn. assert (0 < x)%Q by (apply H; left; reflexivity).
  assert (0 <= qsum l)%Q by (apply qsum_nonneg; intros y I; apply Qlt_le_weak, H; right; exact I). lra.
Qed.
(** A frequency above an hour, or another one than an hour without aggregation, is refused; C116_runs_partial is about
    the others. *)
Theorem C116_frequency : forall f agg,
  (valid_frequency f agg = false <-> match f with Hourly => False | Named => agg = None | Delta n => hour_ns < n \/ n < hour_ns /\ agg = None end) /\
  (valid_frequency f agg = false -> forall precision tail data, detector precision tail f agg data = None).
Proof.
  intros f agg. split.
  - destruct f as [| |n]; cbn [valid_frequency]; [split; [discriminate|tauto]|destruct agg; split; congruence|]. destruct (Z.eqb_spec n hour_ns); [split; [discriminate|intros [H|[H _]]; lia]|]. destruct (Z.ltb_spec n hour_ns); [|split; [left; lia|reflexivity]]. destruct agg; split; try discriminate; auto. intros [H'|[_ C]]; [lia|discriminate].
  - intros H precision tail data. unfold detector. rewrite H. reflexivity.
Qed.
Theorem C116_runs_partial : forall precision tail f agg data inc rows,
  valid_frequency f agg = true -> preprocess f agg data = Some (inc, rows) ->
  (forall x, precision x <> None) -> (forall r, In r rows -> 0 < h_val (r_row r))%Q ->
  (forall w, 0 <= w < 7 -> exists r, In r rows /\ falls_on w (h_date (r_row r))) ->
  exists res, detector precision tail f agg data = Some res.
Proof.
  intros precision tail f agg data inc rows HV HP HC POS HW. unfold detector. rewrite HV, HP.
  pose proof (pre_table _ _ _ _ _ HP) as T.
  assert (RP : forall r, In r rows -> exists x, r_ratio r = Some x /\ (0 < x)%Q).
  { intros r I. pose proof (rows_date _ _ _ _ _ (rdate r) HP) as RD. cbv zeta in RD.
    assert (J : In r (day_rows (rdate r) rows)) by (apply filter_In; split; [exact I|apply Z.eqb_refl]). rewrite RD in J.
    destruct (count (rdate r) (prepared f agg data) =? 24)%nat; [|destruct J]. set (F := filter (of_date (rdate r)) (prepared f agg data)) in *.
    assert (SP : (0 < qsum (map h_val F))%Q).
    { apply qsum_pos; [intros C; apply map_eq_nil in C; rewrite C in J; destruct J|]. intros v Iv. apply in_map_iff in Iv as (y & <- & Iy).
      assert (Q : In (RRow y (if Qeq_bool (qsum (map h_val F)) 0 then None else Some (h_val y / qsum (map h_val F))%Q)) (day_rows (rdate r) rows)) by (rewrite RD; apply in_map_iff; exists y; auto).
      apply filter_In in Q as [Q _]. apply (POS _ Q). }
    apply in_map_iff in J as (y & Ey & Iy). rewrite <- Ey in I |- *. cbn [r_ratio].
    destruct (Qeq_bool (qsum (map h_val F)) 0) eqn:E; [apply Qeq_bool_iff in E; lra|]. eexists. split; [reflexivity|]. specialize (POS _ I). cbn in POS.
    apply Qlt_shift_div_l; lra. }
  assert (W : forall w, 0 <= w < 7 -> exists o, one_weekday precision tail rows w = Some o).
  { intros w R. unfold one_weekday.
    destruct (all_some (map r_ratio (filter (fun r => weekday (h_date (r_row r)) =? w) rows))) as [l|] eqn:E.
    - destruct (weekday_obs _ _ _ T E) as (EO & NE & _).
      assert (ND : kept_days rows w <> []).
      { destruct (HW w R) as (r & I & F). intros C. assert (In (rdate r) (kept_days rows w)) by (apply kept_days_in; split; [apply weekday_falls, F|eauto]). rewrite C in H. destruct H. }
      destruct l as [|a l']; [exfalso; apply ND, NE; reflexivity|]. rewrite EO. set (obs := map (pat rows) (kept_days rows w)).
      assert (MP : (0 < qsum (medians obs))%Q).
      { apply qsum_pos; [discriminate|]. intros v Iv. apply (In_nth _ _ 0%Q) in Iv as (h & Hh & <-). unfold medians in Hh. rewrite map_length, seq_length in Hh.
        pose proof (medians_ok rows (kept_days rows w) h Hh) as M. fold obs in M. eapply median_pos; [| |exact M].
        - intros C. apply map_eq_nil in C. contradiction.
        - intros y Iy. apply in_map_iff in Iy as (d & <- & Id). apply kept_days_in in Id as (_ & r & Ir & Er). destruct T as [_ T24]. specialize (T24 r Ir). rewrite Er in T24.
          assert (IN : In (nth h (pat rows d) 0%Q) (pat rows d)) by (apply nth_In; unfold pat; rewrite map_length, T24; exact Hh).
          unfold pat in IN at 2. apply in_map_iff in IN as (q & Eq & Iq). rewrite <- Eq. apply filter_In in Iq as [Iq _]. destruct (RP q Iq) as (z & Ez & Pz). rewrite Ez. exact Pz. }
      unfold centre. destruct (Qeq_bool (qsum (medians obs)) 0) eqn:EQ; [apply Qeq_bool_iff in EQ; lra|].
      match goal with |- context[precision ?x] => destruct (precision x) eqn:EP; [eexists; reflexivity|exfalso; apply (HC _ EP)] end.
    - exfalso. assert (A : exists x, map r_ratio (filter (fun r => weekday (h_date (r_row r)) =? w) rows) = map Some x).
      { assert (AL : forall r, In r (filter (fun r => weekday (h_date (r_row r)) =? w) rows) -> exists x, r_ratio r = Some x).
        { intros r I. apply filter_In in I as [I _]. destruct (RP r I) as (x & Ex & _). eauto. }
        revert AL. generalize (filter (fun r => weekday (h_date (r_row r)) =? w) rows). clear. induction l as [|r l IH]; intros AL; [exists []; reflexivity|].
        destruct (AL r (or_introl eq_refl)) as (x & Ex). destruct IH as (y & Ey); [intros; apply AL; right; assumption|]. exists (x :: y). cbn. rewrite Ex, Ey. reflexivity. }
      destruct A as (x & Ex). apply all_some_spec in Ex. congruence. }
  assert (G : forall l, (forall w, In w l -> 0 <= w < 7) -> exists o, all_some (map (one_weekday precision tail rows) l) = Some o).
  { induction l as [|w l IH]; intros Hl; [exists []; reflexivity|]. destruct (W w (Hl w (or_introl eq_refl))) as (o & Eo). destruct IH as (q & Eq); [intros; apply Hl; right; assumption|].
    exists (o :: q). cbn. rewrite Eo, Eq. reflexivity. }
  destruct (G [0; 1; 2; 3; 4; 5; 6]) as (o & Eo); [cbn; intros; lia|]. rewrite Eo. eexists. reflexivity.
Qed.
(** daily data labelled with a frequency name pass the frequency check when an aggregation is given *)
Example C116_case : valid_frequency Named (Some Sum) = true /\ valid_frequency (Delta (24 * hour_ns)) (Some Sum) = false /\
  valid_frequency (Delta (hour_ns / 2)) None = false /\ valid_frequency Hourly None = true /\
  (exists inc rows, preprocess Hourly None flat_week = Some (inc, rows) /\ inc = [] /\ length rows = 168%nat).
Proof. repeat split. do 2 eexists. split; [vm_compute; reflexivity|]. split; reflexivity. Qed.

(** ** C117: units *)
Definition scale (c : Q) (data : list (Z * option Q)) : list (Z * option Q) :=
  map (fun r => (fst r, option_map (Qmult c) (snd r))) data.
Definition vscale (c : Q) (r : Z * Q) : Z * Q := (fst r, (c * snd r)%Q).
Lemma dropna_scale c data : dropna (scale c data) = map (vscale c) (dropna data).
Proof. induction data as [|[t [v|]] data IH]; [reflexivity| |]; cbn [scale map]; cbn; [f_equal; exact IH|exact IH]. Qed.
Lemma sort_scale c l : TSDataModel.sort_rows (map (vscale c) l) = map (vscale c) (TSDataModel.sort_rows l).
Proof.
  induction l as [|r l IH]; [reflexivity|]. cbn [map TSDataModel.sort_rows]. rewrite IH. generalize (TSDataModel.sort_rows l). clear.
  induction l as [|x l IH]; [reflexivity|]. cbn. destruct (fst r <=? fst x); [reflexivity|]. cbn. rewrite IH. reflexivity.
Qed.
Definition related (c : Q) (r r' : hrow) : Prop := h_date r' = h_date r /\ h_hour r' = h_hour r /\ (h_val r' == c * h_val r)%Q.
Lemma plain_scale c data : plain (scale c data) = map (fun r => HRow (h_date r) (h_hour r) (c * h_val r)%Q) (plain data).
Proof. unfold plain. rewrite dropna_scale, sort_scale, !map_map. reflexivity. Qed.
Lemma forall2_map {A B} (R : A -> B -> Prop) f l : (forall x, In x l -> R x (f x)) -> Forall2 R l (map f l).
Proof. induction l as [|x l IH]; intros H; cbn; constructor; [apply H; left; reflexivity|apply IH; intros; apply H; right; assumption]. Qed.
Lemma agg_scale c a l : (0 < c)%Q -> (apply_agg a (map (Qmult c) l) == c * apply_agg a l)%Q.
Proof.
  intros Hc. assert (B : forall x y, Qle_bool (c * x) (c * y) = Qle_bool x y).
  { intros x y. apply eq_true_iff_eq. rewrite !Qle_bool_iff. split; intros H; nra. }
  assert (S : (qsum (map (Qmult c) l) == c * qsum l)%Q) by (induction l as [|x l IH]; cbn; [ring|rewrite IH; ring]).
  destruct a; cbn [apply_agg].
  - destruct l as [|x l]; [cbn; ring|]. cbn [map]. clear S. revert x. induction l as [|y l IH]; intros x; [reflexivity|]. cbn [map fold_left].
    unfold qmin at 2 4. rewrite B. destruct (Qle_bool x y); apply IH.
  - destruct l as [|x l]; [cbn; ring|]. cbn [map]. clear S. revert x. induction l as [|y l IH]; intros x; [reflexivity|]. cbn [map fold_left].
    unfold qmax at 2 4. rewrite B. destruct (Qle_bool x y); apply IH.
  - exact S.
  - destruct l as [|x l]; [unfold Qeq; cbn; ring|]. rewrite map_length. rewrite S. field. unfold Qeq. cbn. lia.
Qed.
Lemma prepared_scale c f agg data : (0 < c)%Q -> Forall2 (related c) (prepared f agg data) (prepared f agg (scale c data)).
Proof.
  intros Hc. assert (P : Forall2 (related c) (plain data) (plain (scale c data))).
  { rewrite plain_scale. apply forall2_map. intros r _. split; [reflexivity|split; reflexivity]. }
  assert (G : forall a, Forall2 (related c) (grouped a (plain data)) (grouped a (plain (scale c data)))).
  { intros a. unfold grouped. rewrite plain_scale. rewrite map_map.
    replace (map (fun x => key (HRow (h_date x) (h_hour x) (c * h_val x)%Q)) (plain data)) with (map key (plain data)) by (apply map_ext; reflexivity).
    generalize (uniq key_eqb (map key (plain data))). induction l as [|k l IH]; cbn [map]; constructor; [|exact IH].
    split; [reflexivity|split; [reflexivity|]]; cbn [h_val]. rewrite filter_map, map_map. cbn [key h_date h_hour h_val].
    change (fun x => key_eqb (key (HRow (h_date x) (h_hour x) (c * h_val x)%Q)) k) with (fun x => key_eqb (key x) k).
    rewrite <- (map_map h_val (Qmult c)). apply agg_scale, Hc. }
  unfold prepared. fold (plain data). fold (plain (scale c data)). destruct f, agg; try exact P; apply G.
Qed.
Definition same_ratio (a b : option Q) : Prop := match a, b with Some x, Some y => (x == y)%Q | None, None => True | _, _ => False end.
Lemma forall2_filter {A} (R : A -> A -> Prop) (f g : A -> bool) l l' : Forall2 R l l' -> (forall x y, R x y -> f x = g y) -> Forall2 R (filter f l) (filter g l').
Proof. intros F H. induction F as [|x y l l' Rxy F IH]; cbn; [constructor|]. rewrite <- (H x y Rxy). destruct (f x); [constructor; assumption|exact IH]. Qed.
Lemma forall2_length' {A B} (R : A -> B -> Prop) l l' : Forall2 R l l' -> length l = length l'.
Proof. induction 1; cbn; auto. Qed.
Lemma related_sum c l l' : Forall2 (related c) l l' -> (qsum (map h_val l') == c * qsum (map h_val l))%Q.
Proof. induction 1 as [|x y l l' (_ & _ & V) F IH]; cbn; [ring|]. rewrite V, IH. ring. Qed.
(** Measuring in other units (all values multiplied by a positive constant) changes neither the dates
    kept or reported as incomplete nor any ratio. *)
Theorem C117_units : forall c f agg data, (0 < c)%Q ->
  match preprocess f agg data, preprocess f agg (scale c data) with
  | Some (inc, rows), Some (inc', rows') =>
      inc' = inc /\
      Forall2 (fun r r' => h_date (r_row r') = h_date (r_row r) /\ h_hour (r_row r') = h_hour (r_row r) /\
                           same_ratio (r_ratio r) (r_ratio r')) rows rows'
  | None, None => True
  | _, _ => False
  end.
Proof.
  intros c f agg data Hc. pose proof (prepared_scale c f agg data Hc) as P. unfold preprocess. cbv zeta.
  set (df := prepared f agg data) in *. set (df' := prepared f agg (scale c data)) in *. fold (keep df). fold (keep df').
  assert (CT : forall d, count d df' = count d df).
  { intros d. unfold count. symmetry. eapply forall2_length', (forall2_filter (related c)); [exact P|]. intros x y (D & _). unfold of_date. rewrite D. reflexivity. }
  assert (K : Forall2 (related c) (keep df) (keep df')).
  { unfold keep. apply (forall2_filter _ _ _ _ _ P). intros x y (D & _). rewrite D, CT. reflexivity. }
  assert (IE : uniq Z.eqb (map h_date (filter (fun r => (count (h_date r) df' <? 24)%nat) df')) = uniq Z.eqb (map h_date (filter (fun r => (count (h_date r) df <? 24)%nat) df))).
  { f_equal. assert (F : Forall2 (related c) (filter (fun r => (count (h_date r) df <? 24)%nat) df) (filter (fun r => (count (h_date r) df' <? 24)%nat) df')).
    { apply (forall2_filter _ _ _ _ _ P). intros x y (D & _). rewrite D, CT. reflexivity. }
    clear - F. induction F as [|x y l l' (D & _) F IH]; [reflexivity|]. cbn. rewrite D, IH. reflexivity. }
  assert (RS : forall x y, related c x y -> same_ratio (ratio (keep df) x) (ratio (keep df') y)).
  { intros x y (D & _ & V). unfold ratio. rewrite D.
    assert (S : (qsum (map h_val (filter (of_date (h_date x)) (keep df'))) == c * qsum (map h_val (filter (of_date (h_date x)) (keep df))))%Q).
    { apply related_sum, (forall2_filter _ _ _ _ _ K). intros a b (E & _). unfold of_date. rewrite E. reflexivity. }
    set (s := qsum (map h_val (filter (of_date (h_date x)) (keep df)))) in *. set (s' := qsum (map h_val (filter (of_date (h_date x)) (keep df')))) in *. clearbody s s'.
    destruct (Qeq_bool s 0) eqn:E; destruct (Qeq_bool s' 0) eqn:E'; cbn; auto.
    - apply Qeq_bool_iff in E. apply Qeq_bool_neq in E'. apply E'. rewrite S, E. ring.
    - apply Qeq_bool_iff in E'. apply Qeq_bool_neq in E. apply E. rewrite E' in S. nra.
    - apply Qeq_bool_neq in E, E'. rewrite V, S. field. split; [exact E|lra]. }
  pose proof (forall2_length' _ _ _ K) as NL.
  destruct (keep df) as [|x l] eqn:E1; destruct (keep df') as [|x' l'] eqn:E2; [exact I| | |].
  - discriminate NL.
  - discriminate NL.
  - split; [exact IE|]. rewrite <- E1, <- E2 in *. clear - K RS. revert RS. generalize (ratio (keep df)) (ratio (keep df')). intros g g' RS.
    induction K as [|a b l l' R K IH]; cbn; constructor; [|exact IH]. cbn. pose proof (RS _ _ R). destruct R as (D & HH & _). auto.
Qed.
Example C117_case : exists inc rows, preprocess (Delta (hour_ns / 2)) (Some Mean) (hourly_data 0 inject_Z ++ half_hours 1) = Some (inc, rows) /\
  length rows = 48%nat /\ exists inc' rows', preprocess (Delta (hour_ns / 2)) (Some Mean) (scale 3 (hourly_data 0 inject_Z ++ half_hours 1)) = Some (inc', rows').
Proof. do 2 eexists. split; [vm_compute; reflexivity|]. split; [reflexivity|]. do 2 eexists. vm_compute; reflexivity. Qed.
Example C42_case : exists inc rows, preprocess Hourly None (hourly_data 0 inject_Z ++ [(day_ns, Some 1%Q); (day_ns + 1, None)]) = Some (inc, rows) /\
  inc = [1] /\ length rows = 24%nat.
Proof. do 2 eexists. split; [vm_compute; reflexivity|]. split; reflexivity. Qed.
Example C114_case : exists res inc rows, detector (fun _ => Some (scaled_identity 1)) toy_tail Hourly None flat_week = Some res /\
  preprocess Hourly None flat_week = Some (inc, rows) /\ length rows = 168%nat.
Proof.
  assert (P : exists inc rows, preprocess Hourly None flat_week = Some (inc, rows) /\ length rows = 168%nat /\
      forallb (fun r => negb (Qle_bool (h_val (r_row r)) 0)) rows = true /\
      map (fun w => existsb (fun r => weekday (h_date (r_row r)) =? w) rows) [0; 1; 2; 3; 4; 5; 6] = [true; true; true; true; true; true; true]).
  { do 2 eexists. split; [vm_compute; reflexivity|]. split; [reflexivity|]. split; vm_compute; reflexivity. }
  destruct P as (inc & rows & P & L & V & W).
  destruct (C116_runs_partial (fun _ => Some (scaled_identity 1)) toy_tail Hourly None flat_week inc rows eq_refl P) as (res & R).
  - discriminate.
  - intros r I. rewrite forallb_forall in V. specialize (V r I). apply negb_true_iff in V. apply Qnot_le_lt. intros C. apply Qle_bool_iff in C. congruence.
  - intros w Hw. assert (X : existsb (fun r => weekday (h_date (r_row r)) =? w) rows = true).
    { cbn [map] in W. injection W as W0 W1 W2 W3 W4 W5 W6. assert (C : w = 0 \/ w = 1 \/ w = 2 \/ w = 3 \/ w = 4 \/ w = 5 \/ w = 6) by lia.
      destruct C as [->|[->|[->|[->|[->|[->| ->]]]]]]; assumption. }
    apply existsb_exists in X as (r & I & E). exists r. split; [exact I|]. apply weekday_falls, Z.eqb_eq, E.
  - exists res, inc, rows. auto.
Qed.

Print Assumptions C115_typical_refuted.
Print Assumptions C116_weekday_refuted.
Print Assumptions C116_zero_refuted.
Print Assumptions C116_runs_partial.
Print Assumptions C117_units.

Print Assumptions C116_frequency.
