(** C277: what the scores of the CUSUM model say, and that every row of the data has one. *)
From Verif Require Import Common PySlice CusumModel CusumDetModel CusumSpec CusumProofs CusumStateProofs
  CusumDetProps CusumMagProps CusumRunModel CusumShiftProofs CusumPathProofs CusumPathProps.
Require Import Reals.
Require Import String List.
Require Import Sorted.
Open Scope Z_scope.

(** ** Specification *)

(** [v] is the score of a value [x] against a mean and a standard deviation: how far it is from
    the mean, in units, in parts of the mean, or in standard deviations. *)
Definition graded (k : score_kind) (mean std : option Q) (x : Q) (v : value) : Prop :=
  let off_by (unit : option Q) :=
    match mean, unit with
    | Some m, Some u => ~ (u == 0)%Q -> exists q, v = V q /\ (m + q * u == x)%Q
    | _, _ => v = VNaN
    end in
  match k with
  | Change => off_by (match mean with None => None | Some _ => Some 1%Q end)
  | Percentage => off_by mean
  | ZScore => off_by std
  end.
(** the mean of the last [w] values up to row [i], with zeros before the first row *)
Definition moving_average (w : nat) (vals : list Q) (i : nat) (x : Q) : Prop :=
  (x * inject_Z (Z.of_nat w) == qsum (map (fun j => if (j <=? i)%nat then nth (i - j) vals 0 else 0) (seq 0 w)))%Q.

(** ** Lemmas *)
Lemma some_eq {A} (x y : A) : Some x = Some y -> x = y.
Proof. intros H. injection H as H. exact H. Qed.
Lemma score_graded k mean std x : graded k mean std x (score k mean std x).
Proof.
  destruct k, mean as [m|], std as [s|]; cbn; try reflexivity; intros N; unfold div_value.
  1,2: eexists; split; [reflexivity|]; field.
  1,2: destruct (Qeq_bool m 0) eqn:E; [apply Qeq_bool_iff in E; contradiction|]; eexists; split; [reflexivity|]; field; exact N.
  destruct (Qeq_bool s 0) eqn:E; [apply Qeq_bool_iff in E; contradiction|]. eexists. split; [reflexivity|]. field. exact N.
Qed.
Lemma sorted_nth_lt times : StronglySorted Z.lt times -> forall i j x y,
  nth_error times i = Some x -> nth_error times j = Some y -> (x < y <-> (i < j)%nat).
Proof.
  induction 1 as [|a l S IH F]; intros i j x y I J; [destruct i; discriminate|]. rewrite Forall_forall in F.
  destruct i as [|i], j as [|j]; cbn in I, J.
  - injection I as <-. injection J as <-. lia.
  - injection I as <-. apply nth_error_In in J. specialize (F _ J). lia.
  - injection J as <-. apply nth_error_In in I. specialize (F _ I). lia.
  - rewrite (IH _ _ _ _ I J). lia.
Qed.
Lemma nth_map_const {A B} (c : B) (l : list A) i v : nth_error (map (fun _ => c) l) i = Some v -> v = c.
Proof. intros H. apply nth_error_In, in_map_iff in H as (? & <- & _). reflexivity. Qed.
Lemma zero_until_nth i f vals j : 0 <= i -> i < Z.of_nat (length vals) ->
  nth_error (zero_until i f vals) j =
    if (j <? length vals)%nat then
      if Z.of_nat j <=? i then Some (V 0) else option_map f (nth_error vals j)
    else None.
Proof.
  intros I0 I1. unfold zero_until. rewrite slice_first, slice_last by lia.
  set (c := Z.to_nat (i + 1)). assert (LF : length (firstn c vals) = c) by (rewrite firstn_length; lia).
  destruct (Nat.ltb_spec j (length vals)).
  - destruct (Z.leb_spec (Z.of_nat j) i).
    + rewrite nth_error_app1 by (rewrite map_length; lia). rewrite nth_error_map.
      destruct (nth_error (firstn c vals) j) eqn:E; [reflexivity|]. apply nth_error_None in E. lia.
    + rewrite nth_error_app2 by (rewrite map_length; lia). rewrite map_length, LF, nth_error_map. f_equal.
      rewrite <- (firstn_skipn c vals) at 2. rewrite nth_error_app2 by lia. rewrite LF. reflexivity.
  - apply nth_error_None. rewrite app_length, !map_length, LF, skipn_length. lia.
Qed.

(** ** The scores of one scan *)

(** After a scan a row of the data has a score other than zero only if there is an alert and the
    row is later than the change; then the score compares its value with the level before the
    change. *)
Theorem C277_scan : forall k s times vals w i t x v,
  StronglySorted Z.lt times -> length times = length vals ->
  predict k s times vals = Some w ->
  nth_error times i = Some t -> nth_error vals i = Some x -> nth_error w i = Some v ->
  length w = length vals /\
  (alert_fired s = false -> v = V 0) /\
  (alert_fired s = true -> cps s <> [] /\
    (t <= last (cps s) 0 * 1000000000 -> v = V 0) /\
    (last (cps s) 0 * 1000000000 < t -> graded k (pre_mean s) (pre_std s) x v)).
Proof.
  intros k s times vals w i t x v ST LT H T X N. unfold predict in H. destruct (alert_fired s).
  - destruct (rev (cps s)) as [|cp r] eqn:RV; [discriminate|]. pose proof (rev_last (cps s) 0 cp r RV) as RL.
    assert (RN : cps s <> []) by (intros E; rewrite E in RV; discriminate).
    destruct times as [|t0 tl]; [discriminate|]. rewrite RL. unfold second in H.
    destruct (Z.leb_spec t0 (cp * 1000000000)) as [LE|GT].
    + destruct (find_time (t0 :: tl) (cp * 1000000000) 0) as [p|] eqn:F; [|discriminate]. cbn in H. apply some_eq in H.
      apply find_time_spec in F as (P0 & P1). rewrite Z.sub_0_r in P1.
      assert (PL : (Z.to_nat p < length vals)%nat) by (rewrite <- LT; apply nth_error_Some; congruence).
      assert (IL : (i < length vals)%nat) by (apply nth_error_Some; congruence).
      subst w. split; [|split; [discriminate|intros _; split; [exact RN|]]].
      * unfold zero_until. rewrite app_length, !map_length, <- app_length, py_slice_split. reflexivity.
      * rewrite zero_until_nth in N by lia. destruct (Nat.ltb_spec i (length vals)); [|lia].
        pose proof (sorted_nth_lt _ ST _ _ _ _ P1 T) as SL.
        destruct (Z.leb_spec (Z.of_nat i) p).
        -- injection N as <-. split; [reflexivity|]. intros L. apply SL in L. lia.
        -- rewrite X in N. injection N as <-. split; [intros L|intros _; apply score_graded].
           assert (C : (Z.to_nat p < i)%nat) by lia. apply SL in C. lia.
    + apply some_eq in H. subst w. rewrite map_length. split; [reflexivity|split; [discriminate|intros _; split; [exact RN|]]].
      rewrite nth_error_map, X in N. injection N as <-. split; [intros L|intros _; apply score_graded].
      exfalso. pose proof (sorted_nth_lt _ ST 0%nat i _ _ eq_refl T) as SL. destruct i as [|i]; [cbn in T; injection T as <-; lia|].
      assert (t0 < t) by (apply SL; lia). lia.
  - apply some_eq in H. subst w. rewrite map_length. split; [reflexivity|]. split; [intros _|discriminate]. now apply nth_map_const in N.
Qed.

(** ** The scores of a call *)
Lemma window_sum vals i : (i < length vals)%nat -> forall w,
  (qsum (skipn (Datatypes.S i - w) (firstn (Datatypes.S i) vals)) ==
   qsum (map (fun j => if (j <=? i)%nat then nth (i - j) vals 0 else 0) (seq 0 w)))%Q.
Proof.
  intros L. assert (LF : length (firstn (Datatypes.S i) vals) = Datatypes.S i) by (rewrite firstn_length; lia).
  induction w as [|w IH].
  - rewrite Nat.sub_0_r, skipn_all2 by lia. reflexivity.
  - rewrite seq_S, map_app, qsum_app, <- IH. cbn [map Nat.add qsum].
    destruct (Nat.leb_spec w i).
    + assert (E : skipn (Datatypes.S i - Datatypes.S w) (firstn (Datatypes.S i) vals)
        = nth (i - w) vals 0%Q :: skipn (Datatypes.S i - w) (firstn (Datatypes.S i) vals)).
      { replace (Datatypes.S i - w)%nat with (Datatypes.S (i - w)) by lia. cbn [Nat.sub].
        assert (K : (i - w < length (firstn (Datatypes.S i) vals))%nat) by lia.
        assert (N : nth (i - w) (firstn (Datatypes.S i) vals) 0%Q = nth (i - w) vals 0%Q).
        { rewrite <- (firstn_skipn (Datatypes.S i) vals) at 2. rewrite app_nth1 by lia. reflexivity. }
        rewrite <- N. clear - K. revert K. generalize (firstn (Datatypes.S i) vals), (i - w)%nat. intros l.
        induction l as [|y l IH]; intros n K; cbn in K; [lia|]. destruct n as [|n]; [reflexivity|].
        cbn [skipn nth]. rewrite IH by lia. reflexivity. }
      rewrite E. cbn [qsum fold_right]. unfold qsum. cbn [fold_right]. ring.
    + replace (Datatypes.S i - Datatypes.S w)%nat with (Datatypes.S i - w)%nat by lia. unfold qsum. cbn [fold_right]. ring.
Qed.
Lemma smooth_average g f vals i x : nth_error (smooth_of g f vals) i = Some x -> (1 < smooth_window g f)%nat ->
  moving_average (smooth_window g f) vals i x.
Proof.
  intros H W. assert (L : (i < length vals)%nat) by (rewrite <- (smooth_length g f); apply nth_error_Some; congruence).
  unfold smooth_of, smoothed in H. destruct (Nat.ltb_spec 1 (smooth_window g f)); [|lia].
  set (w := smooth_window g f) in *. clearbody w. rewrite nth_error_map in H.
  destruct (nth_error (seq 0 (length vals)) i) as [j|] eqn:E; [|discriminate].
  assert (j = i).
  { apply nth_error_nth with (d := O) in E. rewrite seq_nth in E by exact L. lia. }
  subst j. cbn [option_map] in H. apply some_eq in H. subst x. unfold moving_average. rewrite window_sum by exact L.
  field. unfold Qeq. cbn. lia.
Qed.

(** the value a row is scored with: itself, or the moving average *)
Definition shown (w : nat) (vals : list Q) (i : nat) (y : Q) : Prop :=
  if (1 <? w)%nat then moving_average w vals i y else nth_error vals i = Some y.
Definition scored (g : config) (f : Z) (vals : list Q) (lo : nat) (v : list value) : Prop :=
  forall i x, nth_error v i = Some x ->
    x = V 0 \/ exists m sd y, shown (smooth_window g f) vals (lo + i) y /\ graded (g_score g) m sd y x.
Lemma scored_app g f vals lo v w : scored g f vals lo v -> scored g f vals (lo + length v) w ->
  scored g f vals lo (v ++ w).
Proof.
  intros A B i x N. destruct (Nat.lt_ge_cases i (length v)) as [L|L].
  - rewrite nth_error_app1 in N by exact L. exact (A _ _ N).
  - rewrite nth_error_app2 in N by exact L. replace (lo + i)%nat with (lo + length v + (i - length v))%nat by lia.
    exact (B _ _ N).
Qed.
Lemma scored_zero g f vals lo {A} (l : list A) : scored g f vals lo (map (fun _ => V 0) l).
Proof. intros i x N. left. exact (nth_map_const _ _ _ _ N). Qed.
Lemma predict_length k s times vals w : predict k s times vals = Some w -> length w = length vals.
Proof.
  unfold predict. destruct (alert_fired s).
  - destruct (rev (cps s)); [discriminate|]. destruct times; [discriminate|]. destruct (_ <=? _).
    + destruct (find_time _ _ _); [|discriminate]. cbn. intros H. apply some_eq in H. subst w.
      unfold zero_until. rewrite app_length, !map_length, <- app_length, py_slice_split. reflexivity.
    + intros H. apply some_eq in H. subst w. apply map_length.
  - intros H. apply some_eq in H. subst w. apply map_length.
Qed.
Lemma nth_cut {A} a k (l : list A) i x : nth_error (cut a k l) i = Some x -> nth_error l (a + i) = Some x.
Proof.
  unfold cut. intros H. assert (I : (i < k)%nat) by (assert (L : (i < length (firstn k (skipn a l)))%nat) by (apply nth_error_Some; congruence); rewrite firstn_length in L; lia).
  rewrite <- (firstn_skipn a l). destruct (Nat.lt_ge_cases a (length l)) as [L|L].
  - rewrite nth_error_app2 by (rewrite firstn_length; lia). rewrite firstn_length.
    replace (a + i - Nat.min a (length l))%nat with i by lia.
    rewrite <- (firstn_skipn k (skipn a l)). rewrite nth_error_app1; [exact H|]. apply nth_error_Some; congruence.
  - rewrite (skipn_all2 l) in H by lia. rewrite firstn_nil in H. destruct i; discriminate.
Qed.
Lemma predict_scored g f s times vals a k w : StronglySorted Z.lt (cut a k times) -> length times = length vals ->
  predict (g_score g) s (cut a k times) (cut a k (smooth_of g f vals)) = Some w -> scored g f vals a w.
Proof.
  intros ST LT H i x N.
  assert (LC : forall B C (u : list B) (v : list C), length u = length v -> length (cut a k u) = length (cut a k v)).
  { intros B C u v E. unfold cut. rewrite !firstn_length, !skipn_length, E. reflexivity. }
  assert (L2 : length (cut a k times) = length (cut a k (smooth_of g f vals))) by (apply LC; rewrite smooth_length; exact LT).
  assert (IL : (i < length (cut a k (smooth_of g f vals)))%nat).
  { rewrite <- (predict_length _ _ _ _ _ H). apply nth_error_Some. congruence. }
  destruct (nth_error (cut a k times) i) as [t|] eqn:T; [|apply nth_error_None in T; lia].
  destruct (nth_error (cut a k (smooth_of g f vals)) i) as [y|] eqn:Y; [|apply nth_error_None in Y; lia].
  destruct (C277_scan _ _ _ _ _ _ _ _ _ ST L2 H T Y N) as (_ & A & B).
  destruct (alert_fired s); [|left; auto]. destruct (B eq_refl) as (_ & B1 & B2).
  destruct (Z.le_gt_cases t (last (cps s) 0 * 1000000000)) as [L|L]; [left; auto|].
  right. exists (pre_mean s), (pre_std s), y. split; [|apply B2; exact L].
  apply nth_cut in Y. unfold shown. destruct (Nat.ltb_spec 1 (smooth_window g f)) as [W|W].
  - apply (smooth_average g f); assumption.
  - unfold smooth_of in Y. destruct (Nat.ltb_spec 1 (smooth_window g f)); [lia|exact Y].
Qed.
Lemma cut_sorted a k times : StronglySorted Z.lt times -> StronglySorted Z.lt (cut a k times).
Proof.
  intros H. unfold cut. apply (sorted_skipn times a) in H. revert H. generalize (skipn a times). clear. intros l H. revert k.
  induction H as [|x l S IH F]; intros [|k]; cbn [firstn]; try constructor; [apply IH|].
  rewrite Forall_forall in *. intros y I. apply F. rewrite <- (firstn_skipn k l). apply in_or_app. left. exact I.
Qed.
Lemma one_step_scored g f std times vals hs he se s s' v : StronglySorted Z.lt times -> length times = length vals ->
  (he <= se <= length times)%nat ->
  one_step g std times vals (smooth_of g f vals) hs (Z.of_nat he) (Z.of_nat se) s = Some (s', v) ->
  length v = (se - he)%nat /\ scored g f vals he v.
Proof.
  intros ST LT L H. unfold one_step in H. destruct (fit_scan _ _ _ _ _) as [s1|]; [|discriminate].
  rewrite !slice_cut in H by (try rewrite smooth_length; lia).
  destruct (predict _ _ _ _) as [w|] eqn:P; [|discriminate]. cbn in H. apply some_eq in H. injection H as <- <-. split.
  - rewrite (predict_length _ _ _ _ _ P), cut_length; [reflexivity|]. rewrite smooth_length. lia.
  - apply (predict_scored g f) in P; auto. apply cut_sorted. exact ST.
Qed.
Lemma right_inv times t a : StronglySorted Z.lt times -> time2idx_right times t = Some a ->
  a = cnt_lt times t /\ 0 <= a < Z.of_nat (length times).
Proof.
  intros S H. unfold time2idx_right in H. rewrite (first_ge_spec times t S 0) in H. pose proof (cnt_lt_le times t) as B.
  unfold cnt_lt in *. destruct (Nat.eqb_spec (length (filter (fun x => x <? t) times)) (length times)); [discriminate|].
  injection H as <-. lia.
Qed.
Lemma left_inv times t a : StronglySorted Z.lt times -> time2idx_left times t = Some a -> a + 1 = cnt_lt times t /\ 0 <= a.
Proof.
  intros S H. pose proof (cnt_lt_le times t) as B. destruct (Z.eq_dec (cnt_lt times t) 0) as [E|E].
  - rewrite time2idx_left_none in H by assumption. discriminate.
  - rewrite time2idx_left_spec in H by (try assumption; lia). injection H as <-. lia.
Qed.
Lemma loop_scored g f std times vals step : StronglySorted Z.lt times -> length times = length vals -> 0 <= step ->
  forall n t s s' v,
  loop_path g std times vals (smooth_of g f vals) step (map (fun k => t + Z.of_nat k * step) (seq 0 n)) s = Some (s', v) ->
  Z.of_nat (length v) = cnt_lt times (t + Z.of_nat n * step) - cnt_lt times t /\
  scored g f vals (Z.to_nat (cnt_lt times t)) v.
Proof.
  intros ST LT SP. induction n as [|n IH]; intros t s s' v H.
  - cbn in H. apply some_eq in H. injection H as _ <-. split; [cbn; rewrite Z.add_0_r; lia|]. intros i x N. destruct i; discriminate.
  - cbn [seq map loop_path] in H. rewrite Z.add_0_r in H. rewrite <- seq_shift, map_map in H.
    assert (ES : map (fun x => t + Z.of_nat (Datatypes.S x) * step) (seq 0 n) = map (fun k => t + step + Z.of_nat k * step) (seq 0 n)).
    { apply map_ext. intros k. lia. }
    rewrite ES in H. clear ES.
    replace (t + Z.of_nat (Datatypes.S n) * step) with (t + step + Z.of_nat n * step) by lia.
    destruct (time2idx_right times (t - g_hist g)) as [hs|] eqn:HS; [|discriminate].
    destruct (time2idx_right times t) as [he|] eqn:HE; [|discriminate].
    destruct (time2idx_left times (t + step)) as [se|] eqn:SE; [|discriminate].
    apply right_inv in HE as (HE & HE1); [|exact ST]. apply left_inv in SE as (SE & SE1); [|exact ST].
    pose proof (cnt_lt_mono times t (t + step) ltac:(lia)) as MO. pose proof (cnt_lt_le times (t + step)) as BO.
    destruct (Z.leb_spec (se + 1) he) as [L|L].
    + destruct (IH _ _ _ _ H) as (A & B). assert (E : cnt_lt times t = cnt_lt times (t + step)) by lia.
      rewrite E. split; [exact A|exact B].
    + destruct (one_step _ _ _ _ _ _ _ _ _) as [(s1, v1)|] eqn:O; [|discriminate].
      destruct (loop_path _ _ _ _ _ _ _ s1) as [(s2, v2)|] eqn:LP; [|discriminate]. cbn in H. apply some_eq in H. injection H as _ <-.
      destruct (IH _ _ _ _ LP) as (A & B).
      replace he with (Z.of_nat (Z.to_nat he)) in O by lia. replace (se + 1) with (Z.of_nat (Z.to_nat (se + 1))) in O by lia.
      apply one_step_scored in O as (OL & OS); [|exact ST|exact LT|lia]. split.
      * rewrite app_length. lia.
      * apply scored_app; [rewrite <- HE; exact OS|].
        replace (Z.to_nat (cnt_lt times t) + length v1)%nat with (Z.to_nat (cnt_lt times (t + step))) by lia. exact B.
Qed.

(** Every row of the data gets one score, however irregular the times are: zero, or what its
    value (smoothed over the scan window) is against some level. *)
Theorem C277_rows : forall g std f regular times vals org s s' w,
  StronglySorted Z.lt times -> length times = length vals -> (org < length times)%nat ->
  0 <= g_hist g -> 0 < f -> match g_step g with Some st => 0 < st | None => 0 < g_scan g / 2 end ->
  g_vectorized g = false ->
  fit_predict g std f regular times vals (Z.of_nat org) s = Some (s', w) ->
  length w = (length times - org)%nat /\
  forall i x, nth_error w i = Some x ->
    x = V 0 \/ exists m sd y,
      shown (Z.to_nat (g_scan g / f)) vals (org + i) y /\ graded (g_score g) m sd y x.
Proof.
  intros g std f regular times vals org s s' w ST LT ORG HH F SP NV H.
  change (length w = (length times - org)%nat /\ scored g f vals org w).
  unfold fit_predict in H. destruct (negb (windows_ok g f)); [discriminate|]. cbv zeta in H. rewrite NV in H. cbn [andb] in H.
  assert (DT : py_slice times (Some (Z.of_nat org)) None = cut org (length times - org) times).
  { rewrite slice_last by lia. rewrite Nat2Z.id. unfold cut. rewrite firstn_all2; [reflexivity|rewrite skipn_length; lia]. }
  assert (DS : py_slice (smooth_of g f vals) (Some (Z.of_nat org)) None = cut org (length times - org) (smooth_of g f vals)).
  { rewrite slice_last by (rewrite smooth_length; lia). rewrite Nat2Z.id. unfold cut.
    rewrite firstn_all2; [reflexivity|rewrite skipn_length, smooth_length; lia]. }
  rewrite DT, DS in H. set (dt := cut org (length times - org) times) in *.
  assert (LD : length dt = (length times - org)%nat) by (apply cut_length; lia).
  assert (SD : StronglySorted Z.lt dt) by (apply cut_sorted; exact ST).
  assert (NT : forall a, (a < length dt)%nat -> nth a dt 0 = nth (org + a) times 0).
  { intros a L. destruct (nth_error dt a) as [x|] eqn:E; [|apply nth_error_None in E; lia].
    pose proof (nth_cut _ _ _ _ _ E) as E2. apply nth_error_nth with (d := 0) in E. apply nth_error_nth with (d := 0) in E2. congruence. }
  assert (WH : option_map (pair s) (predict (g_score g) s dt (cut org (length times - org) (smooth_of g f vals))) = Some (s', w) ->
     length w = (length times - org)%nat /\ scored g f vals org w).
  { destruct (predict _ _ _ _) as [v|] eqn:P; [|discriminate]. intros E. cbn in E. apply some_eq in E. injection E as _ <-. split.
    - rewrite (predict_length _ _ _ _ _ P), cut_length; [reflexivity|]. rewrite smooth_length. lia.
    - apply (predict_scored g f) in P; auto. }
  set (start := Z.max (nth 0 times 0 + g_hist g) (nth 0 dt 0)) in *.
  destruct (last times 0 <? start) eqn:B1; [exact (WH H)|]. apply Z.ltb_ge in B1.
  destruct (time2idx_right dt start) as [a|] eqn:TA; [|discriminate].
  apply right_inv in TA as (TA & A0 & A1); [|exact SD]. clear TA.
  destruct (last times 0 - nth 0 times 0 + f <? g_scan g); [exact (WH H)|]. clear WH.
  set (step := step_of g (nth 0 dt 0) (last times 0) f) in *.
  assert (FL : nth 0 dt 0 <= last times 0).
  { rewrite NT by lia. assert (E : last times 0 = nth (length times - 1) times 0).
    { clear. induction times as [|x [|y l] IH]; [reflexivity|reflexivity|]. change (last (x :: y :: l) 0) with (last (y :: l) 0).
      rewrite IH. cbn [length]. rewrite !Nat.sub_succ, !Nat.sub_0_r. destruct l; reflexivity. }
    rewrite E. destruct (Nat.eq_dec (org + 0) (length times - 1)) as [Q|Q]; [rewrite Q; lia|].
    apply Z.lt_le_incl.
    apply (sorted_nth_lt times ST (org + 0) (length times - 1)); [apply nth_error_nth'; lia|apply nth_error_nth'; lia|lia]. }
  assert (SP' : 0 < step) by (unfold step, step_of; destruct (g_step g); lia).
  set (st := nth (Z.to_nat a) dt 0) in *.
  assert (CS : cnt_lt times st = Z.of_nat org + a).
  { unfold st. rewrite NT by lia. rewrite cnt_lt_nth by (try assumption; lia). lia. }
  destruct (loop_path _ _ _ _ _ _ _ _) as [(s1, v)|] eqn:LP; [|discriminate].
  assert (HV : Z.of_nat (length v) <= Z.of_nat (length times) - Z.of_nat org - a /\ scored g f vals (org + Z.to_nat a) v).
  { unfold date_range in LP. destruct (_ <? st) in LP.
    - cbn in LP. apply some_eq in LP. injection LP as _ <-. split; [cbn; lia|]. intros i x N. destruct i; discriminate.
    - apply loop_scored in LP as (LL & LS); [|exact ST|exact LT|lia]. rewrite CS in LL, LS.
      match type of LL with context [cnt_lt times ?z] => pose proof (cnt_lt_le times z) end.
      split; [lia|]. replace (org + Z.to_nat a)%nat with (Z.to_nat (Z.of_nat org + a)) by lia. exact LS. }
  destruct HV as (VL & VS). cbv zeta in H.
  assert (HD : py_slice dt None (Some a) = cut 0 (Z.to_nat a) dt).
  { rewrite <- slice_first_cut by lia. f_equal. f_equal. lia. }
  rewrite HD in H. set (head := map (fun _ => V 0) (cut 0 (Z.to_nat a) dt)) in *.
  assert (LH : length head = Z.to_nat a) by (unfold head; rewrite map_length; apply cut_length; lia).
  unfold rest_path in H. cbv zeta in H. rewrite app_length, LH in H.
  assert (HB : scored g f vals org (head ++ v)).
  { apply scored_app; [apply scored_zero|]. rewrite LH. exact VS. }
  destruct (Z.ltb_spec 0 (Z.of_nat (length times) - Z.of_nat org - Z.of_nat (Z.to_nat a + length v))) as [RM|RM].
  - set (he := Z.of_nat (length times) - (Z.of_nat (length times) - Z.of_nat org - Z.of_nat (Z.to_nat a + length v))) in *.
    destruct (time2idx_left _ _) as [hs|]; [|discriminate].
    destruct (one_step _ _ _ _ _ _ _ _ _) as [(s2, v2)|] eqn:O; [|discriminate]. cbn in H. apply some_eq in H. injection H as _ <-.
    assert (HE : he = Z.of_nat (org + (Z.to_nat a + length v))) by (unfold he; lia). rewrite HE in O.
    apply one_step_scored in O as (OL & OS); [|exact ST|exact LT|lia]. split.
    + rewrite !app_length, LH. lia.
    + rewrite app_assoc. apply scored_app; [exact HB|]. rewrite app_length, LH. exact OS.
  - cbn in H. apply some_eq in H. injection H as _ <-. rewrite app_nil_r. split; [rewrite app_length, LH; lia|exact HB].
Qed.
(** The vectorised call has the same scores, so the same holds for it when the times are even. *)
Theorem C277_vectorized : forall g std t0 f n regular times vals org s s' w,
  evenly t0 f n times -> length vals = n -> (org < n)%nat -> ready s (t0 + Z.of_nat org * f) ->
  0 <= g_hist g -> match g_step g with Some st => 0 < st | None => 0 < g_scan g / 2 end ->
  fit_predict g std f regular times vals (Z.of_nat org) s = Some (s', w) ->
  length w = (n - org)%nat /\
  forall i x, nth_error w i = Some x ->
    x = V 0 \/ exists m sd y,
      shown (Z.to_nat (g_scan g / f)) vals (org + i) y /\ graded (g_score g) m sd y x.
Proof.
  intros g std t0 f n regular times vals org s s' w EV LV ORG RD HH SP H.
  assert (H' : fit_predict (with_vec false g) std f regular times vals (Z.of_nat org) s = Some (s', w)).
  { destruct g as [a b c d e f' h i j [|] l]; [|exact H].
    apply (C275_same (MkConfig a b c d e f' h i j true l) std t0 f n) in H; assumption. }
  destruct EV as (ET & F & _). assert (LT : length times = n) by (rewrite ET, map_length, seq_length; reflexivity).
  destruct (C277_rows (with_vec false g) std f regular times vals org s s' w) as (A & B); auto; try lia.
  - rewrite ET. exact (grid_sorted t0 f F n 0).
  - split; [lia|exact B].
Qed.
(** A call is refused if the step is not shorter than the scan window or shorter than the spacing of the data, or if one of the
    windows is shorter than two spacings; with other windows, all of a series that ends before the first scan scores zero. *)
Theorem C277_windows : forall g std f regular times vals org s,
  let fits := (forall st, g_step g = Some st -> f <= st /\ st < g_scan g) /\ 2 * f <= g_scan g /\ 2 * f <= g_hist g in
  (~ fits -> fit_predict g std f regular times vals org s = None) /\
  (fits -> alert_fired s = false -> last times 0 < nth 0 times 0 + g_hist g ->
   fit_predict g std f regular times vals org s = Some (s, map (fun _ => V 0) (py_slice (smooth_of g f vals) (Some org) None))).
Proof.
  intros g std f regular times vals org s fits.
  assert (W : windows_ok g f = true <-> fits).
  { unfold windows_ok, fits. rewrite andb_true_iff, negb_true_iff, orb_false_iff, !Z.ltb_ge. destruct (g_step g) as [st|].
    - rewrite andb_true_iff, !negb_true_iff, Z.leb_gt, Z.ltb_ge. split.
      + intros ((A & B) & C). split; [|exact C]. intros x X. injection X as <-. split; lia.
      + intros (A & B). destruct (A st eq_refl). split; [split; lia|exact B].
    - split; [intros (_ & B); split; [discriminate|exact B]|intros (_ & B); split; [reflexivity|exact B]]. }
  split.
  - intros N. unfold fit_predict. destruct (windows_ok g f); [exfalso; apply N, W; reflexivity|reflexivity].
  - intros F A L. unfold fit_predict. rewrite (proj2 W F). cbn [negb]. cbv zeta.
    assert (E : last times 0 <? Z.max (nth 0 times 0 + g_hist g) (nth 0 (py_slice times (Some org) None) 0) = true) by (apply Z.ltb_lt; lia).
    rewrite E. unfold predict. rewrite A. reflexivity.
Qed.
Example C277_windows_case : fit_predict demo_config flat 1000000000 true [1000000000; 2000000000] [5; 7]%Q 0 init = Some (init, [V 0; V 0])
  /\ fit_predict demo_config flat 2000000000 true [2000000000; 4000000000] [5; 7]%Q 0 init = None.
Proof. split; vm_compute; reflexivity. Qed.
(** a change in the second row: its value and those before it score zero, the later one is six
    above the level of one; and a call that scores rows with the moving average. *)
Example C277_case :
  StronglySorted Z.lt [1000000000; 2000000000; 3000000000] /\
  predict Change (alert_at 2) [1000000000; 2000000000; 3000000000] [5; 5; 7]%Q = Some [V 0; V 0; V (7 - 1)] /\
  moving_average 2 [5; 5; 7]%Q 2 6 /\ moving_average 2 [5; 5; 7]%Q 0 (5 # 2) /\
  (exists s w, fit_predict demo_config flat 1000000000 true demo_times [5; 5; 5; 5; 5; 7]%Q (Z.of_nat 1) (alert_at 0) = Some (s, w)
     /\ nth_error w 4 = Some (V ((12 # 2) - 1))).
Proof.
  split; [|split; [|split; [|split]]].
  - repeat constructor; lia.
  - vm_compute. reflexivity.
  - vm_compute. reflexivity.
  - vm_compute. reflexivity.
  - destruct C275_case as (v & _ & E & -> & _). change (with_vec true demo_config) with demo_config in E.
    eexists _, _. split; [exact E|]. reflexivity.
Qed.

(** ** Options that break the alert *)

(** [change_directions=["both"]] finds changes in both directions, but when an alert is on
    neither direction is looked at: the next scan clears it, whatever the values are. *)
Theorem C278_both_refuted : forall g std s times vals i x m sd d,
  g_dirs g = Some [NBoth] -> det_dirs g = DList [NBoth] /\ 
  (alert_fired s = true -> alert_direction s = Some d -> cps s <> [] -> number_of_normal_scan s = 0 ->
   pre_mean s = Some m -> pre_std s = Some sd -> (0 < sd)%Q -> g_adapted g = false ->
   StronglySorted Z.lt times -> length times = length vals -> scan_index g times = Some i ->
   qmean (py_slice vals (Some i) None) = Some x ->
   exists s', fit_scan g std s times vals = Some s' /\ alert_fired s' = false).
Proof.
  intros g std s times vals i x m sd d G. split; [unfold det_dirs; rewrite G; reflexivity|].
  intros FI AD NC NN PM PS SD AP ST LT SI QM. unfold fit_scan. rewrite SI. cbv zeta. rewrite FI. cbn [negb andb].
  unfold fit. rewrite FI, AP. cbn [negb].
  assert (N : if_normal s (Some x) (watched g) (g_std_ratio g) = Some true).
  { unfold if_normal, watched. rewrite G, AD, PM, PS. cbn.
    assert (E0 : Qeq_bool sd 0 = false) by (destruct (Qeq_bool sd 0) eqn:E; [apply Qeq_bool_iff in E; rewrite E in SD; discriminate|reflexivity]).
    destruct d; cbn; rewrite !E0; reflexivity. }
  change (s_cur_mean (seen std vals i (secs (last times 0)) [])) with (qmean (py_slice vals (Some i) None)). rewrite QM, N, NN.
  cbn [number_of_normal_scan]. change (NORMAL_TOLERENCE <=? 0 + 1) with true. cbv iota. cbn [cps set_alert_off].
  destruct (rev (cps s)) as [|cp r] eqn:RV.
  - exfalso. apply NC. rewrite <- (rev_involutive (cps s)), RV. reflexivity.
  - eexists. split; [reflexivity|]. destruct (_ <? _); reflexivity.
Qed.
(** Change points are kept in whole seconds. If the times are not, no row has the time of the
    change: a change in the data that are scored raises. *)
Theorem C278_subsecond_refuted : forall k s times vals t0,
  alert_fired s = true -> (forall t, In t times -> ~ (1000000000 | t)) ->
  nth_error times 0 = Some t0 -> t0 <= last (cps s) 0 * 1000000000 ->
  predict k s times vals = None.
Proof.
  intros k s times vals t0 FI NS N0 LE. unfold predict. rewrite FI.
  destruct (rev (cps s)) as [|cp r] eqn:RV; [reflexivity|]. rewrite (rev_last (cps s) 0 cp r RV) in LE.
  destruct times as [|x tl]; [discriminate|]. injection N0 as ->. unfold second.
  destruct (Z.leb_spec t0 (cp * 1000000000)); [|lia].
  destruct (find_time (t0 :: tl) (cp * 1000000000) 0) as [p|] eqn:F; [|reflexivity].
  apply find_time_spec in F as (_ & F). apply nth_error_In in F. destruct (NS _ F). exists cp. reflexivity.
Qed.
(** the times half a second off, the change in the second row. *)
Definition both_config : config :=
  MkConfig (1 / 100) 1 None (13 # 10) (Some [NBoth]) 2000000000 2000000000 (Some 1000000000) false false Change.
Example C278_case :
  (exists s', fit_scan both_config flat (alert_at 0) demo_times [5; 5; 5; 5; 5; 70]%Q = Some s' /\ alert_fired s' = false) /\
  fit_scan demo_config flat (alert_at 0) demo_times [5; 5; 5; 5; 5; 70]%Q = Some (alert_at 0) /\
  predict Change (alert_at 2) [1500000000; 2500000000; 3500000000] [5; 5; 7]%Q = None /\
  (forall t, In t [1500000000; 2500000000; 3500000000] -> ~ (1000000000 | t)).
Proof.
  split; [|split; [|split]].
  - eexists. split; [vm_compute; reflexivity|]. reflexivity.
  - vm_compute. reflexivity.
  - vm_compute. reflexivity.
  - intros t [<-|[<-|[<-|[]]]] (q & E); lia.
Qed.

Print Assumptions C277_scan.
Print Assumptions C277_rows.
Print Assumptions C277_vectorized.
Print Assumptions C278_both_refuted.
Print Assumptions C278_subsecond_refuted.

Print Assumptions C277_windows.
