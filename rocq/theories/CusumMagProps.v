(** C271: the magnitude test of the CUSUM detector. *)
From Verif Require Import Common PySlice CusumModel CusumDetModel CusumSpec CusumProofs CusumLlrProps CusumDetProps.
Require Import Reals Lra Qreals Lqa.
Open Scope Z_scope.

(** ** Specification *)

(** times increase *)
Definition increasing (times : list Z) : Prop :=
  forall i j s t, (i < j)%nat -> nth_error times i = Some s -> nth_error times j = Some t -> s < t.
(** the quantile with interpolation "nearest" is one of the values. *)
Definition nearest (quant : list Q -> option Q) : Prop :=
  quant [] = None /\ forall l, l <> [] -> exists v, quant l = Some v /\ In v l.
(** the window is not longer than a day: its values, and those before it. *)
Definition day_window (times : list Z) (a b : Z) : Prop :=
  0 <= a < b /\ exists s t, nth_error times (Z.to_nat a) = Some s /\ nth_error times (Z.to_nat b) = Some t /\
    t - s <= 86400000000000.
Definition inside (ts : list Q) (a b : Z) (v : Q) : Prop :=
  exists i, a <= Z.of_nat i < b /\ nth_error ts i = Some v.
Definition before (ts : list Q) (a : Z) (v : Q) : Prop :=
  exists i, Z.of_nat i < a /\ nth_error ts i = Some v.
(** whole days between the first and the last time *)
Definition whole_days (times : list Z) (k : Z) : Prop :=
  exists first last, nth_error times 0 = Some first /\ nth_error times (length times - 1) = Some last /\
    k * 86400000000000 <= last - first < (k + 1) * 86400000000000.

(** ** Lemmas *)
Lemma find_time_spec times t : forall i p, find_time times t i = Some p ->
  i <= p /\ nth_error times (Z.to_nat (p - i)) = Some t.
Proof.
  induction times as [|x l IH]; intros i p; simpl; [discriminate|].
  destruct (Z.eqb_spec x t) as [->|N].
  - intros E; injection E as <-. split; [lia|]. rewrite Z.sub_diag. reflexivity.
  - intros E. apply IH in E as (L & E). split; [lia|].
    replace (Z.to_nat (p - i)) with (S (Z.to_nat (p - (i + 1)))) by lia. exact E.
Qed.
Lemma increasing_unique times i j t : increasing times ->
  nth_error times i = Some t -> nth_error times j = Some t -> i = j.
Proof.
  intros H A B. destruct (Nat.lt_trichotomy i j) as [L|[L|L]]; [|exact L|].
  - pose proof (H _ _ _ _ L A B). lia.
  - pose proof (H _ _ _ _ L B A). lia.
Qed.
Lemma increasing_le times i j s t : increasing times ->
  nth_error times i = Some s -> nth_error times j = Some t -> s <= t -> (i <= j)%nat.
Proof.
  intros H A B L. destruct (Nat.le_gt_cases i j) as [X|X]; [exact X|]. pose proof (H _ _ _ _ X B A). lia.
Qed.
Lemma slice_inside (ts : list Q) a b v : 0 <= a -> 0 <= b -> In v (py_slice ts (Some a) (Some b)) -> inside ts a b v.
Proof.
  intros A B I. unfold py_slice in I. apply In_nth_error in I as (k & E).
  set (n := Z.of_nat (length ts)) in *.
  assert (NA : norm_idx n a = Z.min a n) by (unfold norm_idx; destruct (Z.ltb_spec a 0); lia).
  assert (NB : norm_idx n b = Z.min b n) by (unfold norm_idx; destruct (Z.ltb_spec b 0); lia).
  rewrite NA, NB in E.
  assert (K : (k < Z.to_nat (Z.min b n - Z.min a n))%nat).
  { apply Nat.lt_le_trans with (length (firstn (Z.to_nat (Z.min b n - Z.min a n)) (skipn (Z.to_nat (Z.min a n)) ts))).
    - apply nth_error_Some. congruence.
    - rewrite firstn_length. lia. }
  assert (E2 : nth_error ts (Z.to_nat (Z.min a n) + k) = Some v).
  { revert E K. generalize (Z.to_nat (Z.min b n - Z.min a n)) as u. generalize (Z.to_nat (Z.min a n)) as w. clear.
    induction ts as [|x ts IH]; intros w u E K.
    - rewrite skipn_nil, firstn_nil in E. destruct k; discriminate.
    - destruct w as [|w]; [|apply (IH w u); assumption]. simpl in E. revert E K.
      generalize (x :: ts) as l. clear. induction k as [|k IH]; intros l E K.
      + destruct u; [lia|]. destruct l; [discriminate|exact E].
      + destruct u; [lia|]. destruct l; [discriminate|]. simpl in E. simpl. clear IH.
        revert u l E K. induction k as [|k IH]; intros u l E K; destruct u, l; simpl in *; try lia; try discriminate; auto.
        apply (IH u l); [exact E|lia]. }
  exists (Z.to_nat (Z.min a n) + k)%nat. split; [|exact E2].
  assert (Z.to_nat (Z.min a n) + k < length ts)%nat by (apply nth_error_Some; congruence). lia.
Qed.
Lemma count_never quant ts times t0 t1 mag ratio : forall k i c,
  count_days quant ts times t0 t1 mag ratio i k = Some c ->
  (forall j a b h, i <= j -> find_time times (t0 - j * day_ns) 0 = Some a -> find_time times (t1 - j * day_ns) 0 = Some b ->
     quant (py_slice ts (Some a) (Some b)) = Some h -> ratio_ge mag h ratio = false) -> c = O.
Proof.
  induction k as [|k IH]; intros i c; simpl; [intros E; congruence|].
  destruct (find_time times (t0 - i * day_ns) 0) as [a|] eqn:F0; [|discriminate].
  destruct (find_time times (t1 - i * day_ns) 0) as [b|] eqn:F1; [|discriminate].
  destruct (quant (py_slice ts (Some a) (Some b))) as [h|] eqn:Q0; [|discriminate].
  destruct (count_days quant ts times t0 t1 mag ratio (i + 1) k) as [c'|] eqn:C; [|discriminate].
  intros E H. rewrite (H i a b h ltac:(lia) F0 F1 Q0) in E. injection E as <-.
  apply (IH (i + 1)); [exact C|]. intros j a' b' h' L. apply H. lia.
Qed.
Lemma count_always quant ts times t0 t1 mag ratio : forall k i c,
  count_days quant ts times t0 t1 mag ratio i k = Some c ->
  (forall j a b h, i <= j -> find_time times (t0 - j * day_ns) 0 = Some a -> find_time times (t1 - j * day_ns) 0 = Some b ->
     quant (py_slice ts (Some a) (Some b)) = Some h -> ratio_ge mag h ratio = true) -> c = k.
Proof.
  induction k as [|k IH]; intros i c; simpl; [intros E; congruence|].
  destruct (find_time times (t0 - i * day_ns) 0) as [a|] eqn:F0; [|discriminate].
  destruct (find_time times (t1 - i * day_ns) 0) as [b|] eqn:F1; [|discriminate].
  destruct (quant (py_slice ts (Some a) (Some b))) as [h|] eqn:Q0; [|discriminate].
  destruct (count_days quant ts times t0 t1 mag ratio (i + 1) k) as [c'|] eqn:C; [|discriminate].
  intros E H. rewrite (H i a b h ltac:(lia) F0 F1 Q0) in E. injection E as <-. f_equal.
  apply (IH (i + 1)); [exact C|]. intros j a' b' h' L. apply H. lia.
Qed.
Lemma count_le quant ts times t0 t1 mag ratio : forall k i c,
  count_days quant ts times t0 t1 mag ratio i k = Some c -> (c <= k)%nat.
Proof.
  induction k as [|k IH]; intros i c; simpl; [intros E; injection E as <-; lia|].
  destruct (find_time times (t0 - i * day_ns) 0) as [a|]; [|discriminate].
  destruct (find_time times (t1 - i * day_ns) 0) as [b|]; [|discriminate].
  destruct (quant (py_slice ts (Some a) (Some b))) as [h|]; [|discriminate].
  destruct (count_days quant ts times t0 t1 mag ratio (i + 1) k) as [c'|] eqn:C; [|discriminate].
  apply IH in C. destruct (ratio_ge mag h ratio); intros E; injection E as <-; lia.
Qed.
Lemma increasing_tl x l : increasing (x :: l) -> increasing l.
Proof. intros H i j s t L A B. apply (H (S i) (S j) s t); [lia|exact A|exact B]. Qed.
Lemma increasing_ends times k : increasing times -> whole_days times k ->
  (zmaxl times - zminl times) / day_ns = k.
Proof.
  intros H (f & l & F & G & K). 
  assert (MM : zmaxl times = l /\ zminl times = f).
  { destruct times as [|x r]; [discriminate|]. injection F as <-.
    assert (ALL : forall y, In y (x :: r) -> x <= y <= l).
    { intros y I. apply In_nth_error in I as (i & E).
      assert (i < length (x :: r))%nat by (apply nth_error_Some; congruence). split.
      - destruct i; [injection E as <-; lia|]. pose proof (H 0%nat (S i) x y ltac:(lia) eq_refl E). lia.
      - destruct (Nat.eq_dec i (length (x :: r) - 1)) as [->|N]; [congruence || (rewrite G in E; injection E as <-; lia)|].
        pose proof (H i (length (x :: r) - 1)%nat y l ltac:(simpl in *; lia) E G). lia. }
    assert (IL : In l (x :: r)) by (eapply nth_error_In; exact G).
    clear - ALL IL. unfold zmaxl, zminl.
    assert (MX : forall r x b, fold_right Z.max x r = b <-> (In b (x :: r) /\ forall y, In y (x :: r) -> y <= b)).
    { clear. induction r as [|y r IH]; intros x b; simpl.
      - split; [intros <-; split; [now left|intros z [<-|[]]; lia]|intros ([E|[]] & _); exact E].
      - destruct (IH x (fold_right Z.max x r)) as (I1 & _). destruct (I1 eq_refl) as (A & B). simpl in A, B. split.
        + intros <-. split.
          * destruct (Z.max_spec y (fold_right Z.max x r)) as [(_ & ->)|(_ & ->)]; tauto.
          * intros z [<-|[<-|I]]; [pose proof (B x (or_introl eq_refl)); lia|lia|pose proof (B z (or_intror I)); lia].
        + intros (I & M). assert (b <= Z.max y (fold_right Z.max x r)).
          { destruct I as [<-|[<-|I]]; [pose proof (B x (or_introl eq_refl)); lia|lia|pose proof (B b (or_intror I)); lia]. }
          assert (y <= b) by (apply M; tauto). assert (fold_right Z.max x r <= b) by (apply M; tauto). lia. }
    assert (MN : forall r x b, fold_right Z.min x r = b <-> (In b (x :: r) /\ forall y, In y (x :: r) -> b <= y)).
    { clear. induction r as [|y r IH]; intros x b; simpl.
      - split; [intros <-; split; [now left|intros z [<-|[]]; lia]|intros ([E|[]] & _); exact E].
      - destruct (IH x (fold_right Z.min x r)) as (I1 & _). destruct (I1 eq_refl) as (A & B). simpl in A, B. split.
        + intros <-. split.
          * destruct (Z.min_spec y (fold_right Z.min x r)) as [(_ & ->)|(_ & ->)]; tauto.
          * intros z [<-|[<-|I]]; [pose proof (B x (or_introl eq_refl)); lia|lia|pose proof (B z (or_intror I)); lia].
        + intros (I & M). assert (Z.min y (fold_right Z.min x r) <= b).
          { destruct I as [<-|[<-|I]]; [pose proof (B x (or_introl eq_refl)); lia|lia|pose proof (B b (or_intror I)); lia]. }
          assert (b <= y) by (apply M; tauto). assert (b <= fold_right Z.min x r) by (apply M; tauto). lia. }
    split; [apply MX; split; [exact IL|intros; apply ALL; assumption]|apply MN; split; [now left|intros; apply ALL; assumption]]. }
  destruct MM as (-> & ->). unfold day_ns. symmetry. apply Z.div_unique with (l - f - k * 86400000000000); lia.
Qed.
Lemma ratio_self m r : (1 < r)%Q -> ratio_ge m m r = false.
Proof.
  intros R1. unfold ratio_ge. destruct (Qeq_bool m 0) eqn:E; [reflexivity|].
  destruct (Qle_bool r (m / m)) eqn:L; [|reflexivity]. apply Qle_bool_iff in L.
  assert (~ m == 0)%Q by (intros X; apply Qeq_bool_iff in X; congruence).
  assert (m / m == 1)%Q by (field; assumption). rewrite H0 in L. exfalso. Lqa.lra.
Qed.

(** What the days of the comparison are: day 0 is the window itself, the others lie before it. *)
Lemma day_slices times ts a b s t j p q : increasing times -> 0 <= a < b ->
  nth_error times (Z.to_nat a) = Some s -> nth_error times (Z.to_nat b) = Some t -> t - s <= 86400000000000 ->
  0 <= j -> find_time times (s - j * day_ns) 0 = Some p -> find_time times (t - j * day_ns) 0 = Some q ->
  (j = 0 -> p = a /\ q = b) /\
  (0 < j -> forall v, In v (py_slice ts (Some p) (Some q)) -> before ts a v).
Proof.
  intros INC AB S T D J P Q0. apply find_time_spec in P as (P0 & P1). apply find_time_spec in Q0 as (Q0 & Q1).
  rewrite Z.sub_0_r in P1, Q1. split.
  - intros ->. rewrite Z.mul_0_l, Z.sub_0_r in P1, Q1.
    pose proof (increasing_unique _ _ _ _ INC P1 S). pose proof (increasing_unique _ _ _ _ INC Q1 T). lia.
  - intros J1 v I. apply slice_inside in I as (i & B & E); [|lia|lia]. exists i. split; [|exact E].
    assert (Z.to_nat q <= Z.to_nat a)%nat; [|lia].
    apply (increasing_le times _ _ _ _ INC Q1 S). unfold day_ns. nia.
Qed.
Lemma In_map_opp v l : In v (map Qopp l) -> exists w, In w l /\ (v = - w)%Q.
Proof. intros I. apply in_map_iff in I as (w & E & I). eauto. Qed.
Lemma slice_map {A B} (f : A -> B) l a b : py_slice (map f l) a b = map f (py_slice l a b).
Proof. unfold py_slice. rewrite map_length, skipn_map, firstn_map. reflexivity. Qed.
Lemma nonneg_spec ts : all_nonneg ts = true <-> forall v, In v ts -> (0 <= v)%Q.
Proof. unfold all_nonneg. rewrite forallb_forall. split; intros H v I; [apply Qle_bool_iff|apply Qle_bool_iff]; auto. Qed.

(** ** Theorems *)
(** a valid call with a magnitude test, of a window of at most a day, on values that are
    not negative *)
Definition setting (A : args) (times : list Z) (ts : list Q) (quant : list Q -> option Q) (a b : Z) : Prop :=
    length times = length ts /\ 3 <= Z.of_nat (length ts) /\ (1 <= a_max_iter A)%nat /\
    a_window A = Some (a, b) /\ a + 3 <= b /\ (0 < a_threshold A <= 1)%R /\ a_all A = false /\
    a_magnitude A = Some quant /\ nearest quant /\ increasing times /\ (forall v, In v ts -> (0 <= v)%Q) /\
    day_window times a b /\ (1 < a_ratio A)%Q.

  Lemma setting_mag A dirs times ts out quant a b d m :
    setting A times ts quant a b -> detector A dirs times ts = Some out -> In (d, m) out ->
    exists f, magnitude_compare quant (a_ratio A) times (a, b)
      (match d with Increase => ts | Decrease => map Qopp ts end) = Some f /\ (a_days A <= f)%Q.
  Proof.
    intros (LT & L & IT & W & W3 & T & AF & MQ & NQ & INC & NN & DW & RT) H I.
    assert (BL : b <= Z.of_nat (length ts)).
    { destruct DW as (AB & s & t & S & T0 & _). assert (Z.to_nat b < length times)%nat by (apply nth_error_Some; congruence). lia. }
    assert (V : valid_window (Z.of_nat (length ts)) (a_window A)).
    { rewrite W. simpl. destruct DW as (AB & _). lia. }
    destruct (C270_reported A dirs times ts out d m LT L IT V T H I)
      as (F1 & _ & _ & x1 & x2 & x3 & x4 & x5 & _ & _ & _ & _ & _ & _ & _ & _ & _ & _ & IFF).
    specialize (F1 AF). apply IFF in F1. destruct F1 as (_ & _ & _ & _ & M).
    specialize (M ltac:(rewrite MQ; discriminate)). unfold mag_change in M. rewrite MQ, W in M.
    rewrite (proj2 (nonneg_spec ts) NN) in M.
    destruct (magnitude_compare quant (a_ratio A) times (a, b) _) as [f|]; [|discriminate].
    exists f. split; [reflexivity|]. simpl in M. injection M as M. apply Qle_bool_iff. exact M.
  Qed.

(** The first day that is compared is the window itself, which is never larger than itself:
    if more days than all but one are asked for, nothing is reported. *)
Lemma Qlt_contra x y : (x < y)%Q -> (y <= x)%Q -> False.
Proof. intros; Lqa.lra. Qed.
Theorem C271_days_refuted : forall A dirs times ts out quant a b days,
  setting A times ts quant a b -> whole_days times days -> 
  (inject_Z (days - 1) / inject_Z days < a_days A)%Q -> (0 < a_days A)%Q ->
  detector A dirs times ts = Some out -> out = [].
Proof.
  intros A dirs times ts out quant a b days SET WD DD DP H.
  destruct out as [|(d, m) out]; [reflexivity|]. exfalso.
  destruct (setting_mag A dirs times ts _ quant a b d m SET H (or_introl eq_refl)) as (f & MC & LE).
  destruct SET as (_ & _ & _ & _ & _ & _ & _ & _ & NQ & INC & _ & DW & RT).
  unfold magnitude_compare in MC. rewrite (increasing_ends _ _ INC WD) in MC. cbn [fst snd] in MC.
  set (us := match d with Increase => ts | Decrease => map Qopp ts end) in *.
  destruct (quant (py_slice us (Some a) (Some b))) as [mag|] eqn:MG; [|discriminate].
  destruct DW as (AB & s & t & S & T & D).
  assert (NS : nth_z times a = Some s) by (unfold nth_z; destruct (Z.ltb_spec a 0); [lia|exact S]).
  assert (NT : nth_z times b = Some t) by (unfold nth_z; destruct (Z.ltb_spec b 0); [lia|exact T]).
  rewrite NS, NT in MC. destruct (Z.leb_spec days 0) as [|DPOS]; [discriminate|].
  destruct (count_days quant us times s t mag (a_ratio A) 0 (Z.to_nat days)) as [c|] eqn:C; [|discriminate].
  assert (CB : (c <= Z.to_nat days - 1)%nat).
  { destruct (Z.to_nat days) as [|k] eqn:K; [lia|]. cbn [count_days] in C. change (0 + 1) with 1 in C.
    destruct (find_time times (s - 0 * day_ns) 0) as [p|] eqn:F0; [|discriminate].
    destruct (find_time times (t - 0 * day_ns) 0) as [q|] eqn:F1; [|discriminate].
    destruct (day_slices times us a b s t 0 p q INC AB S T D ltac:(lia) F0 F1) as (Z0 & _).
    destruct (Z0 eq_refl) as (-> & ->). rewrite MG in C.
    destruct (count_days quant us times s t mag (a_ratio A) 1 k) as [c'|] eqn:C'; [|discriminate].
    rewrite (ratio_self mag _ RT) in C. injection C as <-. apply count_le in C'. lia. }
  injection MC as <-.
  apply (Qlt_contra _ _ DD). apply Qle_trans with (1 := LE). 
  apply Qmult_le_compat_r.
  - unfold Qle; simpl. lia.
  - apply Qlt_le_weak, Qinv_lt_0_compat. unfold Qlt; simpl. lia.
Qed.

(** A drop is never reported if the magnitudes are compared: the values are negated, and
    the ratio of two negated values grows with the value. *)
Theorem C271_decrease_refuted : forall A dirs times ts out quant a b,
  setting A times ts quant a b -> (0 < a_days A)%Q ->
  (forall v w, inside ts a b v -> before ts a w -> (v <= w)%Q) ->
  detector A dirs times ts = Some out -> forall m, ~ In (Decrease, m) out.
Proof.
  intros A dirs times ts out quant a b SET DP DROP H m I.
  destruct (setting_mag A dirs times ts _ quant a b Decrease m SET H I) as (f & MC & LE).
  destruct SET as (_ & _ & _ & _ & _ & _ & _ & _ & NQ & INC & NN & DW & RT).
  unfold magnitude_compare in MC. cbn [fst snd] in MC.
  destruct (quant (py_slice (map Qopp ts) (Some a) (Some b))) as [mag|] eqn:MG; [|discriminate].
  destruct DW as (AB & s & t & S & T & D).
  assert (NS : nth_z times a = Some s) by (unfold nth_z; destruct (Z.ltb_spec a 0); [lia|exact S]).
  assert (NT : nth_z times b = Some t) by (unfold nth_z; destruct (Z.ltb_spec b 0); [lia|exact T]).
  rewrite NS, NT in MC. destruct (Z.leb_spec ((zmaxl times - zminl times) / day_ns) 0) as [|DPOS]; [discriminate|].
  set (days := (zmaxl times - zminl times) / day_ns) in *.
  destruct (count_days quant (map Qopp ts) times s t mag (a_ratio A) 0 (Z.to_nat days)) as [c|] eqn:C; [|discriminate].
  destruct NQ as (Q0 & QI).
  assert (QIN : forall p q h, quant (py_slice (map Qopp ts) (Some p) (Some q)) = Some h ->
    exists w, In w (py_slice ts (Some p) (Some q)) /\ (h = - w)%Q).
  { intros p q h E. destruct (py_slice (map Qopp ts) (Some p) (Some q)) as [|x l] eqn:PS; [congruence|].
    destruct (QI (x :: l)) as (v & E' & IN); [discriminate|]. assert (v = h) by congruence. subst v.
    rewrite <- PS in IN. rewrite slice_map in IN. apply In_map_opp in IN. exact IN. }
  destruct (QIN _ _ _ MG) as (v & IV & ->).
  assert (IVW : inside ts a b v) by (apply slice_inside; [lia|lia|exact IV]).
  assert (VN : (0 <= v)%Q) by (destruct IVW as (i & _ & E); apply NN; eapply nth_error_In; exact E).
  assert (C0 : c = O).
  { apply (count_never _ _ _ _ _ _ _ _ _ _ C). intros j p q h J F0 F1 QH.
    destruct (day_slices times ts a b s t j p q INC AB S T D J F0 F1) as (Z0 & Z1).
    destruct (Z.eq_dec j 0) as [->|NJ].
    - destruct (Z0 eq_refl) as (-> & ->). assert (h = - v)%Q by congruence. subst h. apply ratio_self. exact RT.
    - destruct (QIN _ _ _ QH) as (w & IW & ->). apply (Z1 ltac:(lia)) in IW.
      pose proof (DROP v w IVW IW) as VW. unfold ratio_ge.
      destruct (Qeq_bool (- w) 0) eqn:E.
      + apply Qeq_bool_iff in E. assert (V0 : (- v == 0)%Q) by Lqa.lra. apply Qeq_bool_iff in V0. rewrite V0. reflexivity.
      + destruct (Qle_bool (a_ratio A) (- v / - w)) eqn:L; [|reflexivity]. apply Qle_bool_iff in L. exfalso.
        assert (NW : ~ (w == 0)%Q) by (intros X; rewrite X in E; discriminate).
        assert (WP : (0 < w)%Q) by Lqa.lra.
        assert (EQ : (- v / - w == v / w)%Q) by (field; exact NW). rewrite EQ in L.
        assert (V1 : (v / w <= 1)%Q) by (apply Qle_shift_div_r; [exact WP|Lqa.lra]). Lqa.lra. }
  rewrite C0 in MC. injection MC as <-.
  assert (EQ : (inject_Z (Z.of_nat 0) / inject_Z days == 0)%Q) by (unfold Qdiv; simpl; ring).
  rewrite EQ in LE. Lqa.lra.
Qed.

(** A rise of the window above every earlier value by the ratio passes for all days but the
    first: it is as if there were no magnitude test when the share asked for is at most
    that. *)
Theorem C271_increase_partial : forall A times ts quant a b days,
  setting A times ts quant a b -> whole_days times days ->
  (a_days A <= inject_Z (days - 1) / inject_Z days)%Q ->
  (forall v w, inside ts a b v -> before ts a w -> (0 < w)%Q /\ (a_ratio A * w <= v)%Q) ->
  forall r, mag_change A Increase times ts = Some r -> r = true.
Proof.
  intros A times ts quant a b days SET WD DD RISE r H.
  destruct SET as (_ & _ & _ & W & _ & _ & _ & MQ & NQ & INC & NN & DW & RT).
  unfold mag_change in H. rewrite MQ, W, (proj2 (nonneg_spec ts) NN) in H.
  unfold magnitude_compare in H. rewrite (increasing_ends _ _ INC WD) in H. cbn [fst snd] in H.
  destruct (quant (py_slice ts (Some a) (Some b))) as [mag|] eqn:MG; [|discriminate].
  destruct DW as (AB & s & t & S & T & D).
  assert (NS : nth_z times a = Some s) by (unfold nth_z; destruct (Z.ltb_spec a 0); [lia|exact S]).
  assert (NT : nth_z times b = Some t) by (unfold nth_z; destruct (Z.ltb_spec b 0); [lia|exact T]).
  rewrite NS, NT in H. destruct (Z.leb_spec days 0) as [|DPOS]; [discriminate|].
  destruct (count_days quant ts times s t mag (a_ratio A) 0 (Z.to_nat days)) as [c|] eqn:C; [|discriminate].
  destruct NQ as (Q0 & QI).
  assert (QIN : forall p q h, quant (py_slice ts (Some p) (Some q)) = Some h -> In h (py_slice ts (Some p) (Some q))).
  { intros p q h E. destruct (py_slice ts (Some p) (Some q)) as [|x l] eqn:PS; [congruence|].
    destruct (QI (x :: l)) as (v & E' & IN); [discriminate|]. assert (v = h) by congruence. subst v. exact IN. }
  pose proof (QIN _ _ _ MG) as IV. apply slice_inside in IV; [|lia|lia].
  destruct (Z.to_nat days) as [|k] eqn:K; [lia|]. cbn [count_days] in C. change (0 + 1) with 1 in C.
  destruct (find_time times (s - 0 * day_ns) 0) as [p|] eqn:F0; [|discriminate].
  destruct (find_time times (t - 0 * day_ns) 0) as [q|] eqn:F1; [|discriminate].
  destruct (day_slices times ts a b s t 0 p q INC AB S T D ltac:(lia) F0 F1) as (Z0 & _).
  destruct (Z0 eq_refl) as (-> & ->). rewrite MG in C.
  destruct (count_days quant ts times s t mag (a_ratio A) 1 k) as [c'|] eqn:C'; [|discriminate].
  rewrite (ratio_self mag _ RT) in C. injection C as <-.
  assert (CK : c' = k).
  { apply (count_always _ _ _ _ _ _ _ _ _ _ C'). intros j p q h J G0 G1 QH.
    destruct (day_slices times ts a b s t j p q INC AB S T D ltac:(lia) G0 G1) as (_ & Z1).
    apply QIN in QH. apply (Z1 ltac:(lia)) in QH. destruct (RISE mag h IV QH) as (HP & HR).
    unfold ratio_ge. destruct (Qeq_bool h 0) eqn:E; [apply Qeq_bool_iff in E; rewrite E in HP; discriminate|].
    apply Qle_bool_iff. apply Qle_shift_div_l; [exact HP|exact HR]. }
  subst c'. simpl in H. injection H as <-. apply Qle_bool_iff.
  replace (days - 1) with (Z.of_nat k) in DD by lia. exact DD.
Qed.

(** The window may not reach the end of the series: the time of the point after it is
    looked up. *)
Theorem C271_last_refuted : forall A dirs times ts quant a,
  length times = length ts -> 3 <= Z.of_nat (length ts) -> (1 <= a_max_iter A)%nat ->
  a_window A = Some (a, Z.of_nat (length ts)) -> 0 <= a -> a + 3 <= Z.of_nat (length ts) ->
  a_magnitude A = Some quant -> (forall v, In v ts -> (0 <= v)%Q) ->
  detector A dirs times ts = None.
Proof.
  intros A dirs times ts quant a LT L IT W A0 A3 MQ NN. unfold detector.
  destruct (directions dirs) as [ds|] eqn:E; [|reflexivity].
  destruct ds as [|d ds].
  { exfalso. unfold directions in E. destruct dirs as [|[]|[|s [|s' l]]]; try discriminate;
      try (destruct s; discriminate). 
    assert (E' : all_dirs (s :: s' :: l) = Some []) by (destruct s; exact E). apply all_dirs_some in E'. discriminate. }
  cbn [keys existsb all_metas].
  assert (N : change_meta A times ts d = None).
  { unfold change_meta. destruct (get_change_point _ _ _ _ _) as [cp|]; [|reflexivity].
    unfold decide. destruct (nth_z times (cp_index cp)); [|reflexivity].
    destruct (llr_window ts (a_window A) (cp_index cp)).
    assert (MN : mag_change A d times ts = None).
    { unfold mag_change. rewrite MQ, W, (proj2 (nonneg_spec ts) NN). unfold magnitude_compare. cbn [fst snd].
      assert (X : nth_z times (Z.of_nat (length ts)) = None).
      { unfold nth_z. destruct (Z.ltb_spec (Z.of_nat (length ts)) 0); [reflexivity|].
        rewrite Nat2Z.id. apply nth_error_None. lia. }
      rewrite X. destruct (quant _); [|reflexivity]. destruct (nth_z times a); reflexivity. }
    rewrite MN. reflexivity. }
  rewrite N. reflexivity.
Qed.

(** A drop from 10 to 1 in the middle of a window of a day, with points every six hours, is
    reported without and not with the magnitude test. *)
Definition six_hours : list Z := map (fun i => Z.of_nat i * 21600000000000) (seq 0 12).
Definition drop_values : list Q := repeat 10%Q 8 ++ repeat 1%Q 4.
Definition first_of (l : list Q) : option Q := match l with [] => None | x :: _ => Some x end.
Definition drop_args (mag : option (list Q -> option Q)) : args :=
  MkArgs (1 / 100) 10 1 0 None (Some (6, 10)) mag (13 # 10) (1 # 2) false.
Lemma const_in {A} (x : A) n v : In v (repeat x n) -> v = x.
Proof. intros I. apply repeat_spec in I. exact I. Qed.
Lemma step_significant x y n k (XY : ~ (x == y)%Q) : (1 <= n)%nat -> (2 <= k)%nat ->
  significant (1 / 100) (of_option (get_llr (map Q2R (repeat x n)) (map Q2R (repeat y k)) (Q2R x) (Q2R y))) = true.
Proof.
  intros N K. apply C269_step.
  - intros v I. apply in_map_iff in I as (q & <- & I). apply const_in in I. congruence.
  - intros v I. apply in_map_iff in I as (q & <- & I). apply const_in in I. congruence.
  - intros E. apply XY. apply eqR_Qeq. exact E.
  - destruct n; [lia|discriminate].
  - destruct k; [lia|discriminate].
  - rewrite app_length, !map_length, !repeat_length. lia.
  - Lra.lra.
  - Lra.lra.
Qed.
Lemma rstd_const x n : rstd (map Q2R (repeat x n)) = 0%R.
Proof.
  destruct n as [|n].
  - unfold rstd. simpl. unfold Rdiv. rewrite Rmult_0_l. apply sqrt_0.
  - unfold rstd. assert (M : rmean (map Q2R (repeat x (S n))) = Q2R x).
    { apply rmean_unique; [discriminate|]. unfold is_rmean. generalize (S n) as k. induction k as [|k IH]; [simpl; Lra.lra|].
      cbn [repeat map length]. rewrite S_INR. change (rsum (Q2R x :: ?t)) with (Q2R x + rsum t)%R.
      change (rsum (Q2R x :: map Q2R (repeat x k))) with (Q2R x + rsum (map Q2R (repeat x k)))%R. rewrite IH. ring. }
    rewrite M. assert (Z0 : sq_dev (Q2R x) (map Q2R (repeat x (S n))) = 0%R).
    { generalize (S n) as k. induction k as [|k IH]; [reflexivity|].
      change (sq_dev (Q2R x) (map Q2R (repeat x (S k)))) with ((Q2R x - Q2R x) ^ 2 + sq_dev (Q2R x) (map Q2R (repeat x k)))%R.
      rewrite IH. ring. }
    rewrite Z0. unfold Rdiv. rewrite Rmult_0_l. apply sqrt_0.
Qed.
Lemma Rlt_dec_true (P : bool) x y : (x < y)%R -> (if Rlt_dec x y then true else P) = true.
Proof. intros H. destruct (Rlt_dec x y); [reflexivity|contradiction]. Qed.
Lemma drop_meta mag : exists m,
  change_meta (drop_args mag) six_hours drop_values Decrease
  = match mag_change (drop_args mag) Decrease six_hours drop_values with
    | Some b => Some (MkMeta (m_index m) (m_time m) (m_mu0 m) (m_mu1 m) (m_stable m) (m_llr_int m) (m_p_int m) (m_llr m) (m_p m) b)
    | None => None
    end /\ m_index m = 7.
Proof.
  unfold change_meta. cbn [drop_args a_window a_max_iter a_start].
  assert (G : get_change_point Decrease drop_values (Some (6, 10)) 10 None
    = Some {| cp_index := 7; cp_mu0 := Some (80 # 8)%Q; cp_mu1 := Some (4 # 4)%Q; cp_stable := true |}) by (vm_compute; reflexivity).
  rewrite G. unfold decide. cbn [cp_index cp_mu0 cp_mu1 cp_stable].
  assert (NT : nth_z six_hours 7 = Some 151200000000000) by (vm_compute; reflexivity). rewrite NT.
  cbn [a_window drop_args].
  assert (SI : significant (1 / 100) (fst (llr_window drop_values (Some (6, 10)) 7)) = true).
  { unfold llr_window. cbn [fst]. 
    assert (E : py_slice drop_values (Some 6) (Some 10) = [10; 10; 1; 1]%Q) by (vm_compute; reflexivity). rewrite E.
    assert (E0 : qmean (py_slice [10; 10; 1; 1]%Q None (Some (7 - 6 + 1))) = Some (20 # 2)%Q) by (vm_compute; reflexivity).
    assert (E1 : qmean (py_slice [10; 10; 1; 1]%Q (Some (7 - 6 + 1)) None) = Some (2 # 2)%Q) by (vm_compute; reflexivity).
    rewrite E0, E1. unfold llr_of.
    assert (E2 : py_slice [10; 10; 1; 1]%Q None (Some (7 - 6 + 1)) = repeat 10%Q 2) by (vm_compute; reflexivity).
    assert (E3 : py_slice [10; 10; 1; 1]%Q (Some (7 - 6 + 1)) None = repeat 1%Q 2) by (vm_compute; reflexivity).
    rewrite E2, E3. assert (Q1 : Q2R (20 # 2) = Q2R 10) by (apply Qeq_eqR; reflexivity).
    assert (Q2 : Q2R (2 # 2) = Q2R 1) by (apply Qeq_eqR; reflexivity). rewrite Q1, Q2.
    apply step_significant; [discriminate|lia|lia]. }
  assert (SF : significant (1 / 100) (llr_of drop_values (Some (80 # 8)%Q) (Some (4 # 4)%Q) 7) = true).
  { unfold llr_of.
    assert (E2 : py_slice drop_values None (Some (7 + 1)) = repeat 10%Q 8) by (vm_compute; reflexivity).
    assert (E3 : py_slice drop_values (Some (7 + 1)) None = repeat 1%Q 4) by (vm_compute; reflexivity).
    rewrite E2, E3. assert (Q1 : Q2R (80 # 8) = Q2R 10) by (apply Qeq_eqR; reflexivity).
    assert (Q2 : Q2R (4 # 4) = Q2R 1) by (apply Qeq_eqR; reflexivity). rewrite Q1, Q2.
    apply step_significant; [discriminate|lia|lia]. }
  assert (SB : std_before drop_values 7 = Some 0%R).
  { unfold std_before. assert (E : py_slice drop_values None (Some 7) = repeat 10%Q 7) by (vm_compute; reflexivity).
    rewrite E, <- (rstd_const 10%Q 7). reflexivity. }
  destruct (llr_window drop_values (Some (6, 10)) 7) as [li pi]. cbn [fst] in SI.
  exists (MkMeta 7 151200000000000 (Some (80 # 8)%Q) (Some (4 # 4)%Q) true li pi
    (llr_of drop_values (Some (80 # 8)%Q) (Some (4 # 4)%Q) 7)
    (p_value (llr_of drop_values (Some (80 # 8)%Q) (Some (4 # 4)%Q) 7)) true).
  split; [|reflexivity]. cbn [m_index m_time m_mu0 m_mu1 m_stable m_llr_int m_p_int m_llr m_p].
  change (mag_change {| a_threshold := 1 / 100; a_max_iter := 10; a_std_ratio := 1; a_min_abs := 0; a_start := None;
      a_window := Some (6, 10); a_magnitude := mag; a_ratio := 13 # 10; a_days := 1 # 2; a_all := false |} Decrease six_hours drop_values)
    with (mag_change (drop_args mag) Decrease six_hours drop_values).
  destruct (mag_change (drop_args mag) Decrease six_hours drop_values) as [b|]; [|reflexivity].
  change (a_threshold (drop_args mag)) with (1 / 100)%R. change (a_min_abs (drop_args mag)) with 0%Q.
  change (a_std_ratio (drop_args mag)) with 1%Q. rewrite SI, SF, SB.
  assert (AB : negb (Qle_bool (80 # 8) ((4 # 4) + 0)) = true) by reflexivity. rewrite AB. cbn [andb].
  rewrite Rlt_dec_true; [reflexivity|]. rewrite Rmult_0_l.
  assert (X : Q2R ((4 # 4) - (80 # 8)) = (-9)%R) by (unfold Q2R; simpl; Lra.lra). rewrite X. rewrite Rabs_left; Lra.lra.
Qed.
(** C271: a series with a negative value is not tested: the call returns what it returns
    without magnitude_quantile. *)
Theorem C271_negative : forall A dirs times ts v, In v ts -> (v < 0)%Q ->
  detector A dirs times ts
  = detector (MkArgs (a_threshold A) (a_max_iter A) (a_std_ratio A) (a_min_abs A) (a_start A) (a_window A) None
                (a_ratio A) (a_days A) (a_all A)) dirs times ts.
Proof.
  intros A dirs times ts v I N.
  assert (NN : all_nonneg ts = false).
  { destruct (all_nonneg ts) eqn:E; [|reflexivity]. exfalso. pose proof (proj1 (nonneg_spec ts) E v I) as P.
    apply (Qlt_not_le _ _ N P). }
  set (A' := MkArgs _ _ _ _ _ _ _ _ _ _).
  assert (M : forall d, mag_change A d times ts = mag_change A' d times ts).
  { intros d. unfold mag_change, A'. cbn [a_magnitude a_window]. rewrite NN. destruct (a_magnitude A), (a_window A); reflexivity. }
  assert (C : forall d, change_meta A times ts d = change_meta A' times ts d).
  { intros d. unfold change_meta, decide. cbn [A' a_window a_max_iter a_start a_threshold a_min_abs a_std_ratio].
    destruct (get_change_point d ts (a_window A) (a_max_iter A) (a_start A)) as [c|]; [|reflexivity].
    rewrite M. reflexivity. }
  unfold detector. destruct (directions dirs) as [ds|]; [|reflexivity]. cbn [A' a_all].
  assert (E : forall l, all_metas (change_meta A times ts) l = all_metas (change_meta A' times ts) l).
  { induction l as [|d l IH]; [reflexivity|]. cbn [all_metas]. rewrite C, IH. reflexivity. }
  rewrite E. reflexivity.
Qed.
Example C271_case :
  setting (drop_args (Some first_of)) six_hours drop_values first_of 6 10 /\
  (forall v w, inside drop_values 6 10 v -> before drop_values 6 w -> (v <= w)%Q) /\
  detector (drop_args (Some first_of)) (DStr NDec) six_hours drop_values = Some [] /\
  exists m, detector (drop_args None) (DStr NDec) six_hours drop_values = Some [(Decrease, m)] /\ m_index m = 7.
Proof.
  assert (INC : increasing six_hours).
  { intros i j s t L A B. unfold six_hours in *. rewrite nth_error_map in A, B.
    assert (N : forall k x, option_map (fun i => Z.of_nat i * 21600000000000) (nth_error (seq 0 12) k) = Some x ->
      x = Z.of_nat k * 21600000000000).
    { intros k x E. destruct (nth_error (seq 0 12) k) as [y|] eqn:F; [|discriminate]. injection E as <-.
      assert (k < 12)%nat by (rewrite <- (seq_length 12 0); apply nth_error_Some; congruence).
      apply nth_error_nth with (d := O) in F. rewrite seq_nth in F by assumption. subst y. reflexivity. }
    apply N in A. apply N in B. lia. }
  assert (ALL : forall i v, nth_error drop_values i = Some v -> ((i < 8)%nat -> v = 10%Q) /\ (v = 10%Q \/ v = 1%Q)).
  { intros i v E. do 12 (destruct i as [|i]; [vm_compute in E; injection E as <-; split; [intros; try reflexivity; lia|auto]|]).
    destruct i; discriminate. }
  split; [|split].
  - unfold setting. repeat split; try reflexivity; try (simpl; lia); try (simpl; Lra.lra); try exact INC.
    + intros l N. destruct l as [|x l]; [congruence|]. exists x. split; [reflexivity|now left].
    + intros v I. apply In_nth_error in I as (i & E). destruct (ALL i v E) as (_ & [-> | ->]); discriminate.
    + exists 129600000000000, 216000000000000. split; [vm_compute; reflexivity|]. split; [vm_compute; reflexivity|]. lia.
  - intros v w (i & _ & E) (j & B & F). destruct (ALL i v E) as (_ & V). destruct (ALL j w F) as (W & _).
    rewrite W by lia. destruct V as [-> | ->]; discriminate.
  - split.
    + destruct (drop_meta (Some first_of)) as (m & E & _). unfold detector. change (directions (DStr NDec)) with (Some [Decrease]).
      cbn [keys existsb all_metas]. rewrite E.
      assert (MC : mag_change (drop_args (Some first_of)) Decrease six_hours drop_values = Some false) by (vm_compute; reflexivity).
      rewrite MC. reflexivity.
    + destruct (drop_meta None) as (m & E & I). unfold detector. change (directions (DStr NDec)) with (Some [Decrease]).
      cbn [keys existsb all_metas]. rewrite E. unfold mag_change at 1. cbn [a_magnitude drop_args].
      eexists. split; [reflexivity|]. exact I.
Qed.

Print Assumptions C271_days_refuted.
Print Assumptions C271_decrease_refuted.
Print Assumptions C271_increase_partial.
Print Assumptions C271_last_refuted.

Print Assumptions C271_negative.
