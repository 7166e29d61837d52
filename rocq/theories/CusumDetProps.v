(** C270: what the CUSUM detector reports. *)
From Verif Require Import Common PySlice CusumModel CusumDetModel CusumSpec CusumProofs CusumLlrProps.
Require Import Reals Lra Qreals.
Open Scope Z_scope.

(** ** Specification *)

Definition name (d : direction) : dname := match d with Increase => NInc | Decrease => NDec end.
(** the ways to ask for both directions *)
Definition means_both (a : dir_arg) : Prop :=
  a = DNone \/ a = DList [] \/ exists s, (s = NBoth \/ s = NEmpty) /\ (a = DStr s \/ a = DList [s]).
(** a direction is asked for *)
Definition asked (a : dir_arg) (d : direction) : Prop :=
  means_both a \/ a = DStr (name d) \/ exists l, a = DList l /\ In (name d) l.
(** the argument is understood *)
Definition understood (a : dir_arg) : Prop :=
  means_both a \/ (exists d, a = DStr (name d)) \/
  exists l, a = DList l /\ forall s, In s l -> exists d, s = name d.
Definition valid_window (n : Z) (w : option (Z * Z)) : Prop :=
  match w with None => True | Some (a, b) => 0 <= a /\ a + 3 <= b <= n end.
Definition below (p : option R) (threshold : R) : Prop :=
  exists v, p = Some v /\ (v < threshold)%R.
Definition with_all (A : args) (b : bool) : args :=
  MkArgs (a_threshold A) (a_max_iter A) (a_std_ratio A) (a_min_abs A) (a_start A) (a_window A)
    (a_magnitude A) (a_ratio A) (a_days A) b.

(** ** Which directions *)
Lemma all_dirs_some l ds : all_dirs l = Some ds <-> l = map name ds.
Proof.
  revert ds. induction l as [|s l IH]; intros ds; simpl.
  - split; [intros E; injection E as <-; reflexivity|destruct ds; [reflexivity|discriminate]].
  - destruct s; simpl.
    + destruct (all_dirs l) as [r|] eqn:E.
      * split; [intros X; injection X as <-; simpl; f_equal; apply IH; reflexivity|].
        destruct ds as [|[] ds]; simpl; try discriminate. intros X; injection X as X. apply IH in X. congruence.
      * split; [discriminate|]. destruct ds as [|[] ds]; simpl; try discriminate.
        intros X; injection X as X. apply IH in X. discriminate.
    + destruct (all_dirs l) as [r|] eqn:E.
      * split; [intros X; injection X as <-; simpl; f_equal; apply IH; reflexivity|].
        destruct ds as [|[] ds]; simpl; try discriminate. intros X; injection X as X. apply IH in X. congruence.
      * split; [discriminate|]. destruct ds as [|[] ds]; simpl; try discriminate.
        intros X; injection X as X. apply IH in X. discriminate.
    + split; [discriminate|]. destruct ds as [|[] ds]; discriminate.
    + split; [discriminate|]. destruct ds as [|[] ds]; discriminate.
    + split; [discriminate|]. destruct ds as [|[] ds]; discriminate.
Qed.
Lemma directions_understood a ds : directions a = Some ds ->
  understood a /\ (forall d, In d ds <-> asked a d).
Proof.
  assert (BOTH : means_both a -> Some [Increase; Decrease] = Some ds ->
    understood a /\ (forall d, In d ds <-> asked a d)).
  { intros B E. injection E as <-. split; [left; exact B|]. intros d. split; [intros _; left; exact B|].
    intros _. destruct d; simpl; auto. }
  assert (LIST : forall l, (a = DList l \/ exists s, l = [s] /\ a = DStr s) -> all_dirs l = Some ds -> l <> [] ->
    (forall s, l = [s] -> s <> NBoth /\ s <> NEmpty) -> understood a /\ (forall d, In d ds <-> asked a d)).
  { intros l HA E NE NB. apply all_dirs_some in E.
    assert (NM : ~ means_both a).
    { destruct HA as [->|(s' & Y1 & ->)]; intros [X|[X|(s & S & [X|X])]]; try discriminate.
      - injection X as X. contradiction.
      - injection X as X. destruct (NB s X). intuition.
      - injection X as X. subst s'. destruct (NB s Y1). intuition. }
    split.
    - right. destruct HA as [Y|(s & Y1 & Y2)].
      + right. exists l. split; [exact Y|]. intros s I. rewrite E in I. apply in_map_iff in I as (d & <- & _). eauto.
      + left. rewrite Y1 in E. destruct ds as [|d [|]]; try discriminate. injection E as ->. eauto.
    - intros d. assert (IN : In d ds <-> In (name d) l).
      { rewrite E. split; [apply in_map|]. intros I. apply in_map_iff in I as (d' & X & I). destruct d, d'; try discriminate; exact I. }
      rewrite IN. unfold asked. destruct HA as [Y|(s & Y1 & Y2)].
      + split; [intros I; right; right; eauto|]. intros [X|[X|(l' & X & I)]]; [contradiction|congruence|].
        assert (l' = l) by congruence. subst. exact I.
      + split; [intros I; right; left; rewrite Y1 in I; destruct I as [<-|[]]; exact Y2|].
        intros [X|[X|(l' & X & I)]]; [contradiction| |congruence]. rewrite Y1. left. congruence. }
  unfold directions. destruct a as [|s|l].
  - apply BOTH. left; reflexivity.
  - destruct s; try (apply BOTH; right; right; eexists; split; [|left; reflexivity]; auto);
      intros E; (eapply LIST; [right; eexists; split; [reflexivity|reflexivity]|exact E|discriminate|]);
      intros s X; injection X as <-; split; discriminate.
  - destruct l as [|s l]; [apply BOTH; right; left; reflexivity|].
    destruct l as [|s' l].
    + destruct s; try (apply BOTH; right; right; eexists; split; [|right; reflexivity]; auto);
        intros E; (eapply LIST; [left; reflexivity|exact E|discriminate|]);
        intros s X; injection X as <-; split; discriminate.
    + intros E. assert (E' : all_dirs (s :: s' :: l) = Some ds) by (destruct s; exact E).
      eapply LIST; [left; reflexivity|exact E'|discriminate|]. intros x X. discriminate.
Qed.
Lemma understood_directions a : understood a -> exists ds, directions a = Some ds.
Proof.
  assert (BOTH : means_both a -> exists ds, directions a = Some ds).
  { intros [X|[X|(s & S & [X|X])]]; subst a; try (eexists; reflexivity); destruct S; subst s; eexists; reflexivity. }
  intros [B|[(d & ->)|(l & -> & H)]]; [auto|destruct d; eexists; reflexivity|].
  assert (AD : exists ds, all_dirs l = Some ds).
  { clear BOTH. induction l as [|s l IH]; [eexists; reflexivity|].
    destruct IH as (ds & E); [intros x I; apply H; now right|]. destruct (H s (or_introl eq_refl)) as (d & ->).
    exists (d :: ds). simpl. rewrite E. destruct d; reflexivity. }
  destruct l as [|s [|s' l]]; [eexists; reflexivity| |].
  - destruct (H s (or_introl eq_refl)) as (d & ->). destruct d; eexists; reflexivity.
  - destruct AD as (ds & E). exists ds. unfold directions. destruct s; exact E.
Qed.
Lemma dir_eqb_eq a b : dir_eqb a b = true <-> a = b.
Proof. destruct a, b; simpl; split; congruence. Qed.
Lemma keys_spec l : forall seen, NoDup (keys seen l) /\
  (forall d, In d (keys seen l) <-> In d l /\ ~ In d seen).
Proof.
  induction l as [|d l IH]; intros seen; simpl.
  - split; [constructor|]. intros d. tauto.
  - destruct (existsb (dir_eqb d) seen) eqn:E.
    + destruct (IH seen) as (N & I). split; [exact N|]. intros x. rewrite I.
      apply existsb_exists in E as (y & S & E). apply dir_eqb_eq in E. subst y. split; [tauto|]. intros ([<-|]&?); tauto.
    + assert (D : ~ In d seen).
      { intros S. assert (existsb (dir_eqb d) seen = true) by (apply existsb_exists; exists d; split; [exact S|now apply dir_eqb_eq]). congruence. }
      destruct (IH (d :: seen)) as (N & I). split.
      * constructor; [|exact N]. rewrite I. intros (_ & X). apply X. now left.
      * intros x. simpl. rewrite I. simpl.
        assert (DX : d = x \/ d <> x) by (destruct d, x; (left; reflexivity) || (right; discriminate)).
        intuition. subst. tauto.
Qed.
Lemma all_metas_spec f ds r : all_metas f ds = Some r ->
  map fst r = ds /\ (forall d m, In (d, m) r -> f d = Some m).
Proof.
  revert r. induction ds as [|d ds IH]; intros r; simpl.
  - intros E; injection E as <-. split; [reflexivity|intros ? ? []].
  - destruct (f d) as [m|] eqn:F; [|discriminate]. destruct (all_metas f ds) as [r'|] eqn:G; [|discriminate].
    intros E; injection E as <-. destruct (IH r' eq_refl) as (M & I). split; [simpl; congruence|].
    intros d' m' [X|X]; [injection X as <- <-; exact F|apply I; exact X].
Qed.
Lemma all_metas_none f ds : all_metas f ds = None -> exists d, In d ds /\ f d = None.
Proof.
  induction ds as [|d ds IH]; simpl; [discriminate|]. destruct (f d) eqn:F; [|intros _; exists d; auto].
  destruct (all_metas f ds); [discriminate|]. intros _. destruct (IH eq_refl) as (x & I & N). eauto.
Qed.

(** All change points asked for are returned once, in the order asked for at first, if
    [return_all_changepoints]; otherwise those of them that are marked as a regression. *)
Lemma convert_true l : convert true l = l.
Proof. unfold convert. induction l as [|x l IH]; simpl; [reflexivity|]. rewrite orb_true_r, IH. reflexivity. Qed.
Theorem C270_asked : forall A dirs times ts out,
  detector A dirs times ts = Some out ->
  understood dirs /\
  exists full, detector (with_all A true) dirs times ts = Some full /\
    NoDup (map fst full) /\ (forall d, In d (map fst full) <-> asked dirs d) /\
    out = filter (fun r => m_found (snd r) || a_all A) full.
Proof.
  intros A dirs times ts out H. unfold detector in *.
  destruct (directions dirs) as [ds|] eqn:E; [|discriminate].
  destruct (directions_understood _ _ E) as (U & I). split; [exact U|].
  assert (SAME : change_meta (with_all A true) times ts = change_meta A times ts) by reflexivity.
  rewrite SAME. destruct (all_metas (change_meta A times ts) (keys [] ds)) as [full|] eqn:M; [|discriminate].
  injection H as <-. exists full. simpl. rewrite convert_true. split; [reflexivity|].
  destruct (all_metas_spec _ _ _ M) as (K & _). rewrite K. destruct (keys_spec ds []) as (N & KI).
  split; [exact N|]. split; [|reflexivity]. intros d. rewrite KI, I. simpl. tauto.
Qed.

(** An argument that is not understood is refused. *)
Theorem C270_refused : forall A dirs times ts, ~ understood dirs -> detector A dirs times ts = None.
Proof.
  intros A dirs times ts N. unfold detector. destruct (directions dirs) as [ds|] eqn:E; [|reflexivity].
  destruct (directions_understood _ _ E). contradiction.
Qed.

(** ** What is reported *)
Lemma sig_below threshold s : (0 < threshold <= 1)%R ->
  significant threshold s = true <-> below (p_value s) threshold.
Proof.
  intros T. destruct s as [| |x].
  - simpl. split; [discriminate|]. intros (v & E & _). discriminate.
  - simpl. unfold chi2_ppf. destruct (Rle_dec 0 (1 - threshold)); [|lra]. destruct (Rlt_dec (1 - threshold) 1); [|lra].
    split; [intros _; exists 0%R; split; [reflexivity|lra]|reflexivity].
  - destruct (C269_significance threshold x T) as (p & E & _ & I). rewrite I, E. unfold below.
    split; [intros L; eauto|]. intros (v & X & L). injection X as <-. exact L.
Qed.
Lemma search_any A ts d cp : 3 <= Z.of_nat (length ts) -> (1 <= a_max_iter A)%nat ->
  valid_window (Z.of_nat (length ts)) (a_window A) ->
  get_change_point d ts (a_window A) (a_max_iter A) (a_start A) = Some cp ->
  1 <= cp_index cp <= Z.of_nat (length ts) - 2 /\
  (forall a b, a_window A = Some (a, b) -> a + 1 <= cp_index cp <= b - 2) /\
  exists before after m0 m1, ts = before ++ after /\ Z.of_nat (length before) = cp_index cp + 1 /\ after <> [] /\
    cp_mu0 cp = Some m0 /\ cp_mu1 cp = Some m1 /\ is_mean m0 before /\ is_mean m1 after.
Proof.
  intros L I W E. destruct (a_window A) as [(a, b)|] eqn:X.
  - simpl in W. destruct (search_window d ts a b (a_max_iter A) (a_start A) cp ltac:(lia) ltac:(lia) ltac:(lia) I E) as (B & S).
    split; [lia|]. split; [|exact S]. intros a' b' Y. injection Y as <- <-. exact B.
  - destruct (search_splits d ts (a_max_iter A) (a_start A) cp L I E) as (B & S).
    split; [exact B|]. split; [discriminate|exact S].
Qed.
Lemma firstn_S_split {X} (l : list X) k : firstn k (firstn (S k) l) = firstn k l.
Proof. rewrite firstn_firstn. f_equal. lia. Qed.

(** Every change point returned splits the series after its index into two parts whose means
    are mu0 and mu1; it lies in the interest window, away from its ends; its time is that of
    its index; its statistic and its p-value are those of the split, and those of the split
    of the interest window.  It is marked as a regression exactly if both p-values are below
    the threshold, the mean moves in the direction by more than [min_abs_change] and by more
    than [delta_std_ratio] standard deviations of the values before the change point, and
    the magnitude test, if there is one, is passed. *)
Theorem C270_reported : forall A dirs times ts out d m,
  length times = length ts -> 3 <= Z.of_nat (length ts) -> (1 <= a_max_iter A)%nat ->
  valid_window (Z.of_nat (length ts)) (a_window A) -> (0 < a_threshold A <= 1)%R ->
  detector A dirs times ts = Some out -> In (d, m) out ->
  (a_all A = false -> m_found m = true) /\
  1 <= m_index m <= Z.of_nat (length ts) - 2 /\
  nth_error times (Z.to_nat (m_index m)) = Some (m_time m) /\
  exists before last after mu0 mu1,
    ts = before ++ last :: after /\ Z.of_nat (length before) = m_index m /\ after <> [] /\
    m_mu0 m = Some mu0 /\ m_mu1 m = Some mu1 /\
    is_mean mu0 (before ++ [last]) /\ is_mean mu1 after /\
    m_llr m = of_option (get_llr (map Q2R (before ++ [last])) (map Q2R after) (Q2R mu0) (Q2R mu1)) /\
    m_p m = p_value (m_llr m) /\
    (forall a b, a_window A = Some (a, b) ->
       a + 1 <= m_index m <= b - 2 /\
       exists left right v0 v1,
         firstn (Z.to_nat (b - a)) (skipn (Z.to_nat a) ts) = left ++ right /\
         Z.of_nat (length left) = m_index m - a + 1 /\ is_mean v0 left /\ is_mean v1 right /\
         m_llr_int m = of_option (get_llr (map Q2R left) (map Q2R right) (Q2R v0) (Q2R v1)) /\
         m_p_int m = p_value (m_llr_int m)) /\
    (m_found m = true <->
       below (m_p m) (a_threshold A) /\
       (a_window A <> None -> below (m_p_int m) (a_threshold A)) /\
       (match d with
        | Increase => (mu0 + a_min_abs A < mu1)%Q
        | Decrease => (mu1 + a_min_abs A < mu0)%Q
        end) /\
       (rstd (map Q2R before) * Q2R (a_std_ratio A) < Rabs (Q2R mu1 - Q2R mu0))%R /\
       (a_magnitude A <> None -> mag_change A d times ts = Some true)).
Proof.
  intros A dirs times ts out d m LT L IT W T H I.
  destruct (C270_asked _ _ _ _ _ H) as (_ & full & HF & _ & _ & EO).
  assert (FOUND : a_all A = false -> m_found m = true).
  { intros F. rewrite EO, F in I. apply filter_In in I as (_ & X). simpl in X. rewrite orb_false_r in X. exact X. }
  split; [exact FOUND|].
  assert (CM : change_meta A times ts d = Some m).
  { unfold detector in H. destruct (directions dirs) as [ds|]; [|discriminate].
    destruct (all_metas (change_meta A times ts) (keys [] ds)) as [r|] eqn:M; [|discriminate].
    injection H as <-. unfold convert in I. apply filter_In in I as (I & _).
    apply (proj2 (all_metas_spec _ _ _ M)). exact I. }
  clear H I HF EO FOUND. unfold change_meta in CM.
  destruct (get_change_point d ts (a_window A) (a_max_iter A) (a_start A)) as [cp|] eqn:G; [|discriminate].
  destruct (search_any A ts d cp L IT W G) as (B & BW & left & after & m0 & m1 & ES & LL & NA & E0 & E1 & M0 & M1).
  unfold decide in CM. rewrite E0, E1 in CM.
  destruct (nth_z times (cp_index cp)) as [t|] eqn:NT; [|discriminate].
  destruct (llr_window ts (a_window A) (cp_index cp)) as [li pi] eqn:LW.
  destruct (mag_change A d times ts) as [mag|] eqn:MG; [|discriminate].
  apply (f_equal (fun o => match o with Some x => x | None => m end)) in CM. cbv beta iota in CM. subst m.
  cbn [m_index m_time m_mu0 m_mu1 m_llr m_p m_llr_int m_p_int m_found].
  split; [exact B|]. split; [unfold nth_z in NT; destruct (cp_index cp <? 0); [discriminate|exact NT]|].
  set (c := cp_index cp) in *.
  assert (PS : py_slice ts None (Some (c + 1)) = left /\ py_slice ts (Some (c + 1)) None = after).
  { rewrite slice_first, slice_last by lia. rewrite ES.
    replace (Z.to_nat (c + 1)) with (length left) by lia. split.
    - rewrite firstn_app, firstn_all, Nat.sub_diag. simpl. apply app_nil_r.
    - rewrite skipn_app, skipn_all, Nat.sub_diag. reflexivity. }
  destruct (exists_last (l := left)) as (before & lst & EL); [intros X; rewrite X in LL; simpl in LL; lia|].
  assert (LB : Z.of_nat (length before) = c) by (rewrite EL, app_length in LL; simpl in LL; lia).
  assert (ES' : ts = before ++ lst :: after) by (rewrite ES, EL, <- app_assoc; reflexivity).
  exists before, lst, after, m0, m1.
  split; [exact ES'|]. split; [exact LB|]. split; [exact NA|]. split; [reflexivity|]. split; [reflexivity|].
  split; [rewrite <- EL; exact M0|]. split; [exact M1|].
  assert (LV : llr_of ts (Some m0) (Some m1) c
    = of_option (get_llr (map Q2R (before ++ [lst])) (map Q2R after) (Q2R m0) (Q2R m1))).
  { unfold llr_of. destruct PS as (-> & ->). rewrite <- EL. reflexivity. }
  split; [exact LV|]. split; [reflexivity|].
  assert (SB : std_before ts c = Some (rstd (map Q2R before))).
  { unfold std_before. rewrite slice_first by lia. replace (Z.to_nat c) with (length before) by lia.
    rewrite ES'. rewrite firstn_app, firstn_all, Nat.sub_diag. simpl. rewrite app_nil_r.
    destruct before; [simpl in LB; lia|reflexivity]. }
  assert (WIN : forall a b, a_window A = Some (a, b) ->
       a + 1 <= c <= b - 2 /\
       exists left right v0 v1,
         firstn (Z.to_nat (b - a)) (skipn (Z.to_nat a) ts) = left ++ right /\
         Z.of_nat (length left) = c - a + 1 /\ is_mean v0 left /\ is_mean v1 right /\
         li = of_option (get_llr (map Q2R left) (map Q2R right) (Q2R v0) (Q2R v1)) /\
         pi = p_value li).
  { intros a b X. split; [apply BW; exact X|]. specialize (BW a b X). rewrite X in LW, W. simpl in W.
    unfold llr_window in LW.
    assert (PW : py_slice ts (Some a) (Some b) = firstn (Z.to_nat (b - a)) (skipn (Z.to_nat a) ts)) by (apply py_slice_in; lia).
    assert (LW2 : Z.of_nat (length (py_slice ts (Some a) (Some b))) = b - a) by (apply py_slice_length; lia).
    set (w := py_slice ts (Some a) (Some b)) in *.
    rewrite slice_first, slice_last in LW by lia.
    set (k := Z.to_nat (c - a + 1)) in *.
    assert (L1 : length (firstn k w) = k) by (apply firstn_length_le; lia).
    assert (L2 : length (skipn k w) = (length w - k)%nat) by apply skipn_length.
    destruct (qmean_some (firstn k w)) as [v0 V0]; [intros Y; rewrite Y in L1; simpl in L1; lia|].
    destruct (qmean_some (skipn k w)) as [v1 V1]; [intros Y; rewrite Y in L2; simpl in L2; lia|].
    rewrite V0, V1 in LW. unfold llr_of in LW. rewrite slice_first, slice_last in LW by lia. fold k in LW.
    exists (firstn k w), (skipn k w), v0, v1. split; [rewrite firstn_skipn; symmetry; exact PW|]. split; [lia|].
    split; [apply qmean_spec; exact V0|]. split; [apply qmean_spec; exact V1|].
    injection LW as <- <-. split; reflexivity. }
  split; [exact WIN|].
  assert (WI : significant (a_threshold A) li = true <-> (a_window A <> None -> below pi (a_threshold A))).
  { rewrite (sig_below _ li T). destruct (a_window A) as [(a, b)|] eqn:X.
    - destruct (WIN a b eq_refl) as (_ & _ & _ & _ & _ & _ & _ & _ & _ & _ & PE). rewrite PE.
      split; [intros Y _; exact Y|]. intros Y. apply Y. discriminate.
    - simpl in LW. injection LW as <- <-. simpl. split; [intros _ Y; congruence|]. intros _. exists 0%R. split; [reflexivity|lra]. }
  assert (AB : (match d with
                 | Increase => negb (Qle_bool m1 (m0 + a_min_abs A))
                 | Decrease => negb (Qle_bool m0 (m1 + a_min_abs A))
                 end) = true <-> match d with
        | Increase => (m0 + a_min_abs A < m1)%Q
        | Decrease => (m1 + a_min_abs A < m0)%Q
        end).
  { destruct d; rewrite negb_true_iff; split.
    - intros X. destruct (Qlt_le_dec (m0 + a_min_abs A) m1) as [Y|Y]; [exact Y|]. apply Qle_bool_iff in Y. congruence.
    - intros X. destruct (Qle_bool m1 (m0 + a_min_abs A)) eqn:Y; [|reflexivity]. apply Qle_bool_iff in Y. exfalso. apply (Qlt_not_le _ _ X Y).
    - intros X. destruct (Qlt_le_dec (m1 + a_min_abs A) m0) as [Y|Y]; [exact Y|]. apply Qle_bool_iff in Y. congruence.
    - intros X. destruct (Qle_bool m0 (m1 + a_min_abs A)) eqn:Y; [|reflexivity]. apply Qle_bool_iff in Y. exfalso. apply (Qlt_not_le _ _ X Y). }
  assert (MC : mag = true <-> (a_magnitude A <> None -> Some mag = Some true)).
  { split; [intros -> _; reflexivity|]. intros X. destruct (a_magnitude A) eqn:Y.
    - assert (Some mag = Some true) by (apply X; discriminate). congruence.
    - unfold mag_change in MG. rewrite Y in MG. congruence. }
  rewrite SB. rewrite !andb_true_iff, (sig_below _ _ T), WI, AB, MC.
  rewrite Q2R_minus. destruct (Rlt_dec _ _) as [Y|Y]; intuition congruence.
Qed.

(** A series that does not vary is never reported. *)
Theorem C270_constant : forall A dirs times ts out x,
  length times = length ts -> 3 <= Z.of_nat (length ts) -> (1 <= a_max_iter A)%nat ->
  valid_window (Z.of_nat (length ts)) (a_window A) -> (0 < a_threshold A <= 1)%R ->
  (forall v, In v ts -> (v == x)%Q) -> a_all A = false ->
  detector A dirs times ts = Some out -> out = [].
Proof.
  intros A dirs times ts out x LT L IT W T C F H.
  destruct out as [|(d, m) out]; [reflexivity|]. exfalso.
  destruct (C270_reported A dirs times ts _ d m LT L IT W T H (or_introl eq_refl))
    as (F1 & B & _ & before & lst & after & mu0 & mu1 & ES & LB & NA & E0 & E1 & M0 & M1 & LV & PV & _ & IFF).
  specialize (F1 F). apply IFF in F1. destruct F1 as ((p & P & _) & _). rewrite PV, LV in P.
  set (a := map Q2R (before ++ [lst])) in *. set (b := map Q2R after) in *.
  assert (AB : a ++ b = map Q2R ts).
  { unfold a, b. rewrite <- map_app, ES, <- app_assoc. reflexivity. }
  assert (ALL : forall v, In v (a ++ b) -> v = Q2R x).
  { intros v I. rewrite AB in I. apply in_map_iff in I as (q & <- & I). apply Qeq_eqR. auto. }
  assert (SUM : forall l, (forall v, In v l -> v = Q2R x) -> is_rmean (Q2R x) l /\ sq_dev (Q2R x) l = 0%R).
  { unfold is_rmean. induction l as [|y l IH]; intros HA; [simpl; split; [lra|reflexivity]|].
    destruct IH as (I1 & I2); [intros v I; apply HA; now right|]. rewrite (HA y (or_introl eq_refl)). split.
    - change (rsum (Q2R x :: l)) with (Q2R x + rsum l)%R. cbn [length]. rewrite S_INR, I1. ring.
    - change (sq_dev (Q2R x) (Q2R x :: l)) with ((Q2R x - Q2R x) ^ 2 + sq_dev (Q2R x) l)%R. rewrite I2. ring. }
  destruct (SUM _ ALL) as (MM & SS).
  destruct (C269_value a b (Q2R mu0) (Q2R mu1) (Q2R x)) as (_ & _ & V).
  - rewrite AB, map_length. lia.
  - exact MM.
  - cbv zeta in V. rewrite (V SS) in P. discriminate.
Qed.

(** A result is always returned for a series of three points and more without magnitude test. *)
Theorem C270_returns : forall A dirs times ts,
  length times = length ts -> 3 <= Z.of_nat (length ts) -> (1 <= a_max_iter A)%nat ->
  valid_window (Z.of_nat (length ts)) (a_window A) -> a_magnitude A = None -> understood dirs ->
  exists out, detector A dirs times ts = Some out.
Proof.
  intros A dirs times ts LT L IT W NM U. unfold detector. destruct (understood_directions _ U) as (ds & ->).
  destruct (all_metas (change_meta A times ts) (keys [] ds)) as [r|] eqn:E; [eexists; reflexivity|].
  apply all_metas_none in E as (d & _ & N). exfalso. unfold change_meta in N.
  destruct (search_defined d ts (a_window A) (a_max_iter A) (a_start A)) as (cp & G).
  { left. destruct (a_window A) as [(a, b)|] eqn:X; [|intros Y; rewrite Y in L; simpl in L; lia].
    simpl in W. intros Y. assert (Z.of_nat (length (py_slice ts (Some a) (Some b))) = b - a) by (apply py_slice_length; lia).
    rewrite Y in H. simpl in H. lia. }
  rewrite G in N. destruct (search_any A ts d cp L IT W G) as (B & _).
  unfold decide in N. destruct (nth_z times (cp_index cp)) as [t|] eqn:NT.
  - destruct (llr_window ts (a_window A) (cp_index cp)) as [li pi]. unfold mag_change in N. rewrite NM in N. discriminate.
  - unfold nth_z in NT. destruct (Z.ltb_spec (cp_index cp) 0); [lia|]. apply nth_error_None in NT. lia.
Qed.

Definition demo_args : args := MkArgs (1 / 100) 10 1 0 None None None (13 # 10) (1 # 2) false.
(** a step is reported as an increase and not as a decrease. *)
Example C270_case : exists m,
  detector demo_args DNone [0; 1; 2; 3; 4] [1%Q; 1%Q; 1%Q; 5%Q; 5%Q] = Some [(Increase, m)] /\
  m_index m = 2 /\ m_time m = 2 /\ m_stable m = true.
Proof.
  set (ts := [1%Q; 1%Q; 1%Q; 5%Q; 5%Q]).
  assert (GI : get_change_point Increase ts None 10 None
    = Some {| cp_index := 2; cp_mu0 := Some (3 # 3)%Q; cp_mu1 := Some (10 # 2)%Q; cp_stable := true |}) by reflexivity.
  assert (GD : exists cp m0 m1, get_change_point Decrease ts None 10 None = Some cp /\ cp_mu0 cp = Some m0 /\
    cp_mu1 cp = Some m1 /\ Qle_bool m0 (m1 + 0) = true /\ exists t, nth_z [0; 1; 2; 3; 4] (cp_index cp) = Some t).
  { exists {| cp_index := 3; cp_mu0 := Some (8 # 4)%Q; cp_mu1 := Some 5%Q; cp_stable := false |}, (8 # 4)%Q, 5%Q.
    split; [vm_compute; reflexivity|]. split; [reflexivity|]. split; [reflexivity|]. split; [reflexivity|]. exists 3. reflexivity. }
  assert (ST : significant (1 / 100) (llr_of ts (Some (3 # 3)%Q) (Some (10 # 2)%Q) 2) = true).
  { unfold llr_of. change (py_slice ts None (Some (2 + 1))) with [1%Q; 1%Q; 1%Q].
    change (py_slice ts (Some (2 + 1)) None) with [5%Q; 5%Q].
    assert (Q1 : Q2R (3 # 3) = Q2R 1) by (apply Qeq_eqR; reflexivity).
    assert (Q5 : Q2R (10 # 2) = Q2R 5) by (apply Qeq_eqR; reflexivity). rewrite Q1, Q5.
    apply C269_step.
    - cbn [map]. intros v [<-|[<-|[<-|[]]]]; reflexivity.
    - cbn [map]. intros v [<-|[<-|[]]]; reflexivity.
    - unfold Q2R. cbn. lra.
    - discriminate.
    - discriminate.
    - cbn [map app length]. lia.
    - lra.
    - lra. }
  assert (SI : significant (1 / 100) Inf = true).
  { apply sig_below; [lra|]. exists 0%R. split; [reflexivity|lra]. }
  assert (SD : rstd (map Q2R [1%Q; 1%Q]) = 0%R).
  { unfold rstd, rmean, sq_dev. simpl. assert (X : Q2R 1 = 1%R) by (unfold Q2R; simpl; lra). rewrite X.
    match goal with |- sqrt ?e = _ => replace e with 0%R by field end. apply sqrt_0. }
  destruct GD as (cp & m0 & m1 & GD & E0 & E1 & AB & t & NT).
  unfold detector. change (directions DNone) with (Some [Increase; Decrease]).
  assert (CI : exists m, change_meta demo_args [0; 1; 2; 3; 4] ts Increase = Some m /\
    m_index m = 2 /\ m_time m = 2 /\ m_stable m = true /\ m_found m = true).
  { unfold change_meta. cbn [demo_args a_window a_max_iter a_start]. rewrite GI.
    unfold decide. cbn [cp_index cp_mu0 cp_mu1 cp_stable demo_args a_window a_threshold a_min_abs a_std_ratio a_magnitude].
    change (nth_z [0; 1; 2; 3; 4] 2) with (Some 2). cbn [llr_window]. unfold mag_change. cbn [a_magnitude].
    eexists. split; [reflexivity|]. cbn [m_index m_time m_stable m_found].
    split; [reflexivity|]. split; [reflexivity|]. split; [reflexivity|]. rewrite ST, SI.
    change (std_before ts 2) with (Some (rstd (map Q2R [1%Q; 1%Q]))). rewrite SD.
    destruct (Rlt_dec _ _) as [|N]; [reflexivity|]. exfalso. apply N. rewrite Rmult_0_l.
    assert (X : Q2R ((10 # 2) - (3 # 3)) = 4%R) by (unfold Q2R; simpl; lra). rewrite X. rewrite Rabs_right; lra. }
  assert (CD : exists m, change_meta demo_args [0; 1; 2; 3; 4] ts Decrease = Some m /\ m_found m = false).
  { unfold change_meta. cbn [demo_args a_window a_max_iter a_start]. rewrite GD.
    unfold decide. rewrite NT, E0, E1. cbn [a_window llr_window a_magnitude a_min_abs]. unfold mag_change. cbn [a_magnitude].
    eexists. split; [reflexivity|]. cbn [m_found]. change (a_min_abs demo_args) with 0%Q. rewrite AB. cbn [negb]. rewrite andb_false_r. reflexivity. }
  destruct CI as (mi & CI & I1 & I2 & I3 & I4). destruct CD as (md & CD & FD).
  exists mi. change (keys [] [Increase; Decrease]) with [Increase; Decrease]. cbn [all_metas]. rewrite CI, CD. cbn [option_map convert filter snd]. unfold convert. cbn [filter snd]. rewrite I4, FD.
  repeat split; assumption.
Qed.

Print Assumptions C270_asked.
Print Assumptions C270_refused.
Print Assumptions C270_reported.
Print Assumptions C270_constant.
Print Assumptions C270_returns.
