(** Whole calls of [VectorizedCUSUMDetectorModel]. *)
From Verif Require Import Common PySlice CusumModel CusumDetModel CusumSpec CusumProofs CusumStateProofs
  CusumDetProps CusumMagProps CusumVecProps CusumRunModel CusumShiftProofs CusumPathProofs CusumPathProps CusumFleetProofs.
Require Import Reals.
Require Import String List.
Require Import Sorted.
Open Scope Z_scope.

(** ** Frames *)
Definition framed (a : frame) : Prop := a <> [] /\ forall c, In c a -> length (snd c) = rows a.
Definition keys_of (a : frame) : list string := map fst a.

Lemma lookup_some a name : In name (keys_of a) -> exists c, lookup a name = Some c.
Proof.
  unfold lookup, keys_of. induction a as [|(x, c) a IH]; intros I; [destruct I|]. cbn [find fst].
  destruct (String.eqb_spec x name) as [->|N]; [eexists; reflexivity|].
  destruct I as [E|I]; [contradiction|]. apply IH. exact I.
Qed.
Lemma lookup_in a name c : lookup a name = Some c -> In (name, c) a.
Proof.
  unfold lookup. induction a as [|(x, d) a IH]; [discriminate|]. cbn [find fst].
  destruct (String.eqb_spec x name) as [->|N].
  - cbn. intros E; injection E as <-. left; reflexivity.
  - intros E. right. apply IH. exact E.
Qed.
Lemma lookup_none a name : ~ In name (keys_of a) -> lookup a name = None.
Proof.
  intros N. destruct (lookup a name) as [c|] eqn:E; [|reflexivity]. exfalso. apply N.
  apply lookup_in in E. apply (in_map fst) in E. exact E.
Qed.
Lemma cells_length a name : framed a -> length (cells a name) = rows a.
Proof.
  intros (_ & W). unfold cells. destruct (lookup a name) as [c|] eqn:E; [|apply repeat_length].
  apply lookup_in in E. exact (W _ E).
Qed.
Lemma lookup_map (h : string -> list value) l name : In name l ->
  lookup (map (fun x => (x, h x)) l) name = Some (h name).
Proof.
  unfold lookup. induction l as [|x l IH]; intros I; [destruct I|]. cbn [map find fst].
  destruct (String.eqb_spec x name) as [->|N]; [reflexivity|]. destruct I as [E|I]; [contradiction|]. apply IH. exact I.
Qed.
Lemma keys_extend a b name : In name (keys_of (extend a b)) <-> In name (keys_of a) \/ In name (keys_of b).
Proof.
  unfold extend, keys_of. rewrite map_map. cbn [fst]. rewrite map_id, in_app_iff, filter_In. split.
  - intros [H|(H & _)]; auto.
  - intros [H|H]; [auto|]. destruct (existsb (String.eqb name) (map fst a)) eqn:E.
    + left. apply existsb_exists in E as (x & I & X). apply String.eqb_eq in X. congruence.
    + right. split; [exact H|]. reflexivity.
Qed.
Lemma rows_in a : framed a -> exists name c, In (name, c) a.
Proof. intros (N & _). destruct a as [|(x, c) a]; [congruence|]. exists x, c. left; reflexivity. Qed.
Lemma extend_spec a b : framed a -> framed b ->
  framed (extend a b) /\ rows (extend a b) = (rows a + rows b)%nat /\
  forall name, cells (extend a b) name = cells a name ++ cells b name.
Proof.
  intros FA FB.
  assert (LEN : forall c, In c (extend a b) -> length (snd c) = (rows a + rows b)%nat).
  { intros c I. unfold extend in I. apply in_map_iff in I as (x & <- & _). cbn [snd].
    rewrite app_length, !cells_length by assumption. reflexivity. }
  assert (NE : extend a b <> []).
  { destruct (rows_in a FA) as (x & c & I). intros E.
    assert (In x (keys_of (extend a b))) by (apply keys_extend; left; apply (in_map fst) in I; exact I).
    rewrite E in H. destruct H. }
  assert (RW : rows (extend a b) = (rows a + rows b)%nat).
  { destruct (extend a b) as [|(x, c) l] eqn:E; [congruence|]. cbn [rows]. apply (LEN (x, c)). left; reflexivity. }
  split; [split; [exact NE|intros c I; rewrite RW; apply LEN; exact I]|]. split; [exact RW|].
  intros name. unfold cells at 1. destruct (lookup (extend a b) name) as [c|] eqn:E.
  - assert (I : In name (keys_of (extend a b))) by (apply lookup_in in E; apply (in_map fst) in E; exact E).
    unfold extend in E. rewrite lookup_map in E; [congruence|].
    unfold keys_of, extend in I. rewrite map_map in I. cbn [fst] in I. rewrite map_id in I. exact I.
  - assert (N : ~ In name (keys_of (extend a b))) by (intros I; apply lookup_some in I as (c & C); congruence).
    rewrite keys_extend in N. unfold cells. rewrite !lookup_none by tauto. rewrite RW. apply repeat_app.
Qed.
Lemma lookup_combine names : forall (w : list (list value)) j name x, NoDup names ->
  nth_error names j = Some name -> nth_error w j = Some x -> lookup (combine names w) name = Some x.
Proof.
  unfold lookup. induction names as [|y names IH]; intros w j name x ND NJ WJ; [destruct j; discriminate|].
  destruct w as [|z w]; [destruct j; discriminate|]. cbn [combine find fst]. inversion ND; subst. destruct j as [|j]; cbn in NJ, WJ.
  - injection NJ as ->. injection WJ as ->. rewrite String.eqb_refl. reflexivity.
  - destruct (String.eqb_spec y name) as [->|N]; [|eapply IH; eauto].
    exfalso. apply H1. eapply nth_error_In; eauto.
Qed.
Lemma keys_combine names : forall (w : list (list value)), length w = length names -> keys_of (combine names w) = names.
Proof.
  unfold keys_of. induction names as [|y names IH]; intros [|z w] L; try discriminate; [reflexivity|].
  cbn. f_equal. apply IH. cbn in L. lia.
Qed.

(** ** One step *)
Definition good (t : Z) (s : state) : Prop :=
  inv s /\ (cps s <> [] -> 0 < last (cps s) 0 /\ last (cps s) 0 * second < t).
Lemma good_mono t u s : t <= u -> good t s -> good u s.
Proof. intros L (A & B). split; [exact A|]. intros N. destruct (B N). lia. Qed.
Lemma good_init t : good t init.
Proof. split; [apply init_inv|]. intros N. exfalso. apply N. reflexivity. Qed.

Lemma find_time_in times t : In t times -> forall i, exists p, find_time times t i = Some p.
Proof.
  induction times as [|x l IH]; intros I i; [destruct I|]. cbn [find_time].
  destruct (Z.eqb_spec x t); [eexists; reflexivity|]. destruct I as [->|I]; [congruence|]. apply IH. exact I.
Qed.
Lemma zero_until_length i h vals : length (zero_until i h vals) = length vals.
Proof.
  unfold zero_until. rewrite app_length, !map_length, <- app_length, py_slice_split. reflexivity.
Qed.
Lemma predict_same k s times vals : inv s -> times <> [] ->
  (cps s <> [] -> 0 < last (cps s) 0 /\ (last (cps s) 0 * second < nth 0 times 0 \/ In (last (cps s) 0 * second) times)) ->
  exists x, predict k s times vals = Some x /\ length x = length vals /\
    predict_col k (alert_fired s) (pre_mean s) (pre_std s)
      (match rev (cps s) with [] => None | c :: _ => Some c end) times vals = Some x.
Proof.
  intros (_ & I2 & _) NT H. destruct times as [|t0 times]; [congruence|]. unfold predict, predict_col.
  destruct (rev (cps s)) as [|c r] eqn:RV.
  - apply rev_nil in RV. destruct (alert_fired s) eqn:FI; [destruct (I2 eq_refl); congruence|].
    eexists. split; [reflexivity|]. split; [apply map_length|reflexivity].
  - assert (N : cps s <> []) by (intros E; rewrite E in RV; discriminate).
    apply (rev_last _ 0) in RV. destruct (H N) as (P & C). rewrite RV in P, C. cbn [nth] in C.
    destruct c as [|c|c]; [lia| |lia].
    assert (IDX : exists o, (if t0 <=? Z.pos c * second then option_map Some (find_time (t0 :: times) (Z.pos c * second) 0)
        else Some None) = Some o /\
        (if t0 <=? Z.pos c * second then option_map (fun i => zero_until i (score k (pre_mean s) (pre_std s)) vals)
             (find_time (t0 :: times) (Z.pos c * second) 0) else Some (map (score k (pre_mean s) (pre_std s)) vals))
        = Some (match o with None => map (score k (pre_mean s) (pre_std s)) vals
                | Some i => zero_until i (score k (pre_mean s) (pre_std s)) vals end)).
    { destruct (Z.leb_spec t0 (Z.pos c * second)); [|eexists; split; reflexivity].
      destruct C as [C|C]; [lia|]. destruct (find_time_in _ _ C 0) as (p & ->). eexists. split; reflexivity. }
    destruct IDX as (o & -> & E). cbn [option_map]. destruct (alert_fired s).
    + rewrite E. eexists. split; [reflexivity|]. split; [|destruct o; reflexivity].
      destruct o; [apply zero_until_length|apply map_length].
    + eexists. split; [reflexivity|]. split; [apply map_length|reflexivity].
Qed.

Lemma in_map_slices {A} (l : list (list A)) (h : list A -> list A) v j :
  nth_error l j = Some v -> nth_error (map h l) j = Some (h v).
Proof. intros H. rewrite nth_error_map, H. reflexivity. Qed.

Lemma fleet_step g std names t0 f n cols smooths hs he se sts :
  0 < f -> second <= t0 -> (second | t0) -> (second | f) -> total std -> g_adapted g = false -> 2 * f <= g_scan g ->
  length names = length cols -> length sts = length cols -> cols <> [] ->
  (forall v, In v cols -> length v = n) -> (forall v, In v smooths -> length v = n) -> length smooths = length cols ->
  (hs + 2 <= he)%nat -> (he < se)%nat -> (se <= n)%nat ->
  Forall (good (t0 + Z.of_nat he * f)) sts ->
  match one_step_multi g std names (grid t0 f 0 n) cols smooths (Z.of_nat hs) (Z.of_nat he) (Z.of_nat se) sts with
  | Some (sts', fr) =>
      exists w, fr = combine names w /\ length w = length names /\ length sts' = length sts /\
        Forall (good (t0 + Z.of_nat se * f)) sts' /\ framed fr /\ rows fr = (se - he)%nat /\
        forall j s v sm, nth_error sts j = Some s -> nth_error cols j = Some v -> nth_error smooths j = Some sm ->
          exists s' x, nth_error sts' j = Some s' /\ nth_error w j = Some x /\ length x = (se - he)%nat /\
            one_step g std (grid t0 f 0 n) v sm (Z.of_nat hs) (Z.of_nat he) (Z.of_nat se) s = Some (s', x)
  | None => ~ (g_magnitude g = None /\ understood (det_dirs g))
  end.
Proof.
  intros F P0 W0 WF TS AD SC LN LS NC LC LSM LSMC H1 H2 H3 GD.
  assert (CUT : forall A (l : list A), length l = n ->
    py_slice l (Some (Z.of_nat hs)) (Some (Z.of_nat he)) ++ py_slice l (Some (Z.of_nat he)) (Some (Z.of_nat se))
    = cut hs (se - hs) l /\ py_slice l (Some (Z.of_nat he)) (Some (Z.of_nat se)) = cut he (se - he) l).
  { intros A l L. rewrite !slice_cut by lia. split; [|reflexivity].
    replace (cut he (se - he) l) with (cut (hs + (he - hs)) (se - he) l) by (f_equal; lia).
    rewrite cut_app. f_equal. lia. }
  unfold one_step_multi, one_step.
  destruct (CUT _ (grid t0 f 0 n) (grid_length _ _ _ _)) as (-> & ->). rewrite !cut_grid by lia.
  set (W := grid t0 f hs (se - hs)). set (PT := grid t0 f he (se - he)).
  assert (LW : length W = (se - hs)%nat) by apply grid_length.
  destruct (grid_scan g t0 f hs (se - hs) F ltac:(lia) SC) as (i & SI & I0 & I3). fold W in SI.
  set (wcols := map _ cols).
  assert (WC : forall j v, nth_error cols j = Some v -> nth_error wcols j = Some (cut hs (se - hs) v)).
  { intros j v V. unfold wcols. rewrite (in_map_slices _ _ _ _ V). f_equal. apply CUT. apply LC. eapply nth_error_In; eauto. }
  assert (LWC : forall v, In v wcols -> length v = length W).
  { intros v I. unfold wcols in I. apply in_map_iff in I as (u & <- & U).
    destruct (CUT _ u (LC u U)) as (-> & _). rewrite LW. apply cut_length. rewrite (LC u U). lia. }
  assert (IV : Forall inv sts) by (eapply Forall_impl; [|exact GD]; intros s (X & _); exact X).
  pose proof (scan_same g std sts W wcols i IV TS) as SS.
  assert (LWS : length sts = length wcols) by (unfold wcols; rewrite map_length; exact LS).
  specialize (SS LWS LWC SI I0). rewrite LW in SS. specialize (SS I3 (or_introl AD)).
  destruct (fit_multi g std sts W wcols) as [sts'|]; [|exact SS]. destruct SS as (L' & COL).
  assert (CPS : forall j s v, nth_error sts j = Some s -> nth_error cols j = Some v ->
     exists s', nth_error sts' j = Some s' /\ fit_scan g std s W (cut hs (se - hs) v) = Some s' /\ inv s' /\
       (cps s' <> [] -> 0 < last (cps s') 0 /\
          (last (cps s') 0 * second < nth 0 PT 0 \/ In (last (cps s') 0 * second) PT))).
  { intros j s v S V. destruct (COL j s _ S (WC j v V)) as (s' & N & E & I & C). exists s'.
    split; [exact N|]. split; [exact E|]. split; [exact I|]. intros NE.
    assert (NP : nth 0 PT 0 = t0 + Z.of_nat he * f) by (unfold PT; rewrite grid_nth by lia; f_equal; lia).
    rewrite NP. destruct C as [C|(t & IT & _ & C)].
    - rewrite Forall_forall in GD. destruct (GD s (nth_error_In _ _ S)) as (_ & B). rewrite C in NE |- *. specialize (B NE). tauto.
    - rewrite C. apply grid_in in IT as (x & X & ->).
      assert (secs (t0 + Z.of_nat x * f) * second = t0 + Z.of_nat x * f) as EE.
      { apply secs_whole. apply Z.divide_add_r; [exact W0|]. apply Z.divide_mul_r. exact WF. }
      rewrite EE. split; [unfold second in *; nia|].
      destruct (le_lt_dec he x); [right; apply grid_in; exists x; split; [lia|reflexivity]|left; nia]. }
  assert (NPT : PT <> []).
  { intros E. apply (f_equal (@length Z)) in E. unfold PT in E. rewrite grid_length in E. cbn in E. lia. }
  assert (STEP : forall j s v sm, nth_error sts j = Some s -> nth_error cols j = Some v -> nth_error smooths j = Some sm ->
     exists s' x, nth_error sts' j = Some s' /\ length x = (se - he)%nat /\ inv s' /\
       (cps s' <> [] -> 0 < last (cps s') 0 /\ last (cps s') 0 * second < t0 + Z.of_nat se * f) /\
       fit_scan g std s W (cut hs (se - hs) v) = Some s' /\
       predict (g_score g) s' PT (cut he (se - he) sm) = Some x /\
       predict_col (g_score g) (alert_fired s') (pre_mean s') (pre_std s')
         (match rev (cps s') with [] => None | c :: _ => Some c end) PT (cut he (se - he) sm) = Some x).
  { intros j s v sm S V SM. destruct (CPS j s v S V) as (s' & N & E & I & C).
    destruct (predict_same (g_score g) s' PT (cut he (se - he) sm) I NPT C) as (x & PX & LX & PC).
    exists s', x. split; [exact N|]. split.
    { rewrite LX. apply cut_length. rewrite (LSM sm (nth_error_In _ _ SM)). lia. }
    split; [exact I|]. split; [|auto]. intros NE. destruct (C NE) as (C1 & C2). split; [exact C1|].
    destruct C2 as [C2|C2].
    - unfold PT in C2. rewrite grid_nth in C2 by lia. nia.
    - apply grid_in in C2 as (x' & X & ->). nia. }
  assert (EXJ : forall j s', nth_error sts' j = Some s' -> exists s v sm,
     nth_error sts j = Some s /\ nth_error cols j = Some v /\ nth_error smooths j = Some sm).
  { intros j s' N. assert (J : (j < length sts')%nat) by (apply nth_error_Some; congruence).
    destruct (nth_error sts j) as [s|] eqn:S; [|apply nth_error_None in S; lia].
    destruct (nth_error cols j) as [v|] eqn:V; [|apply nth_error_None in V; lia].
    destruct (nth_error smooths j) as [sm|] eqn:SM; [|apply nth_error_None in SM; lia]. eauto 8. }
  assert (SMJ : forall j sm, nth_error smooths j = Some sm ->
     nth_error (map (fun v => py_slice v (Some (Z.of_nat he)) (Some (Z.of_nat se))) smooths) j = Some (cut he (se - he) sm)).
  { intros j sm SM. rewrite nth_error_map, SM. cbn. f_equal. apply CUT. apply LSM. eapply nth_error_In; eauto. }
  unfold predict_multi. destruct (all_some _) as [w|] eqn:AS; cbn [option_map].
  - assert (LWW : length w = length names).
    { rewrite (all_some_length _ _ AS), zip_length; rewrite ?map_length; lia. }
    assert (WJ : forall j s v sm, nth_error sts j = Some s -> nth_error cols j = Some v -> nth_error smooths j = Some sm ->
      exists s' x, nth_error sts' j = Some s' /\ nth_error w j = Some x /\ length x = (se - he)%nat /\ 
       fit_scan g std s W (cut hs (se - hs) v) = Some s' /\ predict (g_score g) s' PT (cut he (se - he) sm) = Some x).
    { intros j s v sm S V SM. destruct (STEP j s v sm S V SM) as (s' & x & N & LX & _ & _ & E & PX & PC).
      exists s', x. split; [exact N|]. split; [|auto].
      pose proof (all_some_nth_error _ _ j AS) as Z. rewrite (zip_nth_error _ _ _ _ s' _ N (SMJ j sm SM)) in Z.
      rewrite PC in Z. destruct (nth_error w j); [|discriminate]. cbn in Z. congruence. }
    exists w. split; [reflexivity|]. split; [exact LWW|]. split; [exact L'|]. split.
    { apply Forall_forall. intros s' I. apply In_nth_error in I as (j & N).
      destruct (EXJ j s' N) as (s & v & sm & S & V & SM). destruct (STEP j s v sm S V SM) as (s2 & x & N2 & _ & I2 & C & _).
      rewrite N in N2. injection N2 as <-. split; assumption. }
    assert (LEN : forall c, In c (combine names w) -> length (snd c) = (se - he)%nat).
    { intros (name, x) I. apply in_combine_r in I. cbn [snd]. apply In_nth_error in I as (j & NX).
      assert (J : (j < length w)%nat) by (apply nth_error_Some; congruence).
      destruct (nth_error sts' j) as [s'|] eqn:N; [|apply nth_error_None in N; lia].
      destruct (EXJ j s' N) as (s & v & sm & S & V & SM). destruct (WJ j s v sm S V SM) as (s2 & x2 & _ & N2 & LX & _).
      congruence. }
    assert (NE : combine names w <> []).
    { destruct cols; [congruence|]. destruct names; [discriminate|]. destruct w; [discriminate|]. discriminate. }
    assert (RW : rows (combine names w) = (se - he)%nat).
    { destruct (combine names w) as [|(a, b) l] eqn:E; [congruence|]. cbn [rows]. apply (LEN (a, b)). left; reflexivity. }
    split; [split; [exact NE|intros c I; rewrite RW; apply LEN; exact I]|]. split; [exact RW|].
    intros j s v sm S V SM. destruct (WJ j s v sm S V SM) as (s' & x & N & NX & LX & E & PX).
    exists s', x. split; [exact N|]. split; [exact NX|]. split; [exact LX|].
    destruct (CUT _ v (LC v (nth_error_In _ _ V))) as (-> & _).
    destruct (CUT _ sm (LSM sm (nth_error_In _ _ SM))) as (_ & ->). rewrite E. rewrite PX. reflexivity.
  - exfalso. apply all_some_in_none in AS. apply In_nth_error in AS as (j & N).
    apply zip_nth_inv in N as (s' & sv & N & NS & E). destruct (EXJ j s' N) as (s & v & sm & S & V & SM).
    destruct (STEP j s v sm S V SM) as (s2 & x & N2 & _ & _ & _ & _ & _ & PC).
    rewrite N in N2. injection N2 as <-. rewrite (SMJ j sm SM) in NS. injection NS as <-. congruence.
Qed.

(** ** The loop *)
Lemma grid_right_inv t0 f n t a : 0 < f -> time2idx_right (grid t0 f 0 n) t = Some a ->
  a = cnt_lt (grid t0 f 0 n) t /\ (Z.to_nat a < n)%nat /\ 0 <= a /\ t <= t0 + a * f.
Proof.
  intros F H. assert (S := grid_sorted t0 f F n 0). pose proof H as H'.
  unfold time2idx_right in H. apply first_ge_bound in H as (A0 & x & NX & T). rewrite Z.sub_0_r in NX.
  assert (L : (Z.to_nat a < n)%nat) by (rewrite <- (grid_length t0 f 0 n); apply nth_error_Some; congruence).
  apply nth_error_nth with (d := 0) in NX. rewrite grid_nth in NX by lia. cbn [Nat.add] in NX. rewrite Z2Nat.id in NX by lia.
  split; [|split; [exact L|split; [exact A0|lia]]].
  unfold time2idx_right in H'. rewrite (first_ge_spec _ _ S) in H'. destruct (Nat.eqb _ _); [discriminate|].
  injection H' as <-. lia.
Qed.
Lemma grid_cnt_upper t0 f n t c : 0 < f -> c = cnt_lt (grid t0 f 0 n) t -> 1 <= c -> t0 + (c - 1) * f < t.
Proof.
  intros F E C. assert (S := grid_sorted t0 f F n 0). pose proof (cnt_lt_le (grid t0 f 0 n) t) as B. rewrite grid_length in B.
  destruct (Z.lt_ge_cases (t0 + (c - 1) * f) t); [assumption|].
  pose proof (cnt_lt_mono (grid t0 f 0 n) t (t0 + (c - 1) * f) ltac:(lia)) as M.
  pose proof (grid_count t0 f n (Z.to_nat (c - 1)) F ltac:(lia)) as G. rewrite Z2Nat.id in G by lia. lia.
Qed.
Lemma grid_gap t0 f n u t a b : 0 < f -> t0 <= u -> u + 2 * f <= t ->
  time2idx_right (grid t0 f 0 n) u = Some a -> time2idx_right (grid t0 f 0 n) t = Some b -> a + 2 <= b.
Proof.
  intros F U T A B. apply grid_right_inv in A as (A1 & A2 & A3 & A4); [|exact F].
  apply grid_right_inv in B as (B1 & B2 & B3 & B4); [|exact F].
  assert (t0 + (a + 1) * f < t); [|nia].
  destruct (Z.eq_dec a 0) as [->|N]; [nia|]. pose proof (grid_cnt_upper t0 f n u a F A1 ltac:(lia)). nia.
Qed.
Lemma grid_left_inv t0 f n t a : 0 < f -> time2idx_left (grid t0 f 0 n) t = Some a ->
  a + 1 = cnt_lt (grid t0 f 0 n) t /\ 0 <= a /\ a < Z.of_nat n /\ t0 + a * f < t.
Proof.
  intros F H. assert (S := grid_sorted t0 f F n 0). pose proof (cnt_lt_le (grid t0 f 0 n) t) as B. rewrite grid_length in B.
  destruct (Z.eq_dec (cnt_lt (grid t0 f 0 n) t) 0) as [Z|Z].
  - rewrite time2idx_left_none in H by assumption. discriminate.
  - rewrite time2idx_left_spec in H by (auto; lia). injection H as <-.
    pose proof (grid_cnt_upper t0 f n t _ F eq_refl ltac:(lia)). repeat split; lia.
Qed.

(** the columns added to a frame *)
Definition grown (names : list string) (fr acc : frame) (m : nat) : Prop :=
  framed fr /\ rows fr = (rows acc + m)%nat /\
  (forall name, In name (keys_of fr) <-> In name (keys_of acc) \/ (0 < m)%nat /\ In name names) /\
  (forall name, ~ In name names -> cells fr name = cells acc name ++ repeat VNaN m).
Lemma grown_refl names acc : framed acc -> grown names acc acc 0.
Proof.
  intros F. split; [exact F|]. split; [lia|]. split; [|intros; cbn; rewrite app_nil_r; reflexivity].
  intros name. split; [auto|]. intros [H|(H & _)]; [exact H|lia].
Qed.
Lemma grown_extend names acc w m : framed acc -> framed (combine names w) -> length w = length names ->
  rows (combine names w) = m -> (0 < m)%nat -> grown names (extend acc (combine names w)) acc m.
Proof.
  intros FA FW LW RW M. destruct (extend_spec acc (combine names w) FA FW) as (FE & RE & CE).
  split; [exact FE|]. split; [lia|]. split.
  - intros name. rewrite keys_extend, keys_combine by exact LW. tauto.
  - intros name N. rewrite CE. f_equal. unfold cells. rewrite lookup_none by (rewrite keys_combine by exact LW; exact N).
    congruence.
Qed.
Lemma grown_trans names a b c m k : grown names b a m -> grown names c b k -> grown names c a (m + k).
Proof.
  intros (_ & R1 & K1 & C1) (F & R2 & K2 & C2). split; [exact F|]. split; [lia|]. split.
  - intros name. rewrite K2, K1. split.
    + intros [[H|(M & H)]|(M & H)]; [auto|right; split; [lia|exact H]..].
    + intros [H|(M & H)]; [auto|]. destruct m; [right; split; [lia|exact H]|left; right; split; [lia|exact H]].
  - intros name N. rewrite C2, C1 by exact N. rewrite <- app_assoc, repeat_app. reflexivity.
Qed.

Lemma fleet_loop g std names t0 f n cols smooths step :
  0 < f -> second <= t0 -> (second | t0) -> (second | f) -> total std -> g_adapted g = false -> 2 * f <= g_scan g ->
  2 * f <= g_hist g -> 0 < step -> NoDup names ->
  length names = length cols -> cols <> [] ->
  (forall v, In v cols -> length v = n) -> (forall v, In v smooths -> length v = n) -> length smooths = length cols ->
  forall m t sts acc, length sts = length cols -> t0 + g_hist g <= t -> framed acc ->
  Forall (good (t0 + cnt_lt (grid t0 f 0 n) t * f)) sts ->
  let starts := map (fun k => t + Z.of_nat k * step) (seq 0 m) in
  match loop_multi g std names (grid t0 f 0 n) cols smooths step starts sts acc with
  | Some (sts', fr) =>
      exists k, length sts' = length sts /\ grown names fr acc k /\
        Z.of_nat k = cnt_lt (grid t0 f 0 n) (t + Z.of_nat m * step) - cnt_lt (grid t0 f 0 n) t /\
        Forall (good (t0 + cnt_lt (grid t0 f 0 n) (t + Z.of_nat m * step) * f)) sts' /\
        forall j s v sm name, nth_error sts j = Some s -> nth_error cols j = Some v -> nth_error smooths j = Some sm ->
          nth_error names j = Some name ->
          exists s' x, nth_error sts' j = Some s' /\ length x = k /\ cells fr name = cells acc name ++ x /\
            loop_path g std (grid t0 f 0 n) v sm step starts s = Some (s', x)
  | None => ~ (g_magnitude g = None /\ understood (det_dirs g)) \/
      forall j s v sm, nth_error sts j = Some s -> nth_error cols j = Some v -> nth_error smooths j = Some sm ->
        loop_path g std (grid t0 f 0 n) v sm step starts s = None
  end.
Proof.
  intros F P0 W0 WF TS AD SC HC ST ND LN NC LC LSM LSMC. induction m as [|m IH]; intros t sts acc LS TH FA GD.
  - cbn [seq map loop_multi loop_path]. exists 0%nat. split; [reflexivity|]. split; [now apply grown_refl|].
    replace (t + Z.of_nat 0 * step) with t by lia. split; [lia|]. split; [exact GD|].
    intros j s v sm name S V SM N. exists s, []. rewrite app_nil_r. auto.
  - cbv zeta. cbn [seq map]. replace (t + Z.of_nat 0 * step) with t by lia.
    rewrite <- seq_shift, map_map.
    rewrite (map_ext (fun x => t + Z.of_nat (Datatypes.S x) * step) (fun k => t + step + Z.of_nat k * step)) by (intros k; lia).
    specialize (IH (t + step)). cbv zeta in IH. set (starts := map (fun k => t + step + Z.of_nat k * step) (seq 0 m)) in *.
    replace (t + Z.of_nat (Datatypes.S m) * step) with (t + step + Z.of_nat m * step) by lia.
    cbn [loop_multi loop_path].
    destruct (time2idx_right (grid t0 f 0 n) (t - g_hist g)) as [hs|] eqn:HS; [|right; reflexivity].
    destruct (time2idx_right (grid t0 f 0 n) t) as [he|] eqn:HE; [|right; reflexivity].
    destruct (time2idx_left (grid t0 f 0 n) (t + step)) as [se|] eqn:SE; [|right; reflexivity].
    pose proof (grid_gap t0 f n (t - g_hist g) t hs he F ltac:(lia) ltac:(lia) HS HE) as GAP.
    apply grid_right_inv in HS as (_ & _ & HS0 & _); [|exact F].
    apply grid_right_inv in HE as (HE1 & HE2 & HE3 & _); [|exact F].
    apply grid_left_inv in SE as (SE1 & SE2 & SE3 & _); [|exact F].
    pose proof (cnt_lt_mono (grid t0 f 0 n) t (t + step) ltac:(lia)) as MONO.
    destruct (Z.leb_spec (se + 1) he) as [SK|SK].
    + (* an empty step *)
      assert (EQ : cnt_lt (grid t0 f 0 n) (t + step) = cnt_lt (grid t0 f 0 n) t) by lia.
      specialize (IH sts acc LS ltac:(lia) FA). rewrite EQ in IH. specialize (IH GD).
      destruct (loop_multi g std names (grid t0 f 0 n) cols smooths step starts sts acc) as [(sts', fr)|]; [|exact IH].
      exact IH.
    + pose proof (fleet_step g std names t0 f n cols smooths (Z.to_nat hs) (Z.to_nat he) (Z.to_nat (se + 1)) sts
        F P0 W0 WF TS AD SC LN LS NC LC LSM LSMC ltac:(lia) ltac:(lia) ltac:(lia)) as STEP.
      rewrite !Z2Nat.id in STEP by lia. rewrite <- HE1 in GD. specialize (STEP GD).
      destruct (one_step_multi g std names (grid t0 f 0 n) cols smooths hs he (se + 1) sts) as [(sts1, fr1)|].
      2:{ left. exact STEP. }
      destruct STEP as (w & -> & LW & L1 & GD1 & FR & RW & COL).
      specialize (IH sts1 (extend acc (combine names w)) ltac:(lia) ltac:(lia)).
      destruct (extend_spec acc (combine names w) FA FR) as (FE & RE & CE). specialize (IH FE).
      rewrite SE1 in GD1. specialize (IH GD1).
      destruct (loop_multi g std names (grid t0 f 0 n) cols smooths step starts sts1 (extend acc (combine names w)))
        as [(sts', fr)|].
      2:{ destruct IH as [X|X]; [left; exact X|]. right. intros j s v sm S V SM.
          destruct (COL j s v sm S V SM) as (s1 & x1 & N1 & _ & _ & ->). rewrite (X j s1 v sm N1 V SM). reflexivity. }
      destruct IH as (k & L' & GR & KK & GD' & COL').
      exists (Z.to_nat (se + 1) - Z.to_nat he + k)%nat. split; [lia|]. split.
      { eapply grown_trans; [|exact GR]. apply grown_extend; auto. lia. }
      split; [lia|]. split; [exact GD'|].
      intros j s v sm name S V SM N. destruct (COL j s v sm S V SM) as (s1 & x1 & N1 & NX & LX & E1).
      destruct (COL' j s1 v sm name N1 V SM N) as (s' & x & N' & LX' & CX & E').
      exists s', (x1 ++ x). split; [exact N'|]. split; [rewrite app_length; lia|]. split.
      * rewrite CX, CE, <- app_assoc. do 2 f_equal. unfold cells.
        rewrite (lookup_combine names w j name x1 ND N NX). reflexivity.
      * rewrite E1, E'. reflexivity.
Qed.
