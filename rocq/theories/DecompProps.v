(** C266-C268: the seasonality handler and the decomposition of a series. *)
From Verif Require Import Common TSDataModel TSDataProofs TsObjModel TsObjProps TsZoneProps TsInterpProps DecompModel.
Require Import Reals Lra Sorted Permutation.
Open Scope Z_scope.

(** ** Specification *)

(** What [pd.infer_freq] may answer: a length of time only for regular time stamps. *)
Definition kind_law (kind : list Z -> freq_kind) : Prop :=
  forall ts f, kind ts = FTick f ->
    forall i a b, nth_error ts i = Some a -> nth_error ts (S i) = Some b -> b - a = f.

(** Time stamps with the same gap everywhere. *)
Definition regular (f : Z) (ts : list Z) : Prop :=
  forall i a b, nth_error ts i = Some a -> nth_error ts (S i) = Some b -> b - a = f.

(** Polynomial interpolation changes no known value. *)
Definition poly_law (poly : list (option Q) -> list (option Q)) : Prop :=
  forall l, length (poly l) = length l /\
    forall i v, nth_error l i = Some (Some v) -> nth_error (poly l) i = Some (Some v).

(** The parts of a decomposition add up to the data. *)
Definition stl_law (S : stl) : Prop :=
  forall p ys, let '(t, s, r) := S p ys in
    length t = length ys /\ length s = length ys /\ length r = length ys /\
    forall i y a b c, nth_error ys i = Some y -> nth_error t i = Some a ->
      nth_error s i = Some b -> nth_error r i = Some c -> (a + b + c == y)%Q.

(** ** Lists *)
Lemma exists_in t l : existsb (Z.eqb t) l = true <-> In t l.
Proof.
  rewrite existsb_exists. split; [intros (x & I & E); apply Z.eqb_eq in E; subst; exact I|].
  intros I. exists t. split; [exact I|apply Z.eqb_refl].
Qed.

Lemma sorted_unique : forall l m : list Z, StronglySorted Z.lt l -> StronglySorted Z.lt m ->
  (forall x, In x l <-> In x m) -> l = m.
Proof.
  induction l as [|x l IH]; intros [|y m] HL HM H.
  - reflexivity.
  - destruct (proj2 (H y) (or_introl eq_refl)).
  - destruct (proj1 (H x) (or_introl eq_refl)).
  - inversion HL as [|? ? L1 L2]; inversion HM as [|? ? M1 M2]; subst.
    rewrite Forall_forall in L2, M2.
    assert (x = y) as ->.
    { destruct (proj1 (H x) (or_introl eq_refl)) as [E|E]; [auto|].
      destruct (proj2 (H y) (or_introl eq_refl)) as [E'|E']; [auto|].
      specialize (M2 _ E). specialize (L2 _ E'). lia. }
    f_equal. apply IH; auto. intros z. split; intros I.
    + destruct (proj1 (H z) (or_intror I)) as [E|E]; [|exact E]. specialize (L2 _ I). lia.
    + destruct (proj2 (H z) (or_intror I)) as [E|E]; [|exact E]. specialize (M2 _ I). lia.
Qed.

Lemma sorted_filter (p : Z -> bool) l : StronglySorted Z.lt l -> StronglySorted Z.lt (filter p l).
Proof.
  induction 1 as [|x l H IH F]; simpl; [constructor|]. destruct (p x); [|exact IH].
  constructor; [exact IH|]. rewrite Forall_forall in *. intros y I. apply filter_In in I as [I _]. auto.
Qed.

Lemma grid_sorted (g f : Z) : 0 < f -> forall ts, (forall i t, nth_error ts i = Some t -> t = g + Z.of_nat i * f) ->
  StronglySorted Z.lt ts.
Proof.
  intros F ts. revert g. induction ts as [|x ts IH]; intros g H; [constructor|]. constructor.
  - apply (IH (g + f)). intros i t E. rewrite (H (S i) t E). lia.
  - apply Forall_forall. intros y I. apply In_nth_error in I as (i & E).
    rewrite (H O x eq_refl), (H (S i) y E). nia.
Qed.

Lemma lt_sorted_nodup (l : list Z) : StronglySorted Z.lt l -> NoDup l.
Proof.
  induction 1 as [|x l H IH F]; constructor; [|exact IH]. rewrite Forall_forall in F.
  intros I. specialize (F _ I). lia.
Qed.

(** ** Construction *)
Lemma make_inv inferred kind dom arg ignore rows h :
  make_handler inferred kind dom arg ignore rows = Some h ->
  (7 <= length rows)%nat /\ h_rows h = rows /\
  exists s f o, period_seconds arg = Some s /\ handler_freq kind ignore rows = Some f /\
    interpolate inferred o (Z.quot f second * second) Linear false rows = Some (h_input h) /\
    length (filter (fun r => existsb (Z.eqb (fst r)) (map fst rows)) (h_input h)) = length rows /\
    h_period h = handler_period s f (Z.of_nat (length rows)).
Proof.
  unfold make_handler. destruct (Nat.ltb_spec (length rows) 7) as [|L]; [discriminate|].
  destruct (period_seconds arg) as [s|]; [|discriminate].
  destruct (handler_freq kind ignore rows) as [f|] eqn:F; [|discriminate].
  destruct rows as [|[t0 v0] tl] eqn:R; [discriminate|]. rewrite <- R in *.
  destruct (Z.quot f second =? 0); [discriminate|]. cbv zeta.
  match goal with |- context [interpolate inferred ?o _ _ _ _] => set (org := o) end.
  destruct (interpolate inferred org _ Linear false rows) as [input|] eqn:I; [|discriminate].
  destruct (Nat.eqb_spec (length (filter (fun r => existsb (Z.eqb (fst r)) (map fst rows)) input)) (length rows)) as [E|]; [|discriminate].
  intros H. apply some_inj in H. subst h. simpl. split; [exact L|]. split; [reflexivity|].
  exists s, f, org. auto.
Qed.

Lemma make_facts inferred kind dom arg ignore rows h :
  infers inferred -> make_handler inferred kind dom arg ignore rows = Some h ->
  NoDup (map fst rows) /\
  (exists g f, 0 < f /\ (second | f) /\
     forall i r, nth_error (h_input h) i = Some r -> fst r = g + Z.of_nat i * f) /\
  (forall t, In t (map fst rows) -> In t (map fst (h_input h))) /\
  (forall t v, In (t, Some v) rows -> In (t, Some v) (h_input h)).
Proof.
  intros HI H. destruct (make_inv _ _ _ _ _ _ _ H) as (L & _ & s & f & o & _ & _ & I & E & _).
  set (hit := filter _ _) in E.
  assert (X : exists t, In t (map fst rows) /\ In t (map fst (h_input h))).
  { destruct hit as [|r hit'] eqn:Eh; [simpl in E; lia|].
    assert (J : In r hit) by (rewrite Eh; now left). unfold hit in J. apply filter_In in J as [J1 J2].
    apply exists_in in J2. exists (fst r). split; [exact J2|apply in_map; exact J1]. }
  destruct (linear_cells _ _ _ _ _ HI I X) as (F & ND & g & G & _).
  assert (GS : StronglySorted Z.lt (map fst (h_input h))).
  { apply (grid_sorted g (Z.quot f second * second) F). intros i t Et. rewrite nth_error_map in Et.
    destruct (nth_error (h_input h) i) as [r|] eqn:Er; [|discriminate]. simpl in Et. apply some_inj in Et. subst t.
    apply G. exact Er. }
  assert (A : forall t, In t (map fst rows) -> In t (map fst (h_input h))).
  { assert (N : NoDup (map fst hit)).
    { unfold hit. clear -GS. apply lt_sorted_nodup in GS. induction (h_input h) as [|r l IH]; simpl in *; [constructor|].
      inversion GS; subst. destruct (existsb _ _); simpl; [|auto]. constructor; [|auto].
      intros J. apply H1. apply in_map_iff in J as (x & Ex & J). apply filter_In in J as [J _].
      rewrite <- Ex. apply in_map. exact J. }
    intros t It. assert (J : In t (map fst hit)).
    { refine (NoDup_length_incl (l' := map fst rows) N _ _ t It); [rewrite !map_length; lia|].
      intros y J. apply in_map_iff in J as (x & <- & J). apply filter_In in J as [_ J]. apply exists_in. exact J. }
    apply in_map_iff in J as (x & <- & J). apply filter_In in J as [J _]. apply in_map. exact J. }
  split; [exact ND|]. split.
  { exists g, (Z.quot f second * second). split; [exact F|]. split; [exists (Z.quot f second); reflexivity|exact G]. }
  split; [exact A|].
  intros t v It. apply (C264_kept_partial inferred o _ rows _ t v HI I It). apply A.
  apply (in_map fst) in It. exact It.
Qed.

(** An accepted series has at least seven rows, no repeated time, and every one of its
    times and known values is in the regular series that is decomposed. *)
Theorem C266_accepted : forall inferred kind dom arg ignore rows h,
  infers inferred -> make_handler inferred kind dom arg ignore rows = Some h ->
  (7 <= length rows)%nat /\ NoDup (map fst rows) /\ h_rows h = rows /\
  (exists g f, 0 < f /\ (second | f) /\
     forall i r, nth_error (h_input h) i = Some r -> fst r = g + Z.of_nat i * f) /\
  (forall t, In t (map fst rows) -> In t (map fst (h_input h))) /\
  (forall t v, In (t, Some v) rows -> In (t, Some v) (h_input h)).
Proof.
  intros inferred kind dom arg ignore rows h HI H.
  destruct (make_inv _ _ _ _ _ _ _ H) as (L & R & _).
  destruct (make_facts _ _ _ _ _ _ _ HI H) as (N & G & A & B). repeat split; auto.
Qed.

(** The frequency of a regular series is its gap. *)
Lemma diffs_regular f : forall ts, regular f ts -> forall d, In d (diffs ts) -> d = f.
Proof.
  induction ts as [|x ts IH]; intros R d I; [destruct I|]. destruct ts as [|y ts]; [destruct I|].
  destruct I as [<-|I]; [exact (R 0%nat x y eq_refl eq_refl)|].
  apply IH; [|exact I]. intros i a b A B. exact (R (S i) a b A B).
Qed.
Lemma mode_from_in l : forall t x, In (mode_from l t x) (x :: t).
Proof.
  induction t as [|y t IH]; intros x; [now left|]. simpl.
  match goal with |- context [if ?c then _ else _] => destruct c end.
  - destruct (IH y) as [E|I]; [right; left; exact E|right; right; exact I].
  - destruct (IH x) as [E|I]; [left; exact E|right; right; exact I].
Qed.
Lemma mode_regular f ts d : regular f ts -> mode0 (diffs ts) = Some d -> d = f.
Proof.
  intros R H. unfold mode0 in H. destruct (diffs ts) as [|x l] eqn:E; [discriminate|].
  apply some_inj in H. subst d. apply (diffs_regular f ts R). rewrite E. apply mode_from_in.
Qed.
Lemma freq_regular kind ignore rows f f' : kind_law kind -> regular f (map fst rows) ->
  (2 <= length rows)%nat -> handler_freq kind ignore rows = Some f' -> f' = f.
Proof.
  intros K R L. unfold handler_freq. destruct ignore.
  - unfold infer_freq_robust. simpl. destruct (Nat.leb _ _); [discriminate|]. apply mode_regular. exact R.
  - destruct (kind (map fst rows)) as [|d|] eqn:E; [| |discriminate].
    + unfold majority_freq. destruct (mode0 _) as [d|] eqn:M; [|discriminate].
      destruct (_ <=? _); [|discriminate]. intros H. apply some_inj in H. subst f'. exact (mode_regular _ _ _ R M).
    + intros H. apply some_inj in H. subst f'.
      destruct rows as [|r0 [|r1 rs]]; simpl in L; try lia.
      pose proof (K _ _ E 0%nat (fst r0) (fst r1) eq_refl eq_refl).
      pose proof (R 0%nat (fst r0) (fst r1) eq_refl eq_refl). lia.
Qed.

(** The number of rows in a season of a regular series: the whole number of gaps in the
    season, at most half the rows, but seven if that is below two. *)
Theorem C266_period : forall inferred kind dom arg ignore rows h f,
  kind_law kind -> regular f (map fst rows) -> 0 < f ->
  make_handler inferred kind dom arg ignore rows = Some h ->
  exists s, period_seconds arg = Some s /\
    (0 <= s ->
     let half := Z.of_nat (length rows) / 2 in
     (h_period h = 7 /\ s * second < 2 * f) \/
     (2 <= h_period h <= half /\ h_period h * f <= s * second /\
      (s * second < (h_period h + 1) * f \/ h_period h = half))).
Proof.
  intros inferred kind dom arg ignore rows h f K R F H.
  destruct (make_inv _ _ _ _ _ _ _ H) as (L & _ & s & f' & o & P & E & _ & _ & Ph).
  assert (f' = f) by (apply (freq_regular kind ignore rows); auto; lia). subst f'.
  exists s. split; [exact P|]. intros S0. cbv zeta. rewrite Ph. unfold handler_period.
  set (n := Z.of_nat (length rows)) in *. assert (N : 7 <= n) by (unfold n; lia).
  assert (S2 : 0 <= s * second) by (unfold second; lia).
  rewrite Z.quot_div_nonneg by lia.
  assert (D : f * (s * second / f) <= s * second < f * (s * second / f) + f).
  { pose proof (Z.div_mod (s * second) f ltac:(lia)). pose proof (Z.mod_pos_bound (s * second) f F). lia. }
  set (q := s * second / f) in *. assert (Hh : 3 <= n / 2) by (Z.div_mod_to_equations; lia).
  set (hf := n / 2) in *.
  destruct (Z.ltb_spec (Z.min q hf) 2) as [X|X].
  - left. split; [reflexivity|]. assert (q < 2) by lia. nia.
  - right. split; [lia|]. destruct (Z.le_ge_cases q hf).
    + rewrite Z.min_l in * by lia. split; [nia|]. left. nia.
    + rewrite Z.min_r in * by lia. split; [nia|]. right. reflexivity.
Qed.

(** Fewer than seven rows, an unknown name of a period or a period that is not an integer
    are refused; the six names are the seconds of an hour, a day, one and two weeks,
    thirty days and a year. *)
Theorem C266_refused : forall inferred kind dom arg ignore rows,
  ((length rows < 7)%nat \/ arg = POther \/ arg = PName OtherName ->
   make_handler inferred kind dom arg ignore rows = None) /\
  period_seconds (PName Hourly) = Some (60 * 60) /\
  period_seconds (PName Daily) = Some (24 * 60 * 60) /\
  period_seconds (PName Weekly) = Some (7 * 24 * 60 * 60) /\
  period_seconds (PName Biweekly) = Some (14 * 24 * 60 * 60) /\
  period_seconds (PName Monthly) = Some (30 * 24 * 60 * 60) /\
  period_seconds (PName Yearly) = Some (365 * 24 * 60 * 60) /\
  (forall z, period_seconds (PInt z) = Some z).
Proof.
  intros. repeat split; try reflexivity.
  intros [H|[->| ->]]; unfold make_handler; destruct (Nat.ltb_spec (length rows) 7) as [|L]; try reflexivity.
  lia.
Qed.

(** ** Which regular series are accepted *)
Lemma all_regular_nth f (rows : list (Z * option Q)) t0 v0 tl : rows = (t0, v0) :: tl -> regular f (map fst rows) ->
  forall i r, nth_error rows i = Some r -> fst r = t0 + Z.of_nat i * f.
Proof.
  intros -> R i r E. apply (regular_nth (map fst ((t0, v0) :: tl)) f R i t0 (fst r) eq_refl).
  rewrite nth_error_map, E. reflexivity.
Qed.

Lemma occ_all f l : (forall d, In d l -> d = f) -> occ f l = length l.
Proof.
  unfold occ. induction l as [|x l IH]; intros H; [reflexivity|]. simpl.
  destruct (Z.eq_dec x f) as [E|E]; [|exfalso; apply E, H; now left].
  rewrite IH; [reflexivity|]. intros d I. apply H. now right.
Qed.
Lemma diffs_len ts : length (diffs ts) = (length ts - 1)%nat.
Proof.
  induction ts as [|x ts IH]; [reflexivity|]. destruct ts as [|y ts]; [reflexivity|].
  change (S (length (diffs (y :: ts))) = (S (length (y :: ts)) - 1)%nat). rewrite IH. simpl. lia.
Qed.
Lemma freq_found kind ignore rows f : kind_law kind -> regular f (map fst rows) ->
  (2 <= length rows)%nat -> (ignore = true \/ kind (map fst rows) <> FCalendar) ->
  handler_freq kind ignore rows = Some f.
Proof.
  intros K R L C. destruct (handler_freq kind ignore rows) as [f'|] eqn:E.
  - f_equal. apply (freq_regular kind ignore rows); auto.
  - exfalso. unfold handler_freq in E.
    assert (M : exists d, mode0 (diffs (map fst rows)) = Some d).
    { destruct rows as [|r0 [|r1 rs]]; simpl in L; try lia. simpl. eexists. reflexivity. }
    destruct M as [d M]. destruct ignore.
    + unfold infer_freq_robust, times in E. simpl in E. destruct (Nat.leb_spec (length rows) 1); [lia|]. congruence.
    + destruct (kind (map fst rows)) eqn:Kd; [|discriminate|destruct C; congruence].
      unfold majority_freq in E. rewrite M in E. rewrite (mode_regular _ _ _ R M) in *.
      rewrite (occ_all f) in E by (apply diffs_regular; exact R). rewrite diffs_len, map_length in E.
      destruct (Z.leb_spec (Z.of_nat (length rows)) (2 * (Z.of_nat (length rows - 1) + 1))); [discriminate|lia].
Qed.

Lemma regular_sorted f rows : 0 < f -> regular f (map fst rows) -> StronglySorted Z.lt (map fst (rows : list (Z * option Q))).
Proof.
  intros F R. destruct rows as [|[t0 v0] tl] eqn:E; [constructor|]. rewrite <- E in *.
  apply (grid_sorted t0 f F). intros i t X. rewrite nth_error_map in X.
  destruct (nth_error rows i) as [r|] eqn:Er; [|discriminate]. simpl in X. apply some_inj in X. subst t.
  apply (all_regular_nth f rows t0 v0 tl E R i r Er).
Qed.
Lemma lt_le_sorted (l : list Z) : StronglySorted Z.lt l -> StronglySorted Z.le l.
Proof.
  induction 1 as [|x l H IH F]; constructor; [exact IH|]. eapply Forall_impl; [|exact F]. simpl. lia.
Qed.
Lemma last_nth {A} (l : list A) d : l <> [] -> nth_error l (length l - 1) = Some (List.last l d).
Proof.
  induction l as [|x l IH]; [congruence|]. intros _. destruct l as [|y l]; [reflexivity|].
  simpl length. replace (S (S (length l)) - 1)%nat with (S (S (length l) - 1)) by lia.
  apply IH. discriminate.
Qed.

(** interpolation of a regular series at its own gap. *)
Lemma interp_regular inferred o f (rows : list (Z * option Q)) t0 v0 tl :
  rows = (t0, v0) :: tl -> regular f (map fst rows) -> 0 < f ->
  exists res, interpolate inferred o f Linear false rows = Some res /\
    (grid_start o f t0 = t0 -> map fst res = map fst rows) /\
    (grid_start o f t0 <> t0 -> forall t, In t (map fst res) -> ~ In t (map fst rows)).
Proof.
  intros E R F. pose proof (regular_sorted f rows F R) as SR.
  pose proof (lt_sorted_nodup _ SR) as ND.
  assert (NE : rows <> []) by (rewrite E; discriminate).
  pose proof (all_regular_nth f rows t0 v0 tl E R) as RN.
  pose proof (RN _ _ (last_nth rows (0, None) NE)) as LST.
  assert (LP : (1 <= length rows)%nat) by (rewrite E; simpl; lia).
  unfold interpolate. destruct (Z.leb_spec f 0); [lia|].
  assert (ID : sort_rows rows = rows) by (apply sort_rows_id; apply lt_le_sorted; exact SR).
  cbv zeta. rewrite ID.
  set (lst := fst (List.last rows (0, None))) in *. set (g := grid o f t0 lst).
  pose proof (grid_start_bounds o f t0 F) as [B _].
  assert (GL : length g = length rows).
  { destruct (grid_len o f t0 lst F) as [GL _]; [rewrite LST; nia|]. unfold g. 
    assert ((lst - grid_start o f t0) / f = Z.of_nat (length rows - 1)); [|lia].
    rewrite LST. symmetry. apply Z.div_unique with (r := t0 - grid_start o f t0); [left; lia|lia]. }
  assert (UP : exists l, upsample inferred o f Linear rows g = Some l /\ length l = length g).
  { unfold upsample. destruct (inferred _ _ && Nat.eqb _ _); [eexists; split; [reflexivity|rewrite map_length; auto]|].
    assert (forallb (fun t => Nat.eqb (count_occ Z.eq_dec (map fst rows) t) 1) (map fst rows) = true) as ->.
    { apply forallb_forall. intros t I. apply Nat.eqb_eq. apply NoDup_count_occ'; assumption. }
    eexists. split; [reflexivity|apply map_length]. }
  destruct UP as (l & UP & LL).
  assert (GT : forall res : list (Z * option Q), map fst res = g -> (grid_start o f t0 = t0 -> map fst res = map fst rows) /\
    (grid_start o f t0 <> t0 -> forall t, In t (map fst res) -> ~ In t (map fst rows))).
  { intros res ->. split.
    - intros G0. apply list_ext; [rewrite map_length; exact GL|]. intros i x y X Y.
      rewrite (grid_nth o f t0 lst i x X), G0. rewrite nth_error_map in Y.
      destruct (nth_error rows i) as [r|] eqn:Er; [|discriminate]. simpl in Y. apply some_inj in Y. subst y.
      symmetry. apply RN. exact Er.
    - intros G0 t I J. apply In_nth_error in I as (i & I). apply In_nth_error in J as (j & J).
      rewrite nth_error_map in J. destruct (nth_error rows j) as [r|] eqn:Er; [|discriminate]. simpl in J. apply some_inj in J. subst t.
      pose proof (grid_nth o f t0 lst i _ I) as X. rewrite (RN j r Er) in X.
      set (gs := grid_start o f t0) in *.
      assert (t0 - gs = (Z.of_nat i - Z.of_nat j) * f) by lia.
      destruct (Z.lt_trichotomy (Z.of_nat i) (Z.of_nat j)) as [Z1|[Z1|Z1]]; nia. }
  subst rows. cbv iota beta.
  fold lst. fold g. rewrite UP. eexists. split; [reflexivity|]. apply GT.
  clear -LL. assert (length (map (fill_at l) (seq 0 (length l))) = length g) by (rewrite map_length, seq_length; exact LL).
  revert H. generalize (map (fill_at l) (seq 0 (length l))). generalize g. clear.
  induction g as [|x g IH]; intros [|y m] H; simpl in *; try discriminate; auto. f_equal. apply IH. lia.
Qed.

(** A regular series of whole seconds is accepted exactly if the time of the first row
    since midnight is a multiple of the gap, or its time since the start of the month is
    not (the frequency being known to pandas as a length of time). *)
Theorem C266_regular : forall inferred kind dom arg ignore rows t0 v0 tl f,
  kind_law kind -> rows = (t0, v0) :: tl -> regular f (map fst rows) -> 0 < f ->
  (second | f) -> (second | t0) -> (7 <= length rows)%nat -> period_seconds arg <> None ->
  (ignore = true \/ kind (map fst rows) <> FCalendar) ->
  (make_handler inferred kind dom arg ignore rows <> None <->
   (f | t0 mod day) \/ ~ (f | dom t0 * day + t0 mod day)).
Proof.
  intros inferred kind dom arg ignore rows t0 v0 tl f K E R F [fs Fs] [ts Ts] L P C.
  assert (FR : handler_freq kind ignore rows = Some f) by (apply freq_found; auto; lia).
  unfold make_handler. destruct (Nat.ltb_spec (length rows) 7); [lia|].
  destruct (period_seconds arg) as [s|]; [|congruence]. rewrite FR. rewrite E at 1. cbv iota beta.
  assert (SP : 0 < second) by reflexivity.
  assert (Z.quot f second = fs) as ->.
  { rewrite Fs. apply Z.quot_mul. lia. }
  assert (0 < fs) by nia.
  destruct (Z.eqb_spec fs 0); [lia|]. cbv zeta. rewrite <- Fs.
  set (o := if base_seconds dom t0 fs =? 0 then StartDay else Start).
  destruct (interp_regular inferred o f rows t0 v0 tl E R F) as (res & I & G1 & G2). rewrite I.
  set (hit := filter _ res).
  assert (DS : day = 86400 * second) by reflexivity.
  assert (TM : t0 mod day = second * ((t0 mod day) / second)).
  { apply Z.div_exact; [lia|]. rewrite DS, Ts.
    rewrite Z.mul_mod_distr_r by lia. apply Z.mod_mul. lia. }
  set (td := (t0 mod day) / second) in *.
  assert (BS : base_seconds dom t0 fs = 0 <-> (f | dom t0 * day + t0 mod day)).
  { unfold base_seconds. fold td. rewrite TM, DS, Fs.
    replace (dom t0 * (86400 * second) + second * td) with ((dom t0 * 86400 + td) * second) by ring.
    split; intros X.
    - apply Z.mod_divide in X; [|lia]. destruct X as [q X]. exists q. rewrite X. ring.
    - apply Z.mod_divide; [lia|]. destruct X as [q X]. exists q. nia. }
  assert (GS : grid_start o f t0 = t0 <-> (f | t0 mod day) \/ ~ (f | dom t0 * day + t0 mod day)).
  { unfold grid_start, o. destruct (Z.eqb_spec (base_seconds dom t0 fs) 0) as [Z0|Z0]; unfold anchor.
    - apply BS in Z0. replace (t0 - (t0 - t0 mod day)) with (t0 mod day) by ring. split.
      + intros X. left. apply Z.mod_divide; lia.
      + intros [X|X]; [|contradiction]. apply Z.mod_divide in X; lia.
    - rewrite Z.sub_diag, Z.mod_0_l by lia. split; [intros _; right; rewrite <- BS; exact Z0|lia]. }
  rewrite <- GS. clear GS BS. destruct (Z.eq_dec (grid_start o f t0) t0) as [G|G].
  - split; [auto|]. intros _.
    assert (Hh : hit = res).
    { unfold hit. specialize (G1 G). clear -G1.
      assert (A : forall r, In r res -> existsb (Z.eqb (fst r)) (map fst rows) = true).
      { intros r Ir. apply exists_in. rewrite <- G1. apply in_map. exact Ir. }
      clear G1. induction res as [|r l IH]; [reflexivity|]. simpl. rewrite (A r (or_introl eq_refl)).
      f_equal. apply IH. intros x Ix. apply A. now right. }
    rewrite Hh. assert (length res = length rows) by (rewrite <- (map_length fst res), (G1 G); apply map_length).
    rewrite (proj2 (Nat.eqb_eq _ _) H1). discriminate.
  - split; [|contradiction].
    assert (Hh : hit = []).
    { unfold hit. specialize (G2 G). clear -G2. induction res as [|r l IH]; [reflexivity|]. simpl.
      destruct (existsb (Z.eqb (fst r)) (map fst rows)) eqn:X.
      - apply exists_in in X. destruct (G2 (fst r) (or_introl eq_refl) X).
      - apply IH. intros t Ht. apply G2. now right. }
    rewrite Hh. simpl. destruct rows as [|r0 rr]; [discriminate|]. simpl. congruence.
Qed.

(** So every gap that divides a day is accepted. *)
Theorem C266_regular_partial : forall inferred kind dom arg ignore rows t0 v0 tl f,
  kind_law kind -> rows = (t0, v0) :: tl -> regular f (map fst rows) -> 0 < f ->
  (second | f) -> (second | t0) -> (7 <= length rows)%nat -> period_seconds arg <> None ->
  (ignore = true \/ kind (map fst rows) <> FCalendar) -> (f | day) ->
  make_handler inferred kind dom arg ignore rows <> None.
Proof.
  intros inferred kind dom arg ignore rows t0 v0 tl f K E R F Fs Ts L P C D.
  apply (C266_regular inferred kind dom arg ignore rows t0 v0 tl f); auto.
  destruct (Z.eq_dec ((t0 mod day) mod f) 0) as [X|X]; [left; apply Z.mod_divide; lia|].
  right. intros Y. apply X. apply Z.mod_divide; [lia|].
  replace (t0 mod day) with (dom t0 * day + t0 mod day - dom t0 * day) by ring.
  apply Z.divide_sub_r; [exact Y|]. apply Z.divide_mul_r. exact D.
Qed.

(** ** Counterexamples *)
Definition every (start gap : Z) (n : nat) : list (Z * option Q) :=
  map (fun k => (start + Z.of_nat k * gap, Some (inject_Z (Z.of_nat (k mod 3))))) (seq 0 n).
(** what pandas says of a regular series: weeks are a rule of the calendar ("W-THU"). *)
Definition pandas_kind (ts : list Z) : freq_kind :=
  match diffs ts with
  | f :: l => if forallb (Z.eqb f) (f :: l) then if f =? 7 * day then FCalendar else FTick f else FNone
  | [] => FNone
  end.
Lemma pandas_kind_law : kind_law pandas_kind.
Proof.
  intros ts f H. unfold pandas_kind in H. destruct (diffs ts) as [|d l] eqn:E; [discriminate|].
  destruct (forallb (Z.eqb d) (d :: l)) eqn:A; [|discriminate]. destruct (d =? 7 * day); [discriminate|].
  injection H as ->. rewrite <- E in A. exact (diffs_gap f ts A).
Qed.
Lemma regular_diffs f ts : forallb (Z.eqb f) (diffs ts) = true -> regular f ts.
Proof. intros H. exact (diffs_gap f ts H). Qed.
(** the day of the month in January 1970. *)
Definition january (t : Z) : Z := t / day + 1.

(** A regular series is refused: every five hours from one o'clock on the first. *)
Theorem C266_regular_refuted : exists rows, length rows = 30%nat /\ regular (5 * hour) (map fst rows) /\
  make_handler simple_inferred pandas_kind january (PName Daily) false rows = None.
Proof.
  exists (every hour (5 * hour) 30). split; [reflexivity|]. split; [|vm_compute; reflexivity].
  apply regular_diffs. vm_compute. reflexivity.
Qed.

(** A regular weekly series is refused, unless irregular frequencies are ignored. *)
Theorem C266_calendar_refuted : exists rows, length rows = 30%nat /\ regular (7 * day) (map fst rows) /\
  make_handler simple_inferred pandas_kind january (PName Monthly) false rows = None /\
  make_handler simple_inferred pandas_kind january (PName Monthly) true rows <> None.
Proof.
  exists (every 0 (7 * day) 30). split; [reflexivity|]. split; [apply regular_diffs; vm_compute; reflexivity|].
  split; [vm_compute; reflexivity|vm_compute; discriminate].
Qed.

(** A regular series faster than a second is refused. *)
Theorem C266_fast_refuted : forall inferred kind dom arg ignore rows f,
  kind_law kind -> regular f (map fst rows) -> 0 < f < second ->
  make_handler inferred kind dom arg ignore rows = None.
Proof.
  intros inferred kind dom arg ignore rows f K R F.
  destruct (make_handler _ _ _ _ _ _) as [h|] eqn:H; [|reflexivity]. exfalso.
  destruct (make_inv _ _ _ _ _ _ _ H) as (L & _ & s & f' & o & _ & E & I & _).
  assert (f' = f) by (apply (freq_regular kind ignore rows); auto; lia). subst f'.
  rewrite Z.quot_small in I by lia. discriminate.
Qed.

(** The season may be as long as the data. *)
Theorem C266_season_refuted : exists rows h, length rows = 7%nat /\
  make_handler simple_inferred pandas_kind january (PName Daily) false rows = Some h /\ h_period h = 7.
Proof.
  exists (every 0 day 7). eexists. split; [reflexivity|]. split; vm_compute; reflexivity.
Qed.

(** A series with a gap: the missing row is filled in. *)
Definition gappy : list (Z * option Q) := every 0 hour 5 ++ every (6 * hour) hour 6.
Example C266_case : exists h,
  make_handler simple_inferred pandas_kind january (PInt 14400) false gappy = Some h /\
  length (h_input h) = 12%nat /\ nth_error (h_input h) 5 = Some (5 * hour, Some (1 + (0 - 1) * (1 # 2))%Q) /\
  h_period h = 4.
Proof. eexists. split; [vm_compute; reflexivity|]. split; [vm_compute; reflexivity|]. split; vm_compute; reflexivity. Qed.

Print Assumptions C266_accepted.
Print Assumptions C266_period.
Print Assumptions C266_refused.
Print Assumptions C266_regular.
Print Assumptions C266_regular_partial.
Print Assumptions C266_regular_refuted.
Print Assumptions C266_calendar_refuted.
Print Assumptions C266_fast_refuted.
Print Assumptions C266_season_refuted.
