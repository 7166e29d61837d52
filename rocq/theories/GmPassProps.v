(** C213 (levels and seasons) and C214 (scale and causality) of the seasonal network — specification, proofs and theorems. *)
From Coq Require Import List Bool Arith Reals Lia Lra Psatz.
From Verif Require Import GmLossProofs GmPassModel GmPassProofs.
Import ListNotations.
Open Scope nat_scope.

(** ** Specification *)
(** a row with positive values, some of them missing, but not the first *)
Definition positive_row (x : list (option R)) : Prop := (exists v, nth 0 x None = Some v) /\ forall i v, nth i x None = Some v -> (0 < v)%R.
(** initial seasonal factors, one per position of the season *)
Definition factors (period : nat) (season : list R) : Prop := length season = period /\ forall s, In s season -> (0 < s)%R.
Definition open01 (a : R) : Prop := (0 < a < 1)%R.
(** the pass visits positive, increasing indices, not before the first season is over *)
Definition visits (period : nat) (l : list (nat * nat)) : Prop := rising 0 l /\ forall step i, In (step, i) l -> period <= i.

(** ** Proofs *)
Lemma seq_map_nth {A} (f : nat -> A) n k d : k < n -> nth k (map f (seq 0 n)) d = f k.
Proof. intros H. rewrite (map_nth_in f (seq 0 n) 0 d k) by (rewrite seq_length; exact H). rewrite seq_nth by exact H. reflexivity. Qed.
Lemma season_init period season i : 1 < period -> length season = period -> i < period + 1 -> at_ (season ++ [at_ season 0]) i = at_ season (i mod period).
Proof.
  intros P L Hi. destruct (Nat.eq_dec i period) as [->|N].
  - rewrite Nat.mod_same by lia. apply at_last'. congruence.
  - rewrite Nat.mod_small by lia. apply at_app1. lia.
Qed.
Lemma start_sized period season x : 1 <= period -> length season = period -> sized period 1 (start period (if period <=? 1 then [1%R] else season ++ [at_ season 0]) x).
Proof.
  intros P L. unfold start, sized. cbn [xs lv se length]. repeat split. intros P2. destruct (period <=? 1) eqn:E; [apply Nat.leb_le in E; lia |].
  rewrite app_length. cbn. lia.
Qed.
Lemma start_positive (period : nat) season x : 1 <= period -> factors period season -> positive_row x -> positive (start period (if period <=? 1 then [1%R] else season ++ [at_ season 0]) x).
Proof.
  intros P [L F] [[v V] X]. unfold start. rewrite V. specialize (X 0 v V).
  assert (SE : forall i, i < length (if period <=? 1 then [1%R] else season ++ [at_ season 0]) -> (0 < at_ (if period <=? 1 then [1%R] else season ++ [at_ season 0]) i)%R).
  { destruct (period <=? 1) eqn:E; intros i Hi.
    - cbn in Hi. assert (i = 0) by lia. subst i. cbn. lra.
    - apply Nat.leb_gt in E. rewrite app_length in Hi. cbn in Hi. rewrite (season_init period) by (auto; lia). apply F. apply nth_In. rewrite L. apply Nat.mod_upper_bound. lia. }
  split; [| split]; cbn [xs lv se].
  - intros i Hi. cbn in Hi. assert (i = 0) by lia. subst i. cbn. exact X.
  - intros i Hi. cbn in Hi. assert (i = 0) by lia. subst i. cbn [at_ nth]. destruct (period <=? 1) eqn:E; [exact X |].
    apply Rdiv_lt_0_compat; [exact X |]. apply (SE 0). rewrite app_length. cbn. lia.
  - exact SE.
Qed.

Section One.
Variable S : Type.
Variable net : S -> list R -> S * list R.
Variable feat : nat -> list R.
Variables (period iw fw nq : nat).
Hypothesis Hp : 1 <= period.
Notation PASS := (pass S net feat period iw fw nq).
Notation RUN := (run S net feat period iw fw nq).

Lemma pass_inv (P : nat -> sm -> Prop) (good : R -> Prop) season x offset l a b s out : (forall v, good (sigmoid v)) ->
  P 1 (start period (if period <=? 1 then [1%R] else season ++ [at_ season 0]) x) ->
  (forall idx a b st, 1 <= idx -> good a -> (1 < period -> good b) -> P idx st -> P (Datatypes.S idx) (absorb period a b x st idx)) ->
  rising 0 l -> good a -> (1 < period -> good b) -> PASS season x offset l a b s = Some out ->
  forall w f, In (w, f) out -> exists st step, In (step, pos w) l /\ P (pos w) st /\ look period iw (pos w) st = Some w /\ exists o, f = forecast period fw nq offset w o.
Proof.
  intros GS H0 HS R Ga Gb H w f Hin. unfold pass in H.
  exact (run_inv S net feat period iw fw nq x _ offset good GS P H0 HS l 0 _ a b s out R Ga Gb ltac:(congruence) H w f Hin).
Qed.
Definition ok (n : nat) (st : sm) : Prop := sized period n st /\ positive st.
Lemma ok_step x idx a b st : positive_row x -> 1 <= idx -> open01 a -> (1 < period -> open01 b) -> ok idx st -> ok (Datatypes.S idx) (absorb period a b x st idx).
Proof.
  intros [_ X] Hi Ha Hb [A B]. split; [apply absorb_sized; assumption |]. apply absorb_positive; assumption.
Qed.
End One.

(** ** Theorems *)
(** C213: all that logarithms are taken of is positive *)
Theorem C213_positive S net feat period iw fw nq season x offset l a b s out w f :
  1 <= period -> factors period season -> positive_row x -> visits period l -> (forall step i, In (step, i) l -> iw <= i) -> open01 a -> open01 b ->
  pass S net feat period iw fw nq season x offset l a b s = Some out -> In (w, f) out ->
  (0 < anchor w)%R /\ (forall v, In v (window w) -> 0 < v)%R /\ length (window w) = iw /\ (forall v, In v (next w) -> 0 < v)%R.
Proof.
  intros Hp F X [R V] W Ha Hb H Hin.
  destruct (pass_inv S net feat period iw fw nq (ok period) open01 season x offset l a b s out sigmoid_open
    ltac:(split; [apply start_sized; [exact Hp | apply F] | apply start_positive; assumption])
    (fun idx a b st => ok_step period Hp x idx a b st X) R Ha ltac:(auto) H w f Hin) as [st [step [IL [[[L1 [L2 L3]] [A [B C]]] [LK _]]]]].
  pose proof (V _ _ IL) as V1. pose proof (W _ _ IL) as W1.
  unfold look in LK. destruct (period <=? 1) eqn:E.
  - injection LK as LK. rewrite <- LK. cbn [anchor window next]. assert (AN : (0 < at_ (lv st) (pos w - 1))%R) by (apply B; lia).
    split; [exact AN |]. split; [| split].
    + intros v Hv. apply in_map_iff in Hv. destruct Hv as [u [<- Hu]]. apply in_map_iff in Hu. destruct Hu as [k [<- Hk]]. apply in_seq in Hk.
      apply Rdiv_lt_0_compat; [apply A; lia | exact AN].
    + rewrite !map_length, seq_length. reflexivity.
    + intros v [].
  - apply Nat.leb_gt in E. specialize (L3 E). destruct (pos w <? period) eqn:E2; [discriminate |]. injection LK as LK. rewrite <- LK. cbn [anchor window next].
    assert (AN : (0 < at_ (lv st) (pos w - 1))%R) by (apply B; lia). split; [exact AN |]. split; [| split].
    + intros v Hv. apply in_map_iff in Hv. destruct Hv as [k [<- Hk]]. apply in_seq in Hk.
      apply Rdiv_lt_0_compat; [apply Rdiv_lt_0_compat; [apply A; lia | exact AN] | apply C; lia].
    + rewrite map_length, seq_length. reflexivity.
    + intros v Hv. apply in_map_iff in Hv. destruct Hv as [k [<- Hk]]. apply in_seq in Hk. apply C. lia.
Qed.
(** a pass raises just if it comes to an index inside the first season *)
Theorem C213_raises S net feat period iw fw nq season x offset l a b s : 1 < period ->
  (pass S net feat period iw fw nq season x offset l a b s = None <-> exists step i, In (step, i) l /\ i < period).
Proof.
  intros Hp. unfold pass. generalize (if period <=? 1 then [1%R] else season ++ [at_ season 0]) as init. intros init.
  generalize 0 at 1. generalize {| xs := []; lv := []; se := [] |}. revert a b s. induction l as [|[step cur] l IH]; intros a b s st prev; cbn [run].
  - split; [discriminate | intros [? [? [[] _]]]].
  - unfold look. replace (period <=? 1) with false by (symmetry; apply Nat.leb_gt; exact Hp). destruct (cur <? period) eqn:E.
    + apply Nat.ltb_lt in E. split; [| reflexivity]. intros _. exists step, cur. split; [left; reflexivity | exact E].
    + apply Nat.ltb_ge in E. destruct (net s _) as [s' o]. destruct (run S net feat period iw fw nq init x offset l cur _ _ _ s') eqn:ER; cbn [option_map].
      * split; [discriminate |]. intros [step0 [i [[H|H] Hi]]]; [injection H as <- <-; lia |]. exfalso.
        assert (HN := proj2 (IH (sigmoid (at_ o 0)) (if 1 <? period then sigmoid (at_ o 1) else b) s' (process period a b init x prev cur st) cur) ltac:(exists step0, i; auto)). congruence.
      * split; [intros _ | reflexivity]. apply IH in ER. destruct ER as [step0 [i [H Hi]]]. exists step0, i. split; [right; exact H | exact Hi].
Qed.
(** a row that is its seasonal pattern times a constant, with any values missing, is seen as a flat one *)
Theorem C213_flat S net feat period iw fw nq season x offset l a b s out w f c (pat : nat -> R) :
  1 < period -> (0 < c)%R -> (forall i, (0 < pat i)%R) -> season = map pat (seq 0 period) ->
  nth 0 x None = Some (c * pat 0%nat)%R -> (forall i v, nth i x None = Some v -> v = (c * pat (i mod period)%nat)%R) ->
  visits period l -> (forall step i, In (step, i) l -> iw <= i) -> pass S net feat period iw fw nq season x offset l a b s = Some out -> In (w, f) out ->
  anchor w = c /\ window w = repeat 1%R iw /\ diff w = repeat 0%R period /\
  (forall h, h < period -> nth h (next w) 0%R = pat ((pos w + h) mod period)) /\
  exists o : list R, length f = fw * nq /\ forall j h, j < nq -> h < fw ->
    nth (j * fw + h) f 0%R = (exp (nth (2 + j * fw + h)%nat o 0) * (c * pat ((pos w + h) mod period)%nat) - offset)%R.
Proof.
  intros Hp Hc HP SE X0 X [RI V] W H Hin.
  set (P := fun (n : nat) (st : sm) => sized period n st /\ (forall i, i < n -> at_ (xs st) i = (c * pat (i mod period)%nat)%R) /\ (forall i, i < n -> at_ (lv st) i = c) /\ (forall i, i < n + period -> at_ (se st) i = pat (i mod period))).
  assert (LS : length season = period) by (rewrite SE, map_length, seq_length; reflexivity).
  assert (P0 : P 1 (start period (if period <=? 1 then [1%R] else season ++ [at_ season 0]) x)).
  { split; [apply start_sized; [lia | exact LS] |]. unfold start. rewrite X0. replace (period <=? 1) with false by (symmetry; apply Nat.leb_gt; lia). cbn [xs lv se].
    assert (S1 : forall i, i < 1 + period -> at_ (season ++ [at_ season 0]) i = pat (i mod period)).
    { intros i Hi. rewrite (season_init period) by (auto; lia). rewrite SE. unfold at_. rewrite seq_map_nth by (apply Nat.mod_upper_bound; lia). reflexivity. }
    split; [| split; [| exact S1]]; intros i Hi; assert (i = 0) by lia; subst i; cbn [at_ nth].
    - rewrite Nat.mod_0_l by lia. reflexivity.
    - rewrite (S1 0) by lia. rewrite Nat.mod_0_l by lia. field. apply Rgt_not_eq. apply HP. }
  assert (PS : forall idx a b st, 1 <= idx -> True -> (1 < period -> True) -> P idx st -> P (Datatypes.S idx) (absorb period a b x st idx)).
  { intros idx a0 b0 st Hi _ _ [Z [A [B C]]]. split; [apply absorb_sized; [lia | exact Z] |]. destruct Z as [L1 [L2 L3]]. specialize (L3 Hp).
    unfold absorb. rewrite (B (idx - 1)) by lia. rewrite (C idx) by lia. replace (1 <? period) with true by (symmetry; apply Nat.ltb_lt; lia).
    replace (period =? 1) with false by (symmetry; apply Nat.eqb_neq; lia).
    set (v := match nth idx x None with Some v => v | None => _ end). assert (EV : v = (c * pat (idx mod period)%nat)%R) by (unfold v; destruct (nth idx x None) eqn:EX; [apply X; exact EX | reflexivity]).
    pose proof (HP (idx mod period)) as PI. set (s0 := pat (idx mod period)) in *.
    assert (NL : (a0 * v / s0 + (1 - a0) * c)%R = c) by (rewrite EV; field; lra). rewrite NL. cbn [xs lv se].
    split; [| split]; intros i Hi2.
    - destruct (Nat.eq_dec i idx) as [->|N]; [rewrite at_last' by congruence; exact EV | rewrite at_app1 by lia; apply A; lia].
    - destruct (Nat.eq_dec i idx) as [->|N]; [rewrite at_last' by congruence; reflexivity | rewrite at_app1 by lia; apply B; lia].
    - destruct (Nat.eq_dec i (idx + period)) as [->|N].
      + rewrite at_last' by congruence. replace (idx + period) with (idx + 1 * period) by lia. rewrite Nat.mod_add by lia. fold s0. rewrite EV. field. lra.
      + rewrite at_app1 by lia. apply C. lia. }
  destruct (pass_inv S net feat period iw fw nq P (fun _ => True) season x offset l a b s out (fun _ => I) P0 PS RI I (fun _ => I) H w f Hin) as [st [step [IL [[[L1 [L2 L3]] [A [B C]]] [LK [o FO]]]]]].
  specialize (L3 Hp). pose proof (V _ _ IL) as V1. pose proof (W _ _ IL) as W1. unfold look in LK. replace (period <=? 1) with false in LK by (symmetry; apply Nat.leb_gt; lia).
  destruct (pos w <? period) eqn:E2; [discriminate |]. injection LK as LK.
  assert (AN : anchor w = c) by (rewrite <- LK; cbn; apply B; lia).
  assert (NX : forall h, h < period -> nth h (next w) 0%R = pat ((pos w + h) mod period)).
  { intros h Hh. rewrite <- LK. cbn [next pos]. rewrite seq_map_nth by exact Hh. apply C. lia. }
  split; [exact AN |]. split; [| split; [| split; [exact NX |]]].
  - rewrite <- LK. cbn [window]. apply nth_ext with 0%R 0%R; [rewrite map_length, seq_length, repeat_length; reflexivity |]. intros k Hk. rewrite map_length, seq_length in Hk.
    rewrite seq_map_nth by exact Hk. rewrite (nth_indep _ 0%R 1%R) by (rewrite repeat_length; exact Hk). rewrite nth_repeat.
    rewrite A, B, C by lia. pose proof (HP ((pos w - iw + k) mod period)). field. lra.
  - rewrite <- LK. cbn [diff]. apply nth_ext with 0%R 0%R; [rewrite map_length, seq_length, repeat_length; reflexivity |]. intros k Hk. rewrite map_length, seq_length in Hk.
    rewrite seq_map_nth by exact Hk. rewrite nth_repeat. rewrite !C by lia. apply Nat.ltb_ge in E2.
    replace (pos w + k) with (pos w - period + k + 1 * period) by lia. rewrite Nat.mod_add by lia. ring.
  - exists o. rewrite FO. unfold forecast. rewrite map_length, seq_length. split; [reflexivity |]. intros j h Hj Hh.
    assert (Bd : j * fw + h < fw * nq) by nia.
    rewrite seq_map_nth by exact Bd. replace (1 <? period) with true by (symmetry; apply Nat.ltb_lt; lia).
    replace ((j * fw + h) mod fw) with h by (rewrite Nat.add_comm, Nat.mod_add by lia; symmetry; apply Nat.mod_small; exact Hh).
    assert (HM : h mod period < period) by (apply Nat.mod_upper_bound; lia).
    unfold at_. rewrite (NX (h mod period) HM), Nat.add_mod_idemp_r by lia. rewrite AN. replace (1 + 1 + (j * fw + h)) with (2 + j * fw + h) by lia.
    rewrite !exp_plus, !exp_ln by auto. ring.
Qed.
(** without a season the level stays within the values seen so far *)
Theorem C213_range S net feat iw fw nq season x offset l a b s out w f lo hi : (exists v, nth 0 x None = Some v) -> rising 0 l -> open01 a ->
  pass S net feat 1 iw fw nq season x offset l a b s = Some out -> In (w, f) out ->
  (forall i v, i < pos w -> nth i x None = Some v -> (lo <= v <= hi)%R) -> (lo <= anchor w <= hi)%R.
Proof.
  intros [v0 X0] RI Ha H Hin B.
  set (P := fun (n : nat) (st : sm) => length (lv st) = n /\ forall n', n <= n' -> (forall i v, i < n' -> nth i x None = Some v -> (lo <= v <= hi)%R) -> forall i, i < n -> (lo <= at_ (lv st) i <= hi)%R).
  assert (P0 : P 1 (start 1 (if 1 <=? 1 then [1%R] else season ++ [at_ season 0]) x)).
  { split; [reflexivity |]. intros n' Hn Bn i Hi. assert (i = 0) by lia. subst i. unfold start. rewrite X0. cbn. apply (Bn 0 v0); [lia | exact X0]. }
  assert (PS : forall idx a b st, 1 <= idx -> open01 a -> (1 < 1 -> open01 b) -> P idx st -> P (Datatypes.S idx) (absorb 1 a b x st idx)).
  { intros idx a0 b0 st Hi Ga _ [L A]. unfold absorb. cbn [Nat.eqb Nat.ltb Nat.leb]. split; cbn [lv]; [rewrite app_length; cbn; lia |].
    intros n' Hn Bn i Hi2. specialize (A n' ltac:(lia) Bn). destruct (Nat.eq_dec i idx) as [->|N]; [| rewrite at_app1 by lia; apply A; lia].
    rewrite at_last' by congruence. assert (A1 := A (idx - 1) ltac:(lia)). set (q := at_ (lv st) (idx - 1)) in *.
    assert (BV : (lo <= match nth idx x None with Some v => v | None => q end <= hi)%R) by (destruct (nth idx x None) eqn:EX; [apply (Bn idx); [lia | exact EX] | exact A1]).
    set (v := match nth idx x None with Some v => v | None => q end) in *. unfold open01 in Ga. nra. }
  destruct (pass_inv S net feat 1 iw fw nq P open01 season x offset l a b s out sigmoid_open P0 PS RI Ha ltac:(lia) H w f Hin) as [st [step [IL [[L A] [LK _]]]]].
  unfold look in LK. cbn [Nat.leb] in LK. injection LK as LK. rewrite <- LK. cbn [anchor].
  assert (PW : 1 <= pos w).
  { assert (G : forall l k, rising k l -> In (step, pos w) l -> k < pos w).
    { clear. induction l as [|[st i] l IH]; intros k R0 IL; [destruct IL |]. destruct R0 as [R1 R2]. destruct IL as [E|E]; [injection E as _ ->; exact R1 |]. specialize (IH i R2 E). lia. }
    specialize (G l 0 RI IL). lia. }
  apply (A (pos w)); [lia | exact B | lia].
Qed.
(** after the last value, all windows are forecast with the same level, and with the same season *)
Lemma fold_seq_app {A} (g : A -> nat -> A) k n m st : fold_left g (seq k (n + m)) st = fold_left g (seq (k + n) m) (fold_left g (seq k n) st).
Proof. rewrite seq_app, fold_left_app. reflexivity. Qed.
Lemma pass_positions S net feat period iw fw nq init x offset l : forall prev st a b s out, run S net feat period iw fw nq init x offset l prev st a b s = Some out ->
  map (fun r => pos (fst r)) out = map snd l.
Proof.
  induction l as [|[step cur] l IH]; intros prev st a b s out H; cbn [run] in H; [injection H as <-; reflexivity |].
  destruct (look period iw cur _) as [w|] eqn:EL; [| discriminate]. destruct (net s _) as [s' o]. destruct (run S net feat period iw fw nq init x offset l cur _ _ _ s') as [rest|] eqn:ER; [| discriminate].
  cbn in H. injection H as <-. cbn [map fst snd]. f_equal; [| eapply IH; exact ER].
  unfold look in EL. destruct (period <=? 1); [injection EL as <-; reflexivity |]. destruct (cur <? period); [discriminate |]. injection EL as <-. reflexivity.
Qed.
Definition frozen (period n : nat) (L : R) (pat : nat -> R) (k : nat) (st : sm) : Prop :=
  sized period k st /\ (forall i, n - 1 <= i < k -> at_ (lv st) i = L) /\ (1 < period -> forall i, n <= i < k + period -> at_ (se st) i = pat i).
Lemma frozen_step period n L pat x idx a b st : 1 <= period -> 1 <= n -> n <= idx -> (forall i, n <= i -> nth i x None = None) -> (L <> 0)%R -> (forall i, n <= i -> (pat i <> 0)%R) -> (forall i, n <= i -> pat (i + period) = pat i) ->
  frozen period n L pat idx st -> frozen period n L pat (Datatypes.S idx) (absorb period a b x st idx).
Proof.
  intros Hp Hn Hi X HL HP PP [Z [A C]]. split; [apply absorb_sized; assumption |]. destruct Z as [L1 [L2 L3]].
  unfold absorb. rewrite (X idx Hi), (A (idx - 1)) by lia. destruct (period =? 1) eqn:E.
  - apply Nat.eqb_eq in E. subst period. cbn [Nat.ltb Nat.leb lv se]. split; [| lia]. intros i Hi2.
    destruct (Nat.eq_dec i idx) as [->|N]; [rewrite at_last' by congruence; ring | rewrite at_app1 by lia; apply A; lia].
  - apply Nat.eqb_neq in E. assert (Hp2 : 1 < period) by lia. specialize (L3 Hp2). specialize (C Hp2).
    replace (1 <? period) with true by (symmetry; apply Nat.ltb_lt; lia). rewrite (C idx) by lia. specialize (HP idx Hi).
    assert (NL : (a * (L * pat idx) / pat idx + (1 - a) * L)%R = L) by (field; exact HP). rewrite NL. cbn [lv se]. split; [| intros _]; intros i Hi2.
    + destruct (Nat.eq_dec i idx) as [->|N]; [rewrite at_last' by congruence; reflexivity | rewrite at_app1 by lia; apply A; lia].
    + destruct (Nat.eq_dec i (idx + period)) as [->|N]; [| rewrite at_app1 by lia; apply C; lia].
      rewrite at_last' by congruence. rewrite (PP idx Hi). field. exact HL.
Qed.
Lemma future_run S net feat period iw fw nq init x offset n :
  1 <= period -> 1 <= n -> (forall i, n <= i -> nth i x None = None) -> positive_row x -> ok period 1 (start period init x) ->
  forall l prev st a b s out, prev < n -> rising prev l -> open01 a -> open01 b -> (prev <> 0 -> ok period prev st) ->
  run S net feat period iw fw nq init x offset l prev st a b s = Some out ->
  exists L pat, (forall i, n <= i -> pat (i + period) = pat i) /\ forall w f, In (w, f) out -> n <= pos w -> anchor w = L /\ (1 < period -> forall h, h < period -> nth h (next w) 0%R = pat (pos w + h)).
Proof.
  intros Hp Hn X XP OK0. induction l as [|[step cur] l IH]; intros prev st a b s out Hprev RI Ha Hb OKp H; cbn [run] in H.
  - injection H as <-. exists 0%R, (fun _ => 0%R). split; [reflexivity |]. intros w f [].
  - destruct RI as [RI1 RI2]. set (st' := process period a b init x prev cur st) in *.
    assert (OK' : ok period cur st').
    { unfold st'. apply (process_inv period x init open01 (ok period) OK0 (fun i a b st => ok_step period Hp x i a b st XP)); auto. }
    destruct (look period iw cur st') as [w'|] eqn:EL; [| discriminate]. destruct (net s (input feat period step prev w')) as [s' o].
    destruct (run S net feat period iw fw nq init x offset l cur st' _ _ s') as [rest|] eqn:ER; [| discriminate]. cbn in H. injection H as <-.
    set (b' := if 1 <? period then sigmoid (at_ o 1) else b) in *.
    assert (Hb' : open01 b') by (unfold b'; destruct (1 <? period); [apply sigmoid_open | exact Hb]).
    destruct (Nat.lt_ge_cases cur n) as [Hc|Hc].
    + destruct (IH cur st' _ b' s' rest Hc RI2 (sigmoid_open _) Hb' ltac:(auto) ER) as [L [pat [PP A]]]. exists L, pat. split; [exact PP |].
      intros w f [E|E] Hw; [| apply (A w f E Hw)]. injection E as <- <-. exfalso.
      assert (pos w' = cur) by (unfold look in EL; destruct (period <=? 1); [injection EL as <-; reflexivity |]; destruct (cur <? period); [discriminate |]; injection EL as <-; reflexivity). lia.
    + set (p1 := Nat.max 1 prev). set (st0 := if prev =? 0 then start period init x else st).
      set (sn := fold_left (absorb period a b x) (seq p1 (n - p1)) st0).
      assert (OKn : ok period n sn).
      { unfold sn, st0. replace n with (p1 + (n - p1)) at 1 by lia.
        apply (fold_inv period x open01 (ok period) (fun i a b st => ok_step period Hp x i a b st XP)); auto; [lia |].
        destruct (prev =? 0) eqn:E; [apply Nat.eqb_eq in E; unfold p1; subst prev; exact OK0 | apply Nat.eqb_neq in E; unfold p1; rewrite Nat.max_r by lia; apply OKp; exact E]. }
      set (L := at_ (lv sn) (n - 1)). set (pat := fun i => at_ (se sn) (n + (i - n) mod period)).
      assert (PP : forall i, n <= i -> pat (i + period) = pat i).
      { intros i Hi. unfold pat. replace (i + period - n) with (i - n + 1 * period) by lia. rewrite Nat.mod_add by lia. reflexivity. }
      destruct OKn as [[Z1 [Z2 Z3]] [Q1 [Q2 Q3]]].
      assert (HL : (L <> 0)%R) by (apply Rgt_not_eq; apply Q2; lia).
      assert (FR : 1 < period -> frozen period n L pat n sn).
      { intros Hp2. split; [split; auto |]. split; [intros i Hi; replace i with (n - 1) by lia; reflexivity |]. intros _ i Hi. unfold pat. rewrite Nat.mod_small by lia. f_equal. lia. }
      assert (FR1 : frozen period n L (fun i => if 1 <? period then pat i else 1%R) n sn).
      { split; [split; auto |]. split; [intros i Hi; replace i with (n - 1) by lia; reflexivity |]. intros Hp2 i Hi. replace (1 <? period) with true by (symmetry; apply Nat.ltb_lt; lia).
        destruct (FR Hp2) as [_ [_ FR2]]. apply FR2; assumption. }
      set (pat' := fun i => if 1 <? period then pat i else 1%R) in *.
      assert (PP' : forall i, n <= i -> pat' (i + period) = pat' i) by (intros i Hi; unfold pat'; destruct (1 <? period); [apply PP; exact Hi | reflexivity]).
      assert (NZ : forall i, n <= i -> (pat' i <> 0)%R).
      { intros i Hi. unfold pat'. destruct (1 <? period) eqn:E; [| lra]. apply Nat.ltb_lt in E. apply Rgt_not_eq. unfold pat. apply Q3. rewrite Z3 by exact E. pose proof (Nat.mod_upper_bound (i - n) period). lia. }
      assert (STEP : forall k m a b st, n <= k -> frozen period n L pat' k st -> frozen period n L pat' (k + m) (fold_left (absorb period a b x) (seq k m) st)).
      { intros k m a0 b0. revert k. induction m as [|m IHm]; intros k st1 Hk F; cbn [seq fold_left]; [rewrite Nat.add_0_r; exact F |].
        replace (k + Datatypes.S m) with (Datatypes.S k + m) by lia. apply IHm; [lia |]. apply frozen_step; auto. }
      assert (FC : frozen period n L pat' cur st').
      { unfold st', process. fold p1. fold st0. replace (cur - p1) with ((n - p1) + (cur - n)) by lia. rewrite fold_seq_app. fold sn. replace (p1 + (n - p1)) with n by lia.
        replace cur with (n + (cur - n)) at 1 by lia. apply STEP; [lia | exact FR1]. }
      assert (READ : forall k st w, n <= k -> frozen period n L pat' k st -> look period iw k st = Some w -> pos w = k /\ anchor w = L /\ (1 < period -> forall h, h < period -> nth h (next w) 0%R = pat' (k + h))).
      { intros k st1 w Hk [F1 [F2 F3]] LK. unfold look in LK. destruct (period <=? 1) eqn:E.
        - injection LK as <-. cbn. split; [reflexivity |]. split; [apply F2; lia |]. apply Nat.leb_le in E. lia.
        - apply Nat.leb_gt in E. destruct (k <? period); [discriminate |]. injection LK as <-. cbn [pos anchor next]. split; [reflexivity |]. split; [apply F2; lia |].
          intros _ h Hh. rewrite seq_map_nth by exact Hh. apply F3; lia. }
      exists L, pat'. split; [exact PP' |]. intros w f Hin Hw. destruct Hin as [E|E].
      * injection E as <- <-. destruct (READ cur st' w' Hc FC EL) as [R1 [R2 R3]]. rewrite R1. auto.
      * clearbody st'. clear - Hp Hn X HL NZ PP' STEP READ FC Hc RI2 ER E. revert cur st' Hc FC RI2 ER. generalize (sigmoid (at_ o 0)) as a1. generalize b' as b1. revert s' rest E.
        induction l as [|[step2 c2] l IHl]; intros s' rest E b1 a1 cur st' Hc FC RI2 ER; cbn [run] in ER; [injection ER as <-; destruct E |].
        destruct RI2 as [R1 R2]. set (st2 := process period a1 b1 init x cur c2 st') in *.
        assert (F2 : frozen period n L pat' c2 st2).
        { unfold st2, process. replace (cur =? 0) with false by (symmetry; apply Nat.eqb_neq; lia). rewrite Nat.max_r by lia. replace c2 with (cur + (c2 - cur)) at 1 by lia. apply STEP; [lia | exact FC]. }
        destruct (look period iw c2 st2) as [w2|] eqn:EL; [| discriminate]. destruct (net s' _) as [s2 o2]. destruct (run S net feat period iw fw nq init x offset l c2 st2 _ _ s2) as [rest2|] eqn:ER2; [| discriminate].
        cbn in ER. injection ER as <-. destruct E as [E|E].
        -- injection E as <- <-. destruct (READ c2 st2 w2 ltac:(lia) F2 EL) as [Q1 [Q2 Q3]]. rewrite Q1. auto.
        -- exact (IHl s2 rest2 E _ _ c2 st2 ltac:(lia) F2 R2 ER2).
Qed.
Theorem C213_future S net feat period iw fw nq season x offset l a b s out n :
  1 <= period -> factors period season -> positive_row x -> rising 0 l -> open01 a -> open01 b -> 1 <= n -> (forall i, n <= i -> nth i x None = None) ->
  pass S net feat period iw fw nq season x offset l a b s = Some out ->
  forall w f w' f', In (w, f) out -> In (w', f') out -> n <= pos w -> n <= pos w' ->
    anchor w = anchor w' /\ (1 < period -> forall h h', h < period -> h' < period -> (pos w + h) mod period = (pos w' + h') mod period -> nth h (next w) 0%R = nth h' (next w') 0%R).
Proof.
  intros Hp F X RI Ha Hb Hn XN H w f w' f' I1 I2 P1 P2. unfold pass in H.
  destruct (future_run S net feat period iw fw nq _ x offset n Hp Hn XN X
    ltac:(split; [apply start_sized; [exact Hp | apply F] | apply start_positive; assumption]) l 0 _ a b s out ltac:(lia) RI Ha Hb ltac:(congruence) H) as [L [pat [PP A]]].
  destruct (A w f I1 P1) as [A1 A2]. destruct (A w' f' I2 P2) as [B1 B2]. split; [congruence |]. intros Hp2 h h' Hh Hh' E.
  rewrite (A2 Hp2 h Hh), (B2 Hp2 h' Hh').
  assert (PK : forall k i, n <= i -> pat (i + k * period) = pat i).
  { induction k as [|k IHk]; intros i Hi; [rewrite Nat.add_0_r; reflexivity |]. replace (i + Datatypes.S k * period) with (i + k * period + period) by lia. rewrite PP by lia. apply IHk. exact Hi. }
  set (u := pos w + h) in *. set (u' := pos w' + h') in *. assert (U : n <= u) by lia. assert (U' : n <= u') by lia.
  pose proof (Nat.div_mod u period ltac:(lia)) as D. pose proof (Nat.div_mod u' period ltac:(lia)) as D'. rewrite E in D.
  destruct (Nat.le_gt_cases u u') as [Q|Q].
  - replace u' with (u + (u' / period - u / period) * period) by (assert (u / period <= u' / period) by (apply Nat.div_le_mono; lia); nia). rewrite PK by exact U. reflexivity.
  - replace u with (u' + (u / period - u' / period) * period) by (assert (u' / period <= u / period) by (apply Nat.div_le_mono; lia); nia). rewrite PK by exact U'. reflexivity.
Qed.
(** the initial smoothing parameters are only checked to be positive: with one above 1 the level becomes negative *)
Theorem C213_smoothing_refuted S net feat (s : S) : exists season x a b, factors 1 season /\ positive_row x /\ (0 < a)%R /\ (0 < b)%R /\
  forall out w f, pass S net feat 1 1 1 1 season x 0 [(0, 2)] a b s = Some out -> In (w, f) out -> (anchor w < 0)%R.
Proof.
  exists [1%R], [Some 4%R; Some 1%R], 2%R, 1%R. split; [split; [reflexivity |]; intros s0 [<-|[]]; lra |]. split; [split; [exists 4%R; reflexivity |] |].
  - intros i v H. destruct i as [|[|[|i]]]; cbn in H; try discriminate; injection H as <-; lra.
  - split; [lra |]. split; [lra |]. intros out w f H Hin. unfold pass in H. cbn [run] in H. unfold look in H. cbn [Nat.leb] in H.
    destruct (net s _) as [s' o]. cbn [option_map] in H. injection H as <-. destruct Hin as [E|[]]. injection E as <- <-. cbn. lra.
Qed.
(** C214: the forecasts scale with the series *)
Definition scale_seen (c : R) (w : seen) : seen := {| pos := pos w; anchor := (c * anchor w)%R; window := window w; next := next w; diff := diff w |}.
Lemma fold_scaled period a b c x n k st st' : (0 < c)%R -> scaled c st st' ->
  scaled c (fold_left (absorb period a b x) (seq k n) st) (fold_left (absorb period a b (scale_x c x)) (seq k n) st').
Proof. intros Hc. revert k st st'. induction n as [|n IH]; intros k st st' H; cbn [seq fold_left]; [exact H |]. apply IH. apply absorb_scaled; assumption. Qed.
Lemma start_scaled period init c x : scaled c (start period init x) (start period init (scale_x c x)).
Proof.
  unfold start. rewrite scale_nth. destruct (nth 0 x None) as [v|]; unfold scaled; cbn [option_map xs lv se map].
  - split; [reflexivity |]. split; [| reflexivity]. f_equal. destruct (period <=? 1); [reflexivity | unfold Rdiv; ring].
  - split; [f_equal; ring |]. split; [| reflexivity]. f_equal. destruct (period <=? 1); [ring | unfold Rdiv; ring].
Qed.
Lemma div_scaled c u v : (0 < c)%R -> (c * u / (c * v) = u / v)%R.
Proof. intros Hc. unfold Rdiv. rewrite Rinv_mult. destruct (Req_dec v 0) as [->|N]; [rewrite Rinv_0; ring | field; split; lra]. Qed.
Lemma look_scaled period iw cur c st st' : (0 < c)%R -> scaled c st st' -> look period iw cur st' = option_map (scale_seen c) (look period iw cur st).
Proof.
  intros Hc [A [B C]]. unfold look. rewrite A, B, C, at_map. destruct (period <=? 1).
  - cbn [option_map scale_seen pos anchor window next diff]. unfold scale_seen. cbn [pos anchor window next diff]. f_equal. f_equal. rewrite !map_map. apply map_ext. intros k. rewrite at_map. apply div_scaled. exact Hc.
  - destruct (cur <? period); [reflexivity |]. cbn [option_map]. unfold scale_seen. cbn [pos anchor window next diff]. f_equal. f_equal. apply map_ext. intros k. rewrite at_map. rewrite div_scaled by exact Hc. reflexivity.
Qed.
Lemma forecast_scaled period fw nq c w o : (0 < c)%R -> (0 < anchor w)%R -> forecast period fw nq 0 (scale_seen c w) o = map (Rmult c) (forecast period fw nq 0 w o).
Proof.
  intros Hc Ha. unfold forecast. cbn [scale_seen anchor next]. rewrite map_map. apply map_ext. intros k. rewrite ln_mult by assumption.
  replace (at_ o ((if 1 <? period then 1 else 0) + 1 + k) + (ln c + ln (anchor w)) + (if 1 <? period then ln (at_ (next w) ((k mod fw) mod period)) else 0))%R
    with (ln c + (at_ o ((if 1 <? period then 1 else 0) + 1 + k) + ln (anchor w) + (if 1 <? period then ln (at_ (next w) ((k mod fw) mod period)) else 0)))%R by ring.
  rewrite exp_plus, exp_ln by exact Hc. ring.
Qed.
Theorem C214_scale S net feat period iw fw nq season x l a b s c : 1 <= period -> factors period season -> positive_row x -> rising 0 l -> open01 a -> open01 b -> (0 < c)%R ->
  option_map (map snd) (pass S net feat period iw fw nq season (scale_x c x) 0 l a b s) =
  option_map (map (fun r => map (Rmult c) (snd r))) (pass S net feat period iw fw nq season x 0 l a b s).
Proof.
  intros Hp F X RI Ha Hb Hc. unfold pass. set (init := if period <=? 1 then [1%R] else season ++ [at_ season 0]).
  assert (OK0 : ok period 1 (start period init x)) by (split; [apply start_sized; [exact Hp | apply F] | apply start_positive; assumption]).
  assert (G : forall l prev st st' a b s, rising prev l -> open01 a -> open01 b -> (prev <> 0 -> ok period prev st) -> scaled c st st' ->
    option_map (map snd) (run S net feat period iw fw nq init (scale_x c x) 0 l prev st' a b s) =
    option_map (map (fun r => map (Rmult c) (snd r))) (run S net feat period iw fw nq init x 0 l prev st a b s)).
  { clear l a b s RI Ha Hb. induction l as [|[step cur] l IH]; intros prev st st' a b s RI Ha Hb OKp SC; [reflexivity |]. destruct RI as [RI1 RI2]. cbn [run].
    set (st1 := process period a b init x prev cur st). set (st1' := process period a b init (scale_x c x) prev cur st').
    assert (SC1 : scaled c st1 st1').
    { unfold st1, st1', process. apply fold_scaled; [exact Hc |]. destruct (prev =? 0); [apply start_scaled | exact SC]. }
    assert (OK1 : ok period cur st1).
    { unfold st1. apply (process_inv period x init open01 (ok period) OK0 (fun i a b st => ok_step period Hp x i a b st X)); auto. }
    rewrite (look_scaled period iw cur c st1 st1' Hc SC1). destruct (look period iw cur st1) as [w|] eqn:EL; [| reflexivity]. cbn [option_map].
    assert (IN : input feat period step prev (scale_seen c w) = input feat period step prev w) by reflexivity. rewrite IN.
    destruct (net s (input feat period step prev w)) as [s' o].
    assert (PA : (0 < anchor w)%R).
    { destruct OK1 as [[_ [Z2 _]] [_ [Q2 _]]]. unfold look in EL. destruct (period <=? 1); [injection EL as <-; apply Q2; lia |]. destruct (cur <? period); [discriminate |]. injection EL as <-. apply Q2. lia. }
    specialize (IH cur st1 st1' (sigmoid (at_ o 0)) (if 1 <? period then sigmoid (at_ o 1) else b) s' RI2 (sigmoid_open _) ltac:(destruct (1 <? period); [apply sigmoid_open | exact Hb]) ltac:(auto) SC1).
    destruct (run S net feat period iw fw nq init x 0 l cur st1 _ _ s') as [r1|]; destruct (run S net feat period iw fw nq init (scale_x c x) 0 l cur st1' _ _ s') as [r2|]; cbn [option_map] in *; try discriminate; [| reflexivity].
    assert (IH' : map snd r2 = map (fun r => map (Rmult c) (snd r)) r1) by congruence. cbn [map snd]. rewrite IH'. rewrite forecast_scaled by assumption. reflexivity. }
  apply G; auto; [congruence |]. split; [reflexivity |]. split; reflexivity.
Qed.
(** what is seen and forecast at an index depends on the values before it *)
Theorem C214_causal S net feat period iw fw nq season x y offset l a b s ox oy n : rising 0 l -> 1 <= n -> (forall i, i < n -> nth i x None = nth i y None) ->
  pass S net feat period iw fw nq season x offset l a b s = Some ox -> pass S net feat period iw fw nq season y offset l a b s = Some oy ->
  filter (fun r => pos (fst r) <=? n) ox = filter (fun r => pos (fst r) <=? n) oy.
Proof.
  intros RI Hn XY. unfold pass. generalize (if period <=? 1 then [1%R] else season ++ [at_ season 0]) as init. intros init.
  assert (AB : forall a b st idx, idx < n -> absorb period a b x st idx = absorb period a b y st idx) by (intros; unfold absorb; rewrite XY by assumption; reflexivity).
  assert (FO : forall a b k m st, k + m <= n -> fold_left (absorb period a b x) (seq k m) st = fold_left (absorb period a b y) (seq k m) st).
  { intros a0 b0 k m. revert k. induction m as [|m IH]; intros k st H; [reflexivity |]. cbn [seq fold_left]. rewrite AB by lia. apply IH. lia. }
  assert (ST : start period init x = start period init y) by (unfold start; rewrite XY by lia; reflexivity).
  assert (G : forall l prev st a b s ox oy, rising prev l -> run S net feat period iw fw nq init x offset l prev st a b s = Some ox -> run S net feat period iw fw nq init y offset l prev st a b s = Some oy ->
    filter (fun r => pos (fst r) <=? n) ox = filter (fun r => pos (fst r) <=? n) oy).
  { clear l a b s ox oy RI. induction l as [|[step cur] l IH]; intros prev st a b s ox oy RI Hx Hy.
    - cbn [run] in *. congruence.
    - destruct (Nat.le_gt_cases cur n) as [Hc|Hc].
      + destruct RI as [R1 R2]. cbn [run] in Hx, Hy.
        assert (PR : process period a b init x prev cur st = process period a b init y prev cur st).
        { unfold process. rewrite ST. destruct (Nat.le_gt_cases cur (Nat.max 1 prev)) as [Z|Z]; [replace (cur - Nat.max 1 prev) with 0 by lia; reflexivity |]. apply FO. lia. }
        rewrite <- PR in Hy. destruct (look period iw cur _) as [w|]; [| discriminate]. destruct (net s _) as [s' o].
        destruct (run S net feat period iw fw nq init x offset l cur _ _ _ s') as [rx|] eqn:Ex; [| discriminate].
        destruct (run S net feat period iw fw nq init y offset l cur _ _ _ s') as [ry|] eqn:Ey; [| discriminate]. cbn in Hx, Hy. injection Hx as <-. injection Hy as <-.
        cbn [filter]. rewrite (IH _ _ _ _ _ _ _ R2 Ex Ey). reflexivity.
      + assert (E : forall o, map (fun r => pos (fst r)) o = map snd ((step, cur) :: l) -> filter (fun r : seen * list R => pos (fst r) <=? n) o = []).
        { intros o Ho. assert (AL : forall p, In p (map snd ((step, cur) :: l)) -> n < p).
          { clear - Hc RI. destruct RI as [_ R2]. intros p [<-|Hp]; [exact Hc |]. revert cur Hc R2. induction l as [|[s i] l IH]; intros cur Hc R2; [destruct Hp |]. destruct R2 as [A B]. destruct Hp as [<-|Hp]; [cbn; lia |]. apply (IH Hp i); [lia | exact B]. }
          rewrite <- Ho in AL. clear - AL. induction o as [|r o IH]; [reflexivity |]. cbn [filter]. destruct (pos (fst r) <=? n) eqn:E; [apply Nat.leb_le in E; specialize (AL (pos (fst r)) ltac:(left; reflexivity)); lia |].
          apply IH. intros p Hp. apply AL. right. exact Hp. }
        rewrite (E ox) by (eapply pass_positions; exact Hx). rewrite (E oy) by (eapply pass_positions; exact Hy). reflexivity. }
  intros Hx Hy. exact (G l 0 _ a b s ox oy RI Hx Hy).
Qed.
(** the hypotheses hold: a row with a missing value, a season of two *)
Definition wave : list (option R) := [Some 2%R; Some 4%R; None; Some 4%R; None; None].
Example C213_case : factors 2 [(2 / 3)%R; (4 / 3)%R] /\ positive_row wave /\ visits 2 [(0, 2); (1, 4)] /\ open01 (2 / 5) /\
  exists out, pass unit (fun s _ => (s, [0; 0; 0; 0]%R)) (fun _ => []) 2 2 2 1 [(2 / 3)%R; (4 / 3)%R] wave 0 [(0, 2); (1, 4)] (2 / 5) (3 / 5) tt = Some out /\ length out = 2.
Proof.
  split; [split; [reflexivity |]; intros s [<-|[<-|[]]]; lra |]. split; [split; [exists 2%R; reflexivity |] |].
  - intros i v H. do 6 (destruct i as [|i]; cbn in H; [try discriminate; injection H as <-; lra |]). destruct i; discriminate.
  - split; [split; [cbn; lia |]; intros st i [E|[E|[]]]; injection E as <- <-; lia |]. split; [unfold open01; lra |]. eexists. split; reflexivity.
Qed.

Print Assumptions C213_positive.
Print Assumptions C213_raises.
Print Assumptions C213_flat.
Print Assumptions C213_range.
Print Assumptions C213_future.
Print Assumptions C213_smoothing_refuted.
Print Assumptions C214_scale.
Print Assumptions C214_causal.
