(** Lemmas about one pass of the seasonal network. *)
From Coq Require Import List Bool Arith Reals Lia Lra Psatz.
From Verif Require Import GmLossProofs GmPassModel.
Import ListNotations.
Open Scope nat_scope.

Lemma at_app1 l l' i : i < length l -> at_ (l ++ l') i = at_ l i.
Proof. intros H. unfold at_. apply app_nth1. exact H. Qed.
Lemma at_last l v : at_ (l ++ [v]) (length l) = v.
Proof. unfold at_. rewrite app_nth2 by lia. rewrite Nat.sub_diag. reflexivity. Qed.
Lemma at_last' l v i : i = length l -> at_ (l ++ [v]) i = v.
Proof. intros ->. apply at_last. Qed.
Lemma sigmoid_open v : (0 < sigmoid v < 1)%R.
Proof.
  unfold sigmoid. pose proof (exp_pos (- v)). split; [apply Rinv_0_lt_compat; lra |]. rewrite <- Rinv_1 at 2. apply Rinv_lt_contravar; lra.
Qed.

(** the lengths *)
Definition sized (period n : nat) (st : sm) : Prop := length (xs st) = n /\ length (lv st) = n /\ (1 < period -> length (se st) = n + period).
Lemma absorb_sized period a b x st idx : 1 <= period -> sized period idx st -> sized period (S idx) (absorb period a b x st idx).
Proof.
  intros P [A [B C]]. unfold absorb. destruct (period =? 1) eqn:E; cbn; unfold sized; cbn; rewrite ?app_length; cbn.
  - apply Nat.eqb_eq in E. repeat split; lia.
  - apply Nat.eqb_neq in E. repeat split; try lia.
Qed.

Section Inv.
Variable S : Type.
Variable net : S -> list R -> S * list R.
Variable feat : nat -> list R.
Variables (period iw fw nq : nat).
Variable x : list (option R).
Variable init : list R.
Variable offset : R.
Variable good : R -> Prop.
Hypothesis good_sigmoid : forall v, good (sigmoid v).
Variable P : nat -> sm -> Prop.
Hypothesis P0 : P 1 (start period init x).
Hypothesis PS : forall idx a b st, 1 <= idx -> good a -> (1 < period -> good b) -> P idx st -> P (Datatypes.S idx) (absorb period a b x st idx).

Lemma fold_inv a b n k st : 1 <= k -> good a -> (1 < period -> good b) -> P k st -> P (k + n) (fold_left (absorb period a b x) (seq k n) st).
Proof.
  intros K Ga Gb. revert k K st. induction n as [|n IH]; intros k K st H; cbn [seq fold_left].
  - rewrite Nat.add_0_r. exact H.
  - replace (k + Datatypes.S n) with (Datatypes.S k + n) by lia. apply IH; [lia |]. apply PS; assumption.
Qed.
Lemma process_inv a b prev cur st : prev < cur -> good a -> (1 < period -> good b) -> (prev <> 0 -> P prev st) -> P cur (process period a b init x prev cur st).
Proof.
  intros L Ga Gb H. unfold process. destruct (prev =? 0) eqn:E.
  - apply Nat.eqb_eq in E. subst prev. cbn [Nat.max]. replace cur with (1 + (cur - 1)) at 1 by lia. apply fold_inv; auto.
  - apply Nat.eqb_neq in E. rewrite Nat.max_r by lia. replace cur with (prev + (cur - prev)) at 1 by lia. apply fold_inv; auto; lia.
Qed.
(** the indices of the steps increase *)
Fixpoint rising (prev : nat) (l : list (nat * nat)) : Prop := match l with [] => True | (_, i) :: l => prev < i /\ rising i l end.
Lemma run_inv l : forall prev st a b s out, rising prev l -> good a -> (1 < period -> good b) -> (prev <> 0 -> P prev st) ->
  run S net feat period iw fw nq init x offset l prev st a b s = Some out ->
  forall w f, In (w, f) out -> exists st step, In (step, pos w) l /\ P (pos w) st /\ look period iw (pos w) st = Some w /\ exists o, f = forecast period fw nq offset w o.
Proof.
  induction l as [|[step cur] l IH]; intros prev st a b s out R Ga Gb HP H w f Hin; cbn [run] in H.
  - injection H as <-. destruct Hin.
  - destruct R as [R1 R2]. set (st' := process period a b init x prev cur st) in *.
    assert (HP' : P cur st') by (apply process_inv; auto).
    destruct (look period iw cur st') as [w'|] eqn:EL; [| discriminate]. destruct (net s (input feat period step prev w')) as [s' o] eqn:EN.
    destruct (run S net feat period iw fw nq init x offset l cur st' _ _ s') as [rest|] eqn:ER; [| discriminate]. cbn in H. injection H as <-.
    assert (PW : pos w' = cur).
    { unfold look in EL. destruct (period <=? 1); [injection EL as <-; reflexivity |]. destruct (cur <? period); [discriminate |]. injection EL as <-. reflexivity. }
    destruct Hin as [Hin|Hin].
    + injection Hin as <- <-. rewrite PW. exists st', step. split; [left; reflexivity |]. split; [exact HP' |]. split; [exact EL |]. exists o. reflexivity.
    + assert (GB : 1 < period -> good (if 1 <? period then sigmoid (at_ o 1) else b)) by (intros Pp; destruct (1 <? period); [apply good_sigmoid | apply Gb; exact Pp]).
      destruct (IH cur st' _ _ s' rest R2 (good_sigmoid _) GB ltac:(intros _; exact HP') ER w f Hin) as [st2 [step2 [A [B C]]]].
      exists st2, step2. split; [right; exact A |]. split; [exact B | exact C].
Qed.
End Inv.

(** ** Positivity *)
Definition positive (st : sm) : Prop := (forall i, i < length (xs st) -> (0 < at_ (xs st) i)%R) /\ (forall i, i < length (lv st) -> (0 < at_ (lv st) i)%R) /\ (forall i, i < length (se st) -> (0 < at_ (se st) i)%R).
Lemma at_app_pos l v : (forall i, i < length l -> (0 < at_ l i)%R) -> (0 < v)%R -> forall i, i < length (l ++ [v]) -> (0 < at_ (l ++ [v]) i)%R.
Proof.
  intros A B i Hi. rewrite app_length in Hi. cbn in Hi. destruct (Nat.eq_dec i (length l)) as [->|N]; [rewrite at_last; exact B |].
  rewrite at_app1 by lia. apply A. lia.
Qed.
Lemma absorb_positive period a b x st idx : 1 <= period -> 1 <= idx -> (0 < a < 1)%R -> (1 < period -> (0 < b < 1)%R) -> (forall i v, nth i x None = Some v -> (0 < v)%R) ->
  sized period idx st -> positive st -> positive (absorb period a b x st idx).
Proof.
  intros Pp Hi Ha Hb Hx [L1 [L2 L3]] [A [B C]]. unfold absorb.
  assert (PL : (0 < at_ (lv st) (idx - 1))%R) by (apply B; lia). set (l := at_ (lv st) (idx - 1)) in *.
  destruct (period =? 1) eqn:E.
  - apply Nat.eqb_eq in E. subst period. cbn [Nat.ltb Nat.leb].
    set (v := match nth idx x None with Some v => v | None => l end). assert (PV : (0 < v)%R) by (unfold v; destruct (nth idx x None) eqn:EX; [eapply Hx; eauto | exact PL]).
    split; [| split]; cbn [xs lv se]; [apply at_app_pos; auto | apply at_app_pos; auto; nra | exact C].
  - apply Nat.eqb_neq in E. assert (Pp2 : 1 < period) by lia. specialize (Hb Pp2). specialize (L3 Pp2).
    assert (PSe : (0 < at_ (se st) idx)%R) by (apply C; lia). set (s := at_ (se st) idx) in *.
    replace (1 <? period) with true by (symmetry; apply Nat.ltb_lt; exact Pp2).
    set (v := match nth idx x None with Some v => v | None => (l * s)%R end).
    assert (PV : (0 < v)%R) by (unfold v; destruct (nth idx x None) eqn:EX; [eapply Hx; eauto | nra]).
    assert (PN : (0 < a * v / s + (1 - a) * l)%R).
    { assert (0 < a * v / s)%R by (apply Rdiv_lt_0_compat; nra). nra. }
    set (nl := (a * v / s + (1 - a) * l)%R) in *.
    assert (PQ : (0 < b * v / nl + (1 - b) * s)%R).
    { assert (0 < b * v / nl)%R by (apply Rdiv_lt_0_compat; nra). nra. }
    split; [| split]; cbn [xs lv se]; apply at_app_pos; auto.
Qed.

(** ** Scale *)
Definition scaled (c : R) (st st' : sm) : Prop := xs st' = map (Rmult c) (xs st) /\ lv st' = map (Rmult c) (lv st) /\ se st' = se st.
Definition scale_x (c : R) (x : list (option R)) : list (option R) := map (option_map (Rmult c)) x.
Lemma at_map c l i : at_ (map (Rmult c) l) i = (c * at_ l i)%R.
Proof. unfold at_. replace 0%R with (c * 0)%R at 1 by ring. apply map_nth. Qed.
Lemma scale_nth c x i : nth i (scale_x c x) None = option_map (Rmult c) (nth i x None).
Proof. unfold scale_x. change None with (option_map (Rmult c) None) at 1. apply map_nth. Qed.
Lemma absorb_scaled period a b c x st st' idx : (0 < c)%R -> scaled c st st' ->
  scaled c (absorb period a b x st idx) (absorb period a b (scale_x c x) st' idx).
Proof.
  intros Hc [A [B C]]. unfold absorb. rewrite B, C, at_map, scale_nth. set (l := at_ (lv st) (idx - 1)).
  set (v := match nth idx x None with Some v => v | None => if 1 <? period then (l * at_ (se st) idx)%R else l end).
  replace (match option_map (Rmult c) (nth idx x None) with Some v0 => v0 | None => if 1 <? period then (c * l * at_ (se st) idx)%R else (c * l)%R end) with (c * v)%R
    by (unfold v; destruct (nth idx x None); [reflexivity |]; destruct (1 <? period); cbn; ring).
  destruct (period =? 1); unfold scaled; cbn [xs lv se]; rewrite A, ?C, !map_app; cbn [map].
  - split; [reflexivity |]. split; [| reflexivity]. f_equal. f_equal. ring.
  - set (s := at_ (se st) idx). assert (NL : (a * (c * v) / s + (1 - a) * (c * l))%R = (c * (a * v / s + (1 - a) * l))%R) by (unfold Rdiv; ring).
    split; [reflexivity |]. rewrite NL. split; [reflexivity |]. f_equal. f_equal. f_equal. set (nl := (a * v / s + (1 - a) * l)%R).
    unfold Rdiv. destruct (Req_dec nl 0) as [Z|Z].
    + rewrite Z. replace (c * 0)%R with 0%R by ring. (* division by 0: both 0 in the reals *) replace (/ 0)%R with 0%R by (symmetry; apply Rinv_0). ring.
    + rewrite Rinv_mult. field. split; lra.
Qed.
