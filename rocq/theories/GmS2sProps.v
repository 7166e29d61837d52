(** C219 (what the sequence-to-sequence network sees and forecasts) — specification, proofs and theorems. *)
From Coq Require Import List Bool Arith Reals Lia Lra Psatz Permutation Sorted.
From Verif Require Import GmLossProofs GmPassModel GmPassProofs GmPassProps GmS2sModel.
Import ListNotations.
Open Scope nat_scope.

(** ** Specification *)
(** [y] is the row without holes: a missing value is that of one season earlier, in the first season that at the start *)
Definition filled (period : nat) (x : list (option R)) (n : nat) (y : list R) : Prop :=
  length y = n /\ forall i, i < n -> at_ y i = match nth i x None with Some v => v | None => if i <? period then at_ y 0 else at_ y (i - period) end.
(** m is one of the values, fewer than half of them are smaller and at most half are larger *)
Definition is_median (m : R) (l : list R) : Prop :=
  In m l /\ 2 * length (filter (fun v => if Rlt_dec v m then true else false) l) <= length l - 1 /\
  2 * length (filter (fun v => if Rlt_dec m v then true else false) l) <= length l.
Fixpoint rises (prev : nat) (l : list (nat * nat * nat)) : Prop := match l with [] => True | (_, i, _) :: l => prev < i /\ rises i l end.

(** ** Filling *)
Lemma fill_fold period x n : forall k y, 1 <= period -> filled period x k y -> (k = 0 -> n = 0 \/ exists v, nth 0 x None = Some v) ->
  exists y', fold_left (fill1 period x) (seq k n) (Some y) = Some y' /\ filled period x (k + n) y' /\ exists t, y' = y ++ t.
Proof.
  induction n as [|n IH]; intros k y Hp F H0; cbn [seq fold_left].
  - exists y. rewrite Nat.add_0_r. split; [reflexivity |]. split; [exact F | exists []; symmetry; apply app_nil_r].
  - assert (FS : exists v, fill1 period x (Some y) k = Some (y ++ [v]) /\ v = match nth k x None with Some v => v | None => if k <? period then at_ (y ++ [v]) 0 else at_ (y ++ [v]) (k - period) end).
    { cbn [fill1]. destruct F as [L F]. destruct (nth k x None) as [v|] eqn:E; [exists v; split; reflexivity |].
      assert (Hk : 1 <= k). { destruct k; [| lia]. destruct (H0 eq_refl) as [?|[v V]]; [lia | congruence]. }
      exists (at_ y (k - period)). assert (Q : nth_error y (k - period) = Some (at_ y (k - period))) by (apply nth_error_nth'; lia). rewrite Q. split; [reflexivity |].
      destruct (k <? period) eqn:EK; [apply Nat.ltb_lt in EK; replace (k - period) with 0 by lia | apply Nat.ltb_ge in EK]; symmetry; apply at_app1; lia. }
    destruct FS as [v [-> V]].
    assert (F' : filled period x (S k) (y ++ [v])).
    { destruct F as [L F]. split; [rewrite app_length; cbn; lia |]. intros i Hi. destruct (Nat.eq_dec i k) as [->|N].
      - rewrite at_last' by congruence. exact V.
      - assert (Hi' : i < k) by lia. rewrite (at_app1 y) by lia. rewrite (F i Hi') at 1. destruct (nth i x None); [reflexivity |]. destruct (i <? period); symmetry; apply at_app1; lia. }
    destruct (IH (S k) (y ++ [v]) Hp F' ltac:(discriminate)) as [y' [E [G [t T]]]]. exists y'. split; [exact E |]. split; [replace (k + S n) with (S k + n) by lia; exact G |].
    exists (v :: t). rewrite T, <- app_assoc. reflexivity.
Qed.
Lemma fill_ok period x prev cur y : 1 <= period -> prev < cur -> filled period x prev y -> (exists v, nth 0 x None = Some v) ->
  exists y', fill period x prev cur y = Some y' /\ filled period x cur y'.
Proof.
  intros Hp L F X. unfold fill. destruct (fill_fold period x (cur - prev) prev y Hp F ltac:(auto)) as [y' [E [G _]]]. exists y'. split; [exact E |].
  replace cur with (prev + (cur - prev)) by lia. exact G.
Qed.
Lemma filled_pos period x n y : 1 <= period -> positive_row x -> filled period x n y -> forall i, i < n -> (0 < at_ y i)%R.
Proof.
  intros Hp [[v0 V0] X] [L F] i. induction i as [i IH] using lt_wf_ind. intros Hi. rewrite (F i Hi). destruct (nth i x None) as [v|] eqn:E; [eapply X; exact E |].
  destruct i; [congruence |]. destruct (S i <? period) eqn:EK; [apply IH; lia | apply Nat.ltb_ge in EK; apply IH; lia].
Qed.
Lemma filled_unique period x n y y' : 1 <= period -> (exists v, nth 0 x None = Some v) -> filled period x n y -> filled period x n y' -> y = y'.
Proof.
  intros Hp [v0 V0] [L F] [L' F']. apply (nth_ext _ _ 0%R 0%R); [congruence |]. intros i. rewrite L. induction i as [i IH] using lt_wf_ind. intros Hi. fold (at_ y i). fold (at_ y' i).
  rewrite (F i Hi), (F' i Hi). destruct (nth i x None) eqn:E; [reflexivity |]. destruct i; [congruence |]. destruct (S i <? period) eqn:EK; [apply IH; lia | apply Nat.ltb_ge in EK; apply IH; lia].
Qed.

(** ** The median *)
Lemma rinsert_perm v l : Permutation (rinsert v l) (v :: l).
Proof. induction l as [|w l IH]; cbn [rinsert]; [reflexivity |]. destruct (Rle_dec v w); [reflexivity |]. rewrite IH. apply perm_swap. Qed.
Lemma rsort_perm l : Permutation (rsort l) l.
Proof. induction l as [|v l IH]; [reflexivity |]. cbn [rsort fold_right]. rewrite rinsert_perm. constructor. exact IH. Qed.
Lemma rinsert_sorted v l : StronglySorted Rle l -> StronglySorted Rle (rinsert v l).
Proof.
  induction l as [|w l IH]; intros H; cbn [rinsert]; [repeat constructor |]. inversion H as [|? ? S1 S2]. subst. destruct (Rle_dec v w) as [A|A].
  - constructor; [exact H |]. constructor; [exact A |]. eapply Forall_impl; [| exact S2]. intros. cbn in *. lra.
  - constructor; [apply IH; exact S1 |]. eapply Permutation_Forall; [symmetry; apply rinsert_perm |]. constructor; [lra | exact S2].
Qed.
Lemma rsort_sorted l : StronglySorted Rle (rsort l).
Proof. induction l as [|v l IH]; [constructor |]. cbn [rsort fold_right]. apply rinsert_sorted. exact IH. Qed.
Lemma sorted_at l : StronglySorted Rle l -> forall i j, i <= j < length l -> (at_ l i <= at_ l j)%R.
Proof.
  induction 1 as [|v l S IH F]; intros i j H; [cbn in H; lia |]. cbn [length] in H. destruct i, j; cbn; try lra; [| lia | apply (IH i j); lia].
  rewrite Forall_forall in F. apply F. apply nth_In. lia.
Qed.
Lemma filter_perm {A} (f : A -> bool) l l' : Permutation l l' -> length (filter f l) = length (filter f l').
Proof. induction 1; cbn; [reflexivity | destruct (f x); cbn; lia | destruct (f x), (f y); cbn; lia | lia]. Qed.
Lemma filter_none {A} (f : A -> bool) l : (forall v, In v l -> f v = false) -> filter f l = [].
Proof. induction l as [|v l IH]; intros H; [reflexivity |]. cbn. rewrite (H v (or_introl eq_refl)). apply IH. intros u Hu. apply H. right. exact Hu. Qed.
Lemma filter_len {A} (f : A -> bool) l : length (filter f l) <= length l.
Proof. induction l as [|v l IH]; cbn; [lia |]. destruct (f v); cbn; lia. Qed.
Lemma in_split_at (l : list R) n v : In v (firstn n l) -> exists i, i < n /\ i < length l /\ v = at_ l i.
Proof.
  intros H. apply (In_nth _ _ 0%R) in H. destruct H as [i [Hi E]]. rewrite firstn_length in Hi. exists i. split; [lia |]. split; [lia |]. rewrite <- E. unfold at_.
  rewrite firstn_nth by lia. reflexivity.
Qed.
Lemma in_skip_at (l : list R) n v : In v (skipn n l) -> exists i, n <= i < length l /\ v = at_ l i.
Proof.
  intros H. apply (In_nth _ _ 0%R) in H. destruct H as [i [Hi E]]. rewrite skipn_length in Hi. exists (n + i). split; [lia |]. rewrite <- E. unfold at_. rewrite skipn_nth. reflexivity.
Qed.
Lemma tmedian_ok l : l <> [] -> is_median (tmedian l) l.
Proof.
  intros N. assert (L : 1 <= length l) by (destruct l; [congruence | cbn; lia]). unfold tmedian. set (m := (length l - 1) / 2). set (s := rsort l).
  assert (PS : Permutation s l) by apply rsort_perm. assert (LS : length s = length l) by (apply Permutation_length; exact PS).
  assert (SS : StronglySorted Rle s) by apply rsort_sorted.
  assert (M : 2 * m <= length l - 1 /\ length l - 1 <= 2 * m + 1) by (unfold m; pose proof (Nat.div_mod (length l - 1) 2 ltac:(lia)); pose proof (Nat.mod_upper_bound (length l - 1) 2 ltac:(lia)); lia).
  assert (MI : In (at_ s m) l) by (eapply Permutation_in; [exact PS |]; apply nth_In; lia).
  assert (LO : forall i, i <= m -> (at_ s i <= at_ s m)%R) by (intros i Hi; apply (sorted_at s SS); lia).
  assert (HI : forall i, m <= i < length s -> (at_ s m <= at_ s i)%R) by (intros i Hi; apply (sorted_at s SS); lia).
  revert MI LO HI. generalize (at_ s m) as v0. intros v0 MI LO HI. split; [exact MI |]. split.
  - rewrite <- (filter_perm _ _ _ PS). rewrite <- (firstn_skipn m s), filter_app, app_length.
    rewrite (filter_none _ (skipn m s)). { pose proof (filter_len (fun v => if Rlt_dec v v0 then true else false) (firstn m s)) as B. rewrite firstn_length in B. cbn [length]. lia. }
    intros v Hv. apply in_skip_at in Hv. destruct Hv as [i [Hi ->]]. destruct (Rlt_dec (at_ s i) v0) as [C|C]; [| reflexivity]. specialize (HI i ltac:(lia)). lra.
  - rewrite <- (filter_perm _ _ _ PS). rewrite <- (firstn_skipn (S m) s), filter_app, app_length.
    rewrite (filter_none _ (firstn (S m) s)). { pose proof (filter_len (fun v => if Rlt_dec v0 v then true else false) (skipn (S m) s)) as B. rewrite skipn_length in B. cbn [length]. lia. }
    intros v Hv. apply in_split_at in Hv. destruct Hv as [i [Hi [Hi' ->]]]. destruct (Rlt_dec v0 (at_ s i)) as [C|C]; [| reflexivity]. specialize (LO i ltac:(lia)). lra.
Qed.
Lemma rinsert_scale c v l : (0 < c)%R -> rinsert (c * v) (map (Rmult c) l) = map (Rmult c) (rinsert v l).
Proof.
  intros Hc. induction l as [|w l IH]; [reflexivity |]. cbn [map rinsert]. destruct (Rle_dec (c * v) (c * w)) as [A|A], (Rle_dec v w) as [B|B]; cbn [map]; try reflexivity; try (exfalso; nra).
  rewrite IH. reflexivity.
Qed.
Lemma rsort_scale c l : (0 < c)%R -> rsort (map (Rmult c) l) = map (Rmult c) (rsort l).
Proof. intros Hc. induction l as [|v l IH]; [reflexivity |]. cbn [map rsort fold_right]. fold (rsort (map (Rmult c) l)) (rsort l). rewrite IH. apply rinsert_scale. exact Hc. Qed.
Lemma tmedian_scale c l : (0 < c)%R -> tmedian (map (Rmult c) l) = (c * tmedian l)%R.
Proof. intros Hc. unfold tmedian. rewrite map_length, rsort_scale by exact Hc. apply at_map. Qed.
Lemma glance_scale period iw cur c y : (0 < c)%R -> glance period iw cur (map (Rmult c) y) = ((c * fst (glance period iw cur y))%R, snd (glance period iw cur y)).
Proof.
  intros Hc. unfold glance. rewrite skipn_map, firstn_map. set (xi := firstn iw (skipn (cur - iw) y)). rewrite map_length, skipn_map. rewrite tmedian_scale by exact Hc. cbn [fst snd].
  f_equal. rewrite map_map. apply map_ext. intros v. apply div_scaled. exact Hc.
Qed.

(** ** The pass *)
Section Run.
Variables E D : Type.
Variable enc : E -> list R -> E * list R.
Variable dec : D -> list R -> D * list R.
Variable prepare : E -> D -> D.
Variable feat : nat -> nat -> list R.
Variables (period iw fw nq : nat).
Hypothesis Hp : 1 <= period.
Notation RUN := (s2s_run E D enc dec prepare feat period iw fw nq).
Notation DECODE := (decode D dec feat fw nq).
Lemma decode_rows offset an code cur n : forall k d f, In f (snd (DECODE offset an code cur k n d)) -> length f = fw * nq /\ forall v, In v f -> (- offset < v)%R.
Proof.
  induction n as [|n IH]; intros k d f H; cbn [decode] in H; [destruct H |]. destruct (dec d _) as [d1 o]. specialize (IH (S k) d1 f).
  destruct (DECODE offset an code cur (S k) n d1) as [d2 r]. cbn [snd] in *. destruct H as [<-|H]; [| exact (IH H)]. split; [rewrite map_length, seq_length; reflexivity |].
  intros v Hv. apply in_map_iff in Hv. destruct Hv as [c [<- _]]. pose proof (exp_pos (at_ o c + ln an)). lra.
Qed.
Lemma decode_count offset an code cur n : forall k d, length (snd (DECODE offset an code cur k n d)) = n.
Proof.
  induction n as [|n IH]; intros k d; cbn [decode]; [reflexivity |]. destruct (dec d _) as [d1 o]. specialize (IH (S k) d1). destruct (DECODE offset an code cur (S k) n d1) as [d2 r].
  cbn [snd length] in *. congruence.
Qed.
Lemma decode_scale c an code cur n : (0 < c)%R -> (0 < an)%R -> forall k d,
  DECODE 0 (c * an) code cur k n d = (fst (DECODE 0 an code cur k n d), map (map (Rmult c)) (snd (DECODE 0 an code cur k n d))).
Proof.
  intros Hc Ha. induction n as [|n IH]; intros k d; cbn [decode]; [reflexivity |]. destruct (dec d _) as [d1 o]. rewrite (IH (S k) d1).
  destruct (DECODE 0 an code cur (S k) n d1) as [d2 r]. cbn [fst snd map]. f_equal. f_equal. rewrite map_map. apply map_ext. intros v.
  rewrite ln_mult by assumption. replace (at_ o v + (ln c + ln an))%R with (ln c + (at_ o v + ln an))%R by ring. rewrite exp_plus, exp_ln by exact Hc. ring.
Qed.
Lemma run_seen x offset : (exists v, nth 0 x None = Some v) -> forall l prev xl e d out, rises prev l -> filled period x prev xl ->
  RUN x offset l prev xl e d = Some out ->
  forall cur an w f, In (cur, an, w, f) out -> exists step n y, In (step, cur, n) l /\ filled period x cur y /\ (an, w) = glance period iw cur y /\ length f = n /\
    forall r, In r f -> length r = fw * nq /\ forall v, In v r -> (- offset < v)%R.
Proof.
  intros X. induction l as [|[[step i] n] l IH]; intros prev xl e d out RI F H cur an w f Hin; cbn [s2s_run] in H; [injection H as <-; destruct Hin |]. destruct RI as [R1 R2].
  destruct (fill_ok period x prev i xl Hp R1 F X) as [y [EF Fy]]. rewrite EF in H. destruct (glance period iw i y) as [an' w'] eqn:EG. destruct (enc e _) as [e' code].
  pose proof (decode_rows offset an' code i n 0 (if n =? 0 then d else prepare e' d)) as DR. pose proof (decode_count offset an' code i n 0 (if n =? 0 then d else prepare e' d)) as DC.
  destruct (DECODE offset an' code i 0 n _) as [d' fs]. destruct (RUN x offset l i y e' d') as [rest|] eqn:ER; [| discriminate]. cbn in H. injection H as <-.
  destruct Hin as [Q|Hin].
  - injection Q as <- <- <- <-. exists step, n, y. split; [left; reflexivity |]. split; [exact Fy |]. split; [symmetry; exact EG |]. split; [exact DC | exact DR].
  - destruct (IH i y e' d' rest R2 Fy ER cur an w f Hin) as [s2 [n2 [y2 [A B]]]]. exists s2, n2, y2. split; [right; exact A | exact B].
Qed.
Lemma run_some x offset : (exists v, nth 0 x None = Some v) -> forall l prev xl e d, rises prev l -> filled period x prev xl -> RUN x offset l prev xl e d <> None.
Proof.
  intros X. induction l as [|[[step i] n] l IH]; intros prev xl e d RI F; cbn [s2s_run]; [discriminate |]. destruct RI as [R1 R2].
  destruct (fill_ok period x prev i xl Hp R1 F X) as [y [EF Fy]]. rewrite EF. destruct (glance period iw i y) as [an w]. destruct (enc e _) as [e' code]. destruct (DECODE _ _ _ _ _ _ _) as [d' fs].
  specialize (IH i y e' d' R2 Fy). destruct (RUN x offset l i y e' d'); [discriminate | congruence].
Qed.
Lemma run_positions x offset : forall l prev xl e d out, RUN x offset l prev xl e d = Some out -> map (fun r => fst (fst (fst r))) out = map (fun r => snd (fst r)) l.
Proof.
  induction l as [|[[step i] n] l IH]; intros prev xl e d out H; cbn [s2s_run] in H; [injection H as <-; reflexivity |]. destruct (fill period x prev i xl) as [y|]; [| discriminate].
  destruct (glance period iw i y) as [an w]. destruct (enc e _) as [e' code]. destruct (DECODE _ _ _ _ _ _ _) as [d' fs]. destruct (RUN x offset l i y e' d') as [rest|] eqn:ER; [| discriminate].
  cbn in H. injection H as <-. cbn. f_equal. eapply IH. exact ER.
Qed.
End Run.
Lemma seq_some {A} (f : nat -> A) n : 1 <= n -> map f (seq 0 n) <> [].
Proof. destruct n; [lia | discriminate]. Qed.
Lemma filled_nil period x : filled period x 0 [].
Proof. split; [reflexivity | intros i Hi; lia]. Qed.
Lemma part_eq (y : list R) k n : k + n <= length y -> firstn n (skipn k y) = map (fun j => at_ y (k + j)) (seq 0 n).
Proof.
  intros H. apply (nth_ext _ _ 0%R 0%R); [rewrite firstn_length, skipn_length, map_length, seq_length; lia |]. intros i Hi. rewrite firstn_length, skipn_length in Hi.
  rewrite firstn_nth by lia. rewrite skipn_nth. rewrite (seq_map_nth (fun j => at_ y (k + j))) by lia. reflexivity.
Qed.
Lemma tail_eq (y : list R) k n : k + n = length y -> skipn k y = map (fun j => at_ y (k + j)) (seq 0 n).
Proof. intros H. rewrite <- part_eq by lia. symmetry. apply firstn_all2. rewrite skipn_length. lia. Qed.
Lemma glance_eq period iw cur y an w : length y = cur -> iw <= cur -> glance period iw cur y = (an, w) ->
  an = tmedian (map (fun k => at_ y (cur - Nat.min period iw + k)) (seq 0 (Nat.min period iw))) /\ w = map (fun k => (at_ y (cur - iw + k) / an)%R) (seq 0 iw).
Proof.
  intros L H G. unfold glance in G. rewrite part_eq in G by lia. set (xi := map (fun j => at_ y (cur - iw + j)) (seq 0 iw)) in *. assert (LX : length xi = iw) by (unfold xi; rewrite map_length, seq_length; reflexivity).
  rewrite LX in G. rewrite (tail_eq xi (iw - period) (Nat.min period iw)) in G by lia.
  assert (Q : map (fun j => at_ xi (iw - period + j)) (seq 0 (Nat.min period iw)) = map (fun k => at_ y (cur - Nat.min period iw + k)) (seq 0 (Nat.min period iw))).
  { apply map_ext_in. intros j Hj. apply in_seq in Hj. unfold at_ at 1. unfold xi. rewrite (seq_map_nth (fun j => at_ y (cur - iw + j))) by lia. f_equal. lia. }
  rewrite Q in G. injection G as <- <-. split; [reflexivity |]. unfold xi. rewrite map_map. reflexivity.
Qed.

(** ** Theorems *)
(** C219: the network sees the last input_window values of the row without holes, divided by a median of the last season; all of
    them are positive, and there are as many forecasts as decoder steps, each with fcst_window values for each quantile *)
Theorem C219_seen E D enc dec prepare feat period iw fw nq x offset l e d out cur an w f :
  1 <= period -> 1 <= iw -> positive_row x -> rises 0 l -> (forall step i n, In (step, i, n) l -> iw <= i) ->
  s2s_pass E D enc dec prepare feat period iw fw nq x offset l e d = Some out -> In (cur, an, w, f) out ->
  exists step n y, In (step, cur, n) l /\ filled period x cur y /\
    is_median an (map (fun k => at_ y (cur - Nat.min period iw + k)) (seq 0 (Nat.min period iw))) /\
    w = map (fun k => (at_ y (cur - iw + k) / an)%R) (seq 0 iw) /\ (0 < an)%R /\ (forall v, In v w -> 0 < v)%R /\
    length f = n /\ forall r, In r f -> length r = fw * nq /\ forall v, In v r -> (- offset < v)%R.
Proof.
  intros Hp Hw X RI W H Hin. destruct (run_seen E D enc dec prepare feat period iw fw nq Hp x offset (proj1 X) l 0 [] e d out RI (filled_nil period x) H cur an w f Hin) as [step [n [y [A [B [C [LF FR]]]]]]].
  exists step, n, y. split; [exact A |]. split; [exact B |]. specialize (W _ _ _ A). destruct (glance_eq period iw cur y an w (proj1 B) W (eq_sym C)) as [EA EW].
  assert (ME : is_median an (map (fun k => at_ y (cur - Nat.min period iw + k)) (seq 0 (Nat.min period iw)))).
  { rewrite EA. apply tmedian_ok. apply seq_some. lia. }
  assert (PA : (0 < an)%R).
  { destruct ME as [M _]. apply in_map_iff in M. destruct M as [k [<- Hk]]. apply in_seq in Hk. apply (filled_pos period x cur y Hp X B). lia. }
  split; [exact ME |]. split; [exact EW |]. split; [exact PA |]. split; [| split; [exact LF | exact FR]].
  intros v Hv. rewrite EW in Hv. apply in_map_iff in Hv. destruct Hv as [k [<- Hk]]. apply in_seq in Hk. apply Rdiv_lt_0_compat; [| exact PA]. apply (filled_pos period x cur y Hp X B). lia.
Qed.
(** a row raises just if its first value is missing *)
Theorem C219_raises E D enc dec prepare feat period iw fw nq x offset l e d : 1 <= period -> rises 0 l -> l <> [] ->
  (s2s_pass E D enc dec prepare feat period iw fw nq x offset l e d = None <-> nth 0 x None = None).
Proof.
  intros Hp RI N. split.
  - intros H. destruct (nth 0 x None) as [v|] eqn:E0; [| reflexivity]. exfalso. revert H. apply (run_some E D enc dec prepare feat period iw fw nq Hp x offset (ex_intro _ v E0)); [exact RI | apply filled_nil].
  - intros H. destruct l as [|[[step i] n] l]; [congruence |]. destruct RI as [R1 _]. unfold s2s_pass. cbn [s2s_run].
    assert (Q : fill period x 0 i [] = None). { unfold fill. rewrite Nat.sub_0_r. destruct i as [|i]; [lia |]. cbn [seq fold_left fill1]. rewrite H. cbn. clear. generalize (seq 1 i). induction l; [reflexivity | exact IHl]. }
    rewrite Q. reflexivity.
Qed.
(** holes of a periodic row whose first season is complete are filled with what is missing *)
Theorem C219_periodic E D enc dec prepare feat period iw fw nq x offset l e d out cur an w f (pat : nat -> R) :
  1 <= period -> 1 <= iw -> rises 0 l -> (forall step i n, In (step, i, n) l -> iw <= i) ->
  (forall i, (0 < pat i)%R) -> (forall i, i < period -> nth i x None = Some (pat i)) -> (forall i v, nth i x None = Some v -> v = pat (i mod period)) ->
  s2s_pass E D enc dec prepare feat period iw fw nq x offset l e d = Some out -> In (cur, an, w, f) out ->
  w = map (fun k => (pat ((cur - iw + k) mod period) / an)%R) (seq 0 iw) /\
  is_median an (map (fun k => pat ((cur - Nat.min period iw + k) mod period)) (seq 0 (Nat.min period iw))).
Proof.
  intros Hp Hw RI W PP X1 X2 H Hin.
  assert (X : positive_row x). { split; [exists (pat 0); apply X1; lia |]. intros i v E0. rewrite (X2 i v E0). apply PP. }
  destruct (C219_seen E D enc dec prepare feat period iw fw nq x offset l e d out cur an w f Hp Hw X RI W H Hin) as [step [n [y [A [B [ME [EW _]]]]]]]. specialize (W _ _ _ A).
  assert (Y : forall i, i < cur -> at_ y i = pat (i mod period)).
  { destruct B as [L F]. intros i. induction i as [i IH] using lt_wf_ind. intros Hi. rewrite (F i Hi). destruct (nth i x None) as [v|] eqn:E0; [apply (X2 i v E0) |].
    destruct (i <? period) eqn:EK; [apply Nat.ltb_lt in EK; rewrite X1 in E0 by exact EK; discriminate |]. apply Nat.ltb_ge in EK. rewrite IH by lia. f_equal.
    replace i with ((i - period) + 1 * period) at 2 by lia. rewrite Nat.mod_add by lia. reflexivity. }
  split.
  - rewrite EW. apply map_ext_in. intros k Hk. apply in_seq in Hk. rewrite Y by lia. reflexivity.
  - replace (map (fun k => pat ((cur - Nat.min period iw + k) mod period)) (seq 0 (Nat.min period iw))) with (map (fun k => at_ y (cur - Nat.min period iw + k)) (seq 0 (Nat.min period iw))); [exact ME |].
    apply map_ext_in. intros k Hk. apply in_seq in Hk. apply Y. lia.
Qed.
(** the forecasts scale with the series *)
Lemma fill_scale period x c n : forall k y, fold_left (fill1 period (scale_x c x)) (seq k n) (Some (map (Rmult c) y)) = option_map (map (Rmult c)) (fold_left (fill1 period x) (seq k n) (Some y)).
Proof.
  assert (N : forall x l, fold_left (fill1 period x) l None = None) by (intros x0 l; induction l; [reflexivity | exact IHl]).
  induction n as [|n IH]; intros k y; [reflexivity |]. cbn [seq fold_left]. unfold fill1 at 2 4. rewrite scale_nth. destruct (nth k x None) as [v|]; cbn [option_map].
  - replace (map (Rmult c) y ++ [(c * v)%R]) with (map (Rmult c) (y ++ [v])) by (rewrite map_app; reflexivity). apply IH.
  - rewrite nth_error_map. destruct (nth_error y (k - period)) as [v|]; cbn [option_map]; [| rewrite !N; reflexivity].
    replace (map (Rmult c) y ++ [(c * v)%R]) with (map (Rmult c) (y ++ [v])) by (rewrite map_app; reflexivity). apply IH.
Qed.
Theorem C219_scale E D enc dec prepare feat period iw fw nq x l e d c : 1 <= period -> 1 <= iw -> positive_row x -> rises 0 l -> (forall step i n, In (step, i, n) l -> iw <= i) -> (0 < c)%R ->
  option_map (map snd) (s2s_pass E D enc dec prepare feat period iw fw nq (scale_x c x) 0 l e d) =
  option_map (map (fun r => map (map (Rmult c)) (snd r))) (s2s_pass E D enc dec prepare feat period iw fw nq x 0 l e d).
Proof.
  intros Hp Hw X RI W Hc. unfold s2s_pass.
  assert (G : forall l prev y e d, rises prev l -> (forall step i n, In (step, i, n) l -> iw <= i) -> filled period x prev y ->
    option_map (map snd) (s2s_run E D enc dec prepare feat period iw fw nq (scale_x c x) 0 l prev (map (Rmult c) y) e d) =
    option_map (map (fun r => map (map (Rmult c)) (snd r))) (s2s_run E D enc dec prepare feat period iw fw nq x 0 l prev y e d)).
  { clear l e d RI W. induction l as [|[[step cur] n] l IH]; intros prev y e d RI W F; [reflexivity |]. destruct RI as [R1 R2]. cbn [s2s_run].
    destruct (fill_ok period x prev cur y Hp R1 F (proj1 X)) as [y' [EF Fy]].
    assert (EF' : fill period (scale_x c x) prev cur (map (Rmult c) y) = Some (map (Rmult c) y')) by (unfold fill in *; rewrite fill_scale, EF; reflexivity).
    rewrite EF, EF'. rewrite glance_scale by exact Hc. destruct (glance period iw cur y') as [an w] eqn:EG. cbn [fst snd]. destruct (enc e _) as [e' code].
    assert (PA : (0 < an)%R).
    { specialize (W _ _ _ (or_introl eq_refl)). destruct (glance_eq period iw cur y' an w (proj1 Fy) W EG) as [EA _].
      assert (M : In an (map (fun k => at_ y' (cur - Nat.min period iw + k)) (seq 0 (Nat.min period iw)))).
      { rewrite EA. apply tmedian_ok. apply seq_some. lia. }
      apply in_map_iff in M. destruct M as [k [<- Hk]]. apply in_seq in Hk. apply (filled_pos period x cur y' Hp X Fy). lia. }
    rewrite (decode_scale D dec feat fw nq c an code cur n Hc PA). destruct (decode D dec feat fw nq 0 an code cur 0 n _) as [d' fs]. cbn [fst snd].
    specialize (IH cur y' e' d' R2 ltac:(intros; eapply W; right; eassumption) Fy).
    destruct (s2s_run E D enc dec prepare feat period iw fw nq x 0 l cur y' e' d') as [r1|]; destruct (s2s_run E D enc dec prepare feat period iw fw nq (scale_x c x) 0 l cur (map (Rmult c) y') e' d') as [r2|]; cbn [option_map] in *; try discriminate; [| reflexivity].
    assert (Q : map snd r2 = map (fun r => map (map (Rmult c)) (snd r)) r1) by congruence. cbn [map snd]. rewrite Q. reflexivity. }
  apply (G l 0 [] e d RI W (filled_nil period x)).
Qed.
(** what is seen and forecast at an index depends on the values before it *)
Theorem C219_causal E D enc dec prepare feat period iw fw nq x y offset l e d ox oy n : rises 0 l -> (forall i, i < n -> nth i x None = nth i y None) ->
  s2s_pass E D enc dec prepare feat period iw fw nq x offset l e d = Some ox -> s2s_pass E D enc dec prepare feat period iw fw nq y offset l e d = Some oy ->
  filter (fun r => fst (fst (fst r)) <=? n) ox = filter (fun r => fst (fst (fst r)) <=? n) oy.
Proof.
  intros RI XY. unfold s2s_pass.
  assert (FO : forall m k acc, k + m <= n -> fold_left (fill1 period x) (seq k m) acc = fold_left (fill1 period y) (seq k m) acc).
  { induction m as [|m IH]; intros k acc H; [reflexivity |]. cbn [seq fold_left]. replace (fill1 period y acc k) with (fill1 period x acc k) by (unfold fill1; rewrite XY by lia; reflexivity). apply IH. lia. }
  assert (G : forall l prev xl e d ox oy, rises prev l -> s2s_run E D enc dec prepare feat period iw fw nq x offset l prev xl e d = Some ox -> s2s_run E D enc dec prepare feat period iw fw nq y offset l prev xl e d = Some oy ->
    filter (fun r => fst (fst (fst r)) <=? n) ox = filter (fun r => fst (fst (fst r)) <=? n) oy).
  { clear l e d ox oy RI. induction l as [|[[step cur] k] l IH]; intros prev xl e d ox oy RI Hx Hy.
    - cbn [s2s_run] in *. congruence.
    - destruct (Nat.le_gt_cases cur n) as [Hc|Hc].
      + destruct RI as [R1 R2]. cbn [s2s_run] in Hx, Hy. assert (Q : fill period x prev cur xl = fill period y prev cur xl) by (unfold fill; apply FO; lia). rewrite <- Q in Hy.
        destruct (fill period x prev cur xl) as [xl'|]; [| discriminate]. destruct (glance period iw cur xl') as [an w]. destruct (enc e _) as [e' code]. destruct (decode D dec feat fw nq offset an code cur 0 k _) as [d' fs].
        destruct (s2s_run E D enc dec prepare feat period iw fw nq x offset l cur xl' e' d') as [rx|] eqn:Ex; [| discriminate].
        destruct (s2s_run E D enc dec prepare feat period iw fw nq y offset l cur xl' e' d') as [ry|] eqn:Ey; [| discriminate]. cbn in Hx, Hy. injection Hx as <-. injection Hy as <-.
        cbn [filter]. rewrite (IH _ _ _ _ _ _ R2 Ex Ey). reflexivity.
      + assert (Q : forall o : list (nat * R * list R * list (list R)), map (fun r => fst (fst (fst r))) o = map (fun r => snd (fst r)) ((step, cur, k) :: l) -> filter (fun r => fst (fst (fst r)) <=? n) o = []).
        { intros o Ho. assert (AL : forall p, In p (map (fun r => snd (fst r)) ((step, cur, k) :: l)) -> n < p).
          { clear - Hc RI. destruct RI as [_ R2]. intros p [<-|Hp]; [exact Hc |]. revert cur Hc R2. induction l as [|[[s i] m] l IH]; intros cur Hc R2; [destruct Hp |]. destruct R2 as [A B]. destruct Hp as [<-|Hp]; [cbn; lia |]. apply (IH Hp i); [lia | exact B]. }
          rewrite <- Ho in AL. apply filter_none. intros r Hr. apply Nat.leb_gt. apply AL. apply in_map_iff. exists r. split; [reflexivity | exact Hr]. }
        rewrite (Q ox) by (eapply run_positions; exact Hx). rewrite (Q oy) by (eapply run_positions; exact Hy). reflexivity. }
  intros Hx Hy. exact (G l 0 [] e d ox oy RI Hx Hy).
Qed.
(** the k-th forecast made at an index is what the decoder says about the code of the index, the features of the k-th part of
    the horizon after it and the number of the part, from one, on the scale of the row; for a decoder without memory *)
Theorem C219_parts E D enc g prepare feat period iw fw nq x offset l e d out cur an w f :
  s2s_pass E D enc (fun s i => (s, g i)) prepare feat period iw fw nq x offset l e d = Some out -> In (cur, an, w, f) out ->
  exists code, forall k r, nth_error f k = Some r ->
    r = map (fun c => (exp (at_ (g (code ++ feat (cur + k * fw)%nat (cur + (k + 1) * fw)%nat ++ [ln (INR (k + 1))])) c + ln an) - offset)%R) (seq 0 (fw * nq)).
Proof.
  unfold s2s_pass. intros H. revert H. enough (G : forall prev xl, s2s_run E D enc (fun s i => (s, g i)) prepare feat period iw fw nq x offset l prev xl e d = Some out -> In (cur, an, w, f) out ->
    exists code, forall k r, nth_error f k = Some r ->
    r = map (fun c => (exp (at_ (g (code ++ feat (cur + k * fw)%nat (cur + (k + 1) * fw)%nat ++ [ln (INR (k + 1))])) c + ln an) - offset)%R) (seq 0 (fw * nq))) by (apply G).
  revert e d out. induction l as [|[[step i] n] l IH]; intros e d out prev xl H I; cbn [s2s_run] in H.
  - injection H as <-. destruct I.
  - destruct (fill period x prev i xl) as [xl'|]; [| discriminate]. destruct (glance period iw i xl') as [a w']. destruct (enc e _) as [e' code].
    match type of H with context [decode _ _ _ _ _ _ _ _ _ _ _ ?dd] => set (d0 := dd) in H end.
    assert (DE : forall n k0 s k r, nth_error (snd (decode D (fun s i => (s, g i)) feat fw nq offset a code i k0 n s)) k = Some r ->
      r = map (fun c => (exp (at_ (g (code ++ feat (i + (k0 + k) * fw)%nat (i + (k0 + k + 1) * fw)%nat ++ [ln (INR (k0 + k + 1))])) c + ln a) - offset)%R) (seq 0 (fw * nq))).
    { clear. induction n as [|n IH]; intros k0 s k r H; cbn [decode] in H; [destruct k; discriminate |].
      specialize (IH (S k0) s). destruct (decode D _ feat fw nq offset a code i (S k0) n s) as [d' rs]. cbn [snd] in *. destruct k as [|k]; cbn [nth_error] in H.
      - injection H as <-. rewrite Nat.add_0_r. replace (i + (k0 + 1) * fw) with (i + k0 * fw + fw) by lia. reflexivity.
      - rewrite (IH k r H). replace (k0 + S k) with (S k0 + k) by lia. reflexivity. }
    specialize (DE n 0 d0). destruct (decode D (fun s i => (s, g i)) feat fw nq offset a code i 0 n d0) as [d' fs]. cbn [snd] in DE.
    destruct (s2s_run E D enc (fun s i => (s, g i)) prepare feat period iw fw nq x offset l i xl' e' d') as [rest|] eqn:ER; [| discriminate].
    injection H as <-. destruct I as [Q|I]; [injection Q as <- <- <- <-; exists code; exact DE |]. exact (IH _ _ _ _ _ ER I).
Qed.
(** the hypotheses hold: a row with holes, a season of two, a window of three, two decoder steps *)
Example C219_case : positive_row wave /\ rises 0 [(0, 3, 0); (1, 5, 2)] /\ (forall step i n, In (step, i, n) [(0, 3, 0); (1, 5, 2)] -> 3 <= i) /\ filled 2 wave 5 [2; 4; 2; 4; 2]%R /\ is_median 2 [4; 2]%R.
Proof.
  split; [apply C213_case |]. split; [cbn; lia |]. split; [intros st i n [Q|[Q|[]]]; injection Q as <- <- <-; lia |]. split.
  - split; [reflexivity |]. intros i Hi. do 5 (destruct i as [|i]; [reflexivity |]). lia.
  - split; [right; left; reflexivity |]. cbn [filter]. destruct (Rlt_dec 4 2); [lra |]. destruct (Rlt_dec 2 2); [lra |]. destruct (Rlt_dec 2 4); [| lra]. cbn. lia.
Qed.

Print Assumptions C219_seen.
Print Assumptions C219_raises.
Print Assumptions C219_periodic.
Print Assumptions C219_scale.
Print Assumptions C219_causal.
Print Assumptions C219_parts.
