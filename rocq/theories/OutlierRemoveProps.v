(** Removing outliers: C107. *)
From Verif Require Import Common BacktestModel RollingModel DTWModel MedianSpec RollingSpec OutlierModel OutlierSpec OutlierProps OutlierUnitsProps.
From Coq Require Import Sorted.
Open Scope nat_scope.

Lemma find_seq (f : nat -> bool) : forall n s,
  match find f (seq s n) with
  | Some q => s <= q /\ q < s + n /\ f q = true /\ forall j, s <= j -> j < q -> f j = false
  | None => forall j, s <= j -> j < s + n -> f j = false
  end.
Proof.
  induction n as [|n IH]; intros s; cbn [seq find]; [intros j H1 H2; lia|]. destruct (f s) eqn:E; [repeat split; try lia; exact E|]. specialize (IH (S s)).
  destruct (find f (seq (S s) n)) as [q|].
  - destruct IH as (A & B & C & D). repeat split; try lia; [exact C|]. intros j H1 H2. destruct (Nat.eq_dec j s) as [->|]; [exact E|apply D; lia].
  - intros j H1 H2. destruct (Nat.eq_dec j s) as [->|]; [exact E|apply IH; lia].
Qed.
Lemma find_rev_seq (f : nat -> bool) : forall n,
  match find f (rev (seq 0 n)) with
  | Some p => p < n /\ f p = true /\ forall j, p < j -> j < n -> f j = false
  | None => forall j, j < n -> f j = false
  end.
Proof.
  induction n as [|n IH]; [cbn; intros; lia|]. rewrite seq_S, rev_app_distr. cbn [rev app find Nat.add]. destruct (f n) eqn:E.
  - split; [lia|]. split; [exact E|]. intros j H1 H2. lia.
  - destruct (find f (rev (seq 0 n))) as [p|].
    + destruct IH as (A & B & C). split; [lia|]. split; [exact B|]. intros j H1 H2. destruct (Nat.eq_dec j n) as [->|]; [exact E|apply C; lia].
    + intros j H. destruct (Nat.eq_dec j n) as [->|]; [exact E|apply IH; lia].
Qed.
Lemma is_obs_true l j : is_obs l j = true <-> nth_error l j = Some (Some (obs l j)).
Proof.
  unfold is_obs, obs. destruct (nth_error l j) as [[x|]|] eqn:E.
  - rewrite (nth_error_nth _ _ _ E). split; reflexivity.
  - rewrite (nth_error_nth _ _ _ E). split; discriminate.
  - rewrite nth_overflow by (apply nth_error_None; exact E). split; discriminate.
Qed.
Lemma is_obs_false l j : is_obs l j = false -> nth_error l j = Some None \/ nth_error l j = None.
Proof.
  intros H. destruct (nth_error l j) as [[x|]|] eqn:E; [|left; reflexivity|right; reflexivity]. exfalso.
  unfold is_obs in H. rewrite (nth_error_nth _ _ _ E) in H. discriminate.
Qed.
Lemma last_ok l i : match find (is_obs l) (rev (seq 0 (S i))) with Some p => last_observed l i p | None => forall p, ~ last_observed l i p end.
Proof.
  pose proof (find_rev_seq (is_obs l) (S i)) as H. destruct (find _ _) as [p|].
  - destruct H as (A & B & C). split; [lia|]. split; [exists (obs l p); apply is_obs_true, B|]. intros j H1 H2. apply is_obs_false, C; lia.
  - intros p (A & (x & B) & _). specialize (H p ltac:(lia)). apply is_obs_false in H. destruct H; congruence.
Qed.
Lemma next_ok l i : match find (is_obs l) (seq i (length l - i)) with Some q => next_observed l i q | None => forall q, ~ next_observed l i q end.
Proof.
  pose proof (find_seq (is_obs l) (length l - i) i) as H. destruct (find _ _) as [q|].
  - destruct H as (A & B & C & D). split; [lia|]. split; [exists (obs l q); apply is_obs_true, C|]. intros j H1 H2. apply is_obs_false, D; lia.
  - intros p (A & (x & B) & _). assert (p < length l) by (apply nth_error_Some; congruence). specialize (H p ltac:(lia) ltac:(lia)). apply is_obs_false in H. destruct H; congruence.
Qed.
Lemma obs_some l p : (exists x, nth_error l p = Some (Some x)) -> nth_error l p = Some (Some (obs l p)).
Proof. intros (x & E). unfold obs. rewrite (nth_error_nth _ _ _ E). exact E. Qed.
Lemma interp_ok l i : (exists v, interp_at l i = Some v /\ on_line l i v) \/ (interp_at l i = None /\ forall j x, nth_error l j <> Some (Some x)).
Proof.
  pose proof (last_ok l i) as P. pose proof (next_ok l i) as N. unfold interp_at. destruct (find _ (rev _)) as [p|], (find _ (seq i _)) as [q|].
  - pose proof (proj1 P) as Pp. pose proof (proj1 N) as Nq. pose proof (obs_some l p (proj1 (proj2 P))) as Ep. pose proof (obs_some l q (proj1 (proj2 N))) as Eq.
    left. destruct (Nat.eqb_spec p q) as [->|Hpq]; eexists; (split; [reflexivity|]); left.
    + exists q, q, (obs l q), (obs l q). split; [exact P|]. split; [exact N|]. split; [exact Ep|]. split; [exact Eq|]. split; [|intros _; reflexivity]. rewrite Nat.sub_diag. change (inject_Z (Z.of_nat 0)) with 0%Q. ring.
    + exists p, q, (obs l p), (obs l q). split; [exact P|]. split; [exact N|]. split; [exact Ep|]. split; [exact Eq|]. split; [|intros; contradiction].
      assert (0 < inject_Z (Z.of_nat (q - p)))%Q by (unfold Qlt; cbn; lia). field. lra.
  - left. eexists. split; [reflexivity|]. right. left. exists p, (obs l p). split; [exact P|]. split; [exact N|]. split; [apply obs_some, P|reflexivity].
  - left. eexists. split; [reflexivity|]. right. right. exists q, (obs l q). split; [exact N|]. split; [exact P|]. split; [apply obs_some, N|reflexivity].
  - right. split; [reflexivity|]. intros j x E. destruct (Nat.le_gt_cases j i) as [L|L].
    + pose proof (find_rev_seq (is_obs l) j) as _.
      (* some observation at or before i: take the last one *)
      clear N. assert (G : exists p, last_observed l i p).
      { clear P. assert (H : forall n, j <= n -> exists p, last_observed l n p); [|apply H; exact L].
        intros n. induction n as [|n IH]; intros Hn.
        - exists j. split; [exact Hn|]. split; [exists x; exact E|]. intros; lia.
        - destruct (nth_error l (S n)) as [[y|]|] eqn:En.
          + exists (S n). split; [lia|]. split; [exists y; exact En|]. intros; lia.
          + destruct (Nat.eq_dec j (S n)) as [->|]; [congruence|]. destruct (IH ltac:(lia)) as (p & A & B & C). exists p. split; [lia|]. split; [exact B|]. intros k H1 H2.
            destruct (Nat.eq_dec k (S n)) as [->|]; [left; exact En|apply C; lia].
          + destruct (Nat.eq_dec j (S n)) as [->|]; [congruence|]. destruct (IH ltac:(lia)) as (p & A & B & C). exists p. split; [lia|]. split; [exact B|]. intros k H1 H2.
            destruct (Nat.eq_dec k (S n)) as [->|]; [right; exact En|apply C; lia]. }
      destruct G as (p & G). apply (P p G).
    + clear P. assert (G : exists q, next_observed l i q).
      { clear N. assert (H : forall n, n <= j -> exists q, next_observed l (j - n) q).
        { induction n as [|n IH]; intros Hn.
          - exists j. rewrite Nat.sub_0_r. split; [lia|]. split; [exists x; exact E|]. intros; lia.
          - destruct (IH ltac:(lia)) as (q & A & B & C). destruct (nth_error l (j - S n)) as [[y|]|] eqn:En.
            + exists (j - S n). split; [lia|]. split; [exists y; exact En|]. intros; lia.
            + exists q. split; [lia|]. split; [exact B|]. intros k H1 H2. destruct (Nat.eq_dec k (j - S n)) as [->|]; [left; exact En|apply C; lia].
            + exists q. split; [lia|]. split; [exact B|]. intros k H1 H2. destruct (Nat.eq_dec k (j - S n)) as [->|]; [right; exact En|apply C; lia]. }
        specialize (H (j - i) ltac:(lia)). replace (j - (j - i)) with i in H by lia. exact H. }
      destruct G as (q & G). apply (N q G).
Qed.
Lemma interp_id l i x : nth_error l i = Some (Some x) -> interp_at l i = Some x.
Proof.
  intros E. pose proof (last_ok l i) as P. pose proof (next_ok l i) as N. unfold interp_at.
  assert (LP : last_observed l i i) by (split; [lia|]; split; [exists x; exact E|intros; lia]).
  assert (LN : next_observed l i i) by (split; [lia|]; split; [exists x; exact E|intros; lia]).
  destruct (find _ (rev _)) as [p|]; [|exfalso; apply (P i LP)]. destruct (find _ (seq i _)) as [q|]; [|exfalso; apply (N i LN)].
  destruct P as (P1 & _ & P2), N as (N1 & _ & N2).
  assert (p = i) by (destruct (Nat.eq_dec p i); [assumption|]; destruct (P2 i); try lia; congruence).
  assert (q = i) by (destruct (Nat.eq_dec q i); [assumption|]; destruct (N2 i); try lia; congruence). subst p q. rewrite Nat.eqb_refl.
  unfold obs. rewrite (nth_error_nth _ _ _ E). reflexivity.
Qed.
Lemma interpolate_length l : length (interpolate l) = length l.
Proof. unfold interpolate. rewrite map_length, seq_length. reflexivity. Qed.
Lemma interpolate_nth l i : i < length l -> nth_error (interpolate l) i = Some (interp_at l i).
Proof. intros H. unfold interpolate. rewrite nth_error_map_seq. apply Nat.ltb_lt in H. rewrite H. reflexivity. Qed.

(** ** C107 *)
Lemma nth_error_combine' {A B} : forall (l : list A) (m : list B) i, nth_error (combine l m) i = match nth_error l i, nth_error m i with Some a, Some b => Some (a, b) | _, _ => None end.
Proof.
  induction l as [|x t IH]; intros m i; [destruct i; reflexivity|]. destruct m as [|y u]; [destruct i; cbn; [reflexivity|destruct (nth_error t i); reflexivity]|].
  destruct i; [reflexivity|]. cbn. apply IH.
Qed.
Lemma remove_spec times : forall columns outs,
  match remove_columns times columns outs with
  | Some cs => length columns <= length outs /\ length cs = length columns /\
      forall c col, nth_error columns c = Some col -> exists o col', nth_error outs c = Some o /\ nth_error cs c = Some col' /\ (forall t, In t o -> In t times) /\
        col' = map (fun p : Z * option Q => if mem (fst p) o then None else snd p) (combine times col)
  | None => length outs < length columns \/ exists c o t, c < length columns /\ nth_error outs c = Some o /\ In t o /\ ~ In t times
  end.
Proof.
  induction columns as [|c cs IH]; intros outs; cbn [remove_columns]; [split; [cbn; lia|]; split; [reflexivity|]; intros [|?] ? H; discriminate|].
  destruct outs as [|o os]; [left; cbn; lia|]. destruct (forallb (fun t => mem t times) o) eqn:E.
  - rewrite forallb_forall in E. specialize (IH os). destruct (remove_columns times cs os) as [r|].
    + destruct IH as (A & B & C). split; [cbn; lia|]. split; [cbn; congruence|]. intros [|i] col H.
      * injection H as <-. exists o. eexists. split; [reflexivity|]. split; [reflexivity|]. split; [intros t Ht; apply mem_in, E, Ht|reflexivity].
      * exact (C i col H).
    + destruct IH as [A|(i & o' & t & A & B & C)]; [left; cbn; lia|right]. exists (S i), o', t. split; [cbn; lia|]. split; [exact B|exact C].
  - right. assert (H : exists t, In t o /\ mem t times = false).
    { clear - E. induction o as [|t o IH]; [discriminate|]. cbn in E. destruct (mem t times) eqn:M; [destruct (IH E) as (t' & A & B); exists t'; split; [right; exact A|exact B]|exists t; split; [left; reflexivity|exact M]]. }
    destruct H as (t & A & B). exists 0, o, t. split; [cbn; lia|]. split; [reflexivity|]. split; [exact A|]. intros C. apply mem_in in C. congruence.
Qed.

(** Removing returns all columns with exactly the outliers of each missing, or, interpolated,
    on the line through the neighbouring remaining observations; remaining observations keep
    their values. *)
Theorem C107_removed : forall outs interp times columns cs,
  remover (Some outs) interp times columns = Some cs ->
  length cs = length columns /\
  forall c col, nth_error columns c = Some col -> length col = length times ->
    exists o col' removed, nth_error outs c = Some o /\ nth_error cs c = Some col' /\ length col' = length times /\ length removed = length times /\
      (forall i t v, nth_error times i = Some t -> nth_error col i = Some v ->
         (In t o /\ nth_error removed i = Some None) \/ (~ In t o /\ nth_error removed i = Some v)) /\
      (interp = false -> col' = removed) /\
      (interp = true -> forall i, i < length times ->
         (forall x, nth_error removed i = Some (Some x) -> nth_error col' i = Some (Some x)) /\
         ((exists v, nth_error col' i = Some (Some v) /\ on_line removed i v) \/
          (nth_error col' i = Some None /\ forall j x, nth_error removed j <> Some (Some x)))).
Proof.
  intros outs interp times columns cs E. unfold remover in E. pose proof (remove_spec times columns outs) as R. destruct (remove_columns times columns outs) as [rs|]; [|discriminate].
  injection E as <-. destruct R as (_ & L & R). split; [destruct interp; [rewrite map_length|]; exact L|]. intros c col Hc Lc.
  destruct (R c col Hc) as (o & rem & Ho & Hr & Hin & ->). set (rem := map _ (combine times col)) in *. assert (Lr : length rem = length times) by (unfold rem; rewrite map_length, combine_length; lia).
  assert (Hrem : forall i t v, nth_error times i = Some t -> nth_error col i = Some v -> (In t o /\ nth_error rem i = Some None) \/ (~ In t o /\ nth_error rem i = Some v)).
  { intros i t v Ht Hv. unfold rem. rewrite nth_error_map, nth_error_combine', Ht, Hv. cbn [option_map fst snd]. destruct (mem t o) eqn:M; [left; split; [apply mem_in, M|reflexivity]|right].
    split; [intros C; apply mem_in in C; congruence|reflexivity]. }
  destruct interp.
  - exists o, (interpolate rem), rem. split; [exact Ho|]. split; [rewrite nth_error_map, Hr; reflexivity|]. split; [rewrite interpolate_length; exact Lr|]. split; [exact Lr|]. split; [exact Hrem|].
    split; [discriminate|]. intros _ i Hi. rewrite interpolate_nth by lia. split; [intros x Hx; rewrite (interp_id _ _ _ Hx); reflexivity|].
    destruct (interp_ok rem i) as [(v & -> & H)|(-> & H)]; [left; exists v; split; [reflexivity|exact H]|right; split; [reflexivity|exact H]].
  - exists o, rem, rem. split; [exact Ho|]. split; [exact Hr|]. split; [exact Lr|]. split; [exact Lr|]. split; [exact Hrem|]. split; [reflexivity|discriminate].
Qed.
(** It raises exactly when a list is missing or names a time that is not in the series. *)
Theorem C107_raises : forall outs interp times columns,
  remover (Some outs) interp times columns = None <->
  length outs < length columns \/ exists c o t, c < length columns /\ nth_error outs c = Some o /\ In t o /\ ~ In t times.
Proof.
  intros outs interp times columns. unfold remover. pose proof (remove_spec times columns outs) as R. destruct (remove_columns times columns outs) as [rs|]; cbn [option_map]; [|split; [intros _; exact R|reflexivity]].
  split; [discriminate|]. destruct R as (A & _ & R). intros [C|(c & o & t & H1 & H2 & H3 & H4)]; [lia|]. exfalso.
  destruct (nth_error columns c) as [col|] eqn:E; [|apply nth_error_None in E; lia]. destruct (R c col E) as (o' & _ & Ho & _ & Hin & _). rewrite H2 in Ho. injection Ho as <-. apply H4, Hin, H3.
Qed.
(** Outliers the detector itself reports on a series with a missing day can make it raise: days
    added to fill the gap are reported too. *)
Definition c107_times : list Z := map (fun i => (day * i)%Z) [0; 1; 2; 3; 4; 5; 6; 8; 9; 10; 11; 12; 13; 14; 15; 16; 17; 18; 19]%Z.
Definition c107_column : list (option Q) := map (fun x => Some (inject_Z x)) [1; 2; 1; 2; 1; 2; 40; 40; 1; 2; 1; 2; 1; 2; 1; 2; 1; 2; 1]%Z.
Theorem C107_own_outliers_refuted : exists infer_freq fill decompose k times columns,
  (forall rows i, i < length rows -> (exists v, nth_error (fill rows) i = Some (Some v) /\ on_line (map snd rows) i v) \/ (nth_error (fill rows) i = Some None /\ forall j x, nth_error (map snd rows) j <> Some (Some x))) /\
  StronglySorted Z.lt times /\ (forall c, In c columns -> length c = length times /\ ~ In None c) /\
  remover (Some (outlier_detector infer_freq fill decompose k times columns)) false times columns = None.
Proof.
  exists c106_infer, c106_fill, c106_decompose, 3%Q, c107_times, [c107_column]. split; [|split; [|split]].
  - intros rows i Hi. unfold c106_fill. rewrite interpolate_nth by (rewrite map_length; exact Hi).
    destruct (interp_ok (map snd rows) i) as [(v & -> & H)|(-> & H)]; [left; exists v; split; [reflexivity|exact H]|right; split; [reflexivity|exact H]].
  - unfold c107_times, day. cbn [map]. repeat constructor.
  - intros c [<-|[]]. split; [reflexivity|]. unfold c107_column. intros H. apply in_map_iff in H as (x & E & _). discriminate.
  - vm_compute. reflexivity.
Qed.
(** Before the detector has run nothing is removed. *)
Theorem C107_before : forall interp times columns, remover None interp times columns = Some columns.
Proof. reflexivity. Qed.
Example C107_case : remover (Some [[day; (2 * day)%Z]; []]) true (map (fun i => (day * i)%Z) [0; 1; 2; 3]%Z)
    [[Some 1%Q; Some 50%Q; None; Some 4%Q]; [Some 5%Q; None; Some 6%Q; Some 7%Q]] <> None /\
  option_map (map (map (option_map Qred))) (remover (Some [[day; (2 * day)%Z]; []]) true (map (fun i => (day * i)%Z) [0; 1; 2; 3]%Z)
    [[Some 1%Q; Some 50%Q; None; Some 4%Q]; [Some 5%Q; None; Some 6%Q; Some 7%Q]])
  = Some [[Some 1%Q; Some 2%Q; Some 3%Q; Some 4%Q]; [Some 5%Q; Some (11#2); Some 6%Q; Some 7%Q]].
Proof. split; [discriminate|]. vm_compute. reflexivity. Qed.

Print Assumptions C107_removed.
Print Assumptions C107_raises.
Print Assumptions C107_own_outliers_refuted.

Print Assumptions C107_before.
