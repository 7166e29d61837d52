(** Theorems about the robust statistics detector: C40, C105. *)
From Verif Require Import Common RobustModel RobustSpec.
From Coq Require Import Sorted.
Open Scope nat_scope.

(** ** the smoothed series *)
Lemma bfill_map (f : nat -> option Q) c : (forall i, i < c -> f i = None) -> (forall i, c <= i -> f i <> None) ->
  forall n s, bfill (map f (seq s n)) = map (fun i => if Nat.ltb c (s + n) then f (Nat.max i c) else None) (seq s n).
Proof.
  intros H1 H2. induction n as [|n IH]; intros s; [reflexivity|]. cbn [seq map]. specialize (IH (S s)).
  replace (s + S n) with (S s + n) by lia. destruct (Nat.lt_ge_cases s c) as [L|L].
  - rewrite (H1 s L). cbn [bfill]. rewrite IH. f_equal. destruct n as [|n]; cbn [seq map].
    + destruct (Nat.ltb_spec c (S s + 0)); [lia|reflexivity].
    + replace (Nat.max (S s) c) with (Nat.max s c) by lia. reflexivity.
  - destruct (f s) as [x|] eqn:E; [|exfalso; apply (H2 s L), E]. cbn [bfill]. rewrite IH. f_equal.
    destruct (Nat.ltb_spec c (S s + n)); [|lia]. rewrite Nat.max_l by lia. symmetry. exact E.
Qed.
Definition wmean (w : nat) (l : list Q) (e : nat) : Q := (qsum (firstn w (skipn (S e - w) l)) / of_nat w)%Q.
Lemma smoothed_list w l : 1 <= w ->
  bfill (rolling_mean w l) = map (fun i => if Nat.leb w (length l) then Some (wmean w l (Nat.max i (w - 1))) else None) (seq 0 (length l)).
Proof.
  intros Hw. unfold rolling_mean. rewrite (bfill_map _ (w - 1)).
  - apply map_ext_in. intros i Hi. apply in_seq in Hi. destruct (Nat.ltb_spec (w - 1) (0 + length l)), (Nat.leb_spec w (length l)); try lia; [|reflexivity].
    destruct (Nat.ltb_spec (S (Nat.max i (w - 1))) w); [lia|]. reflexivity.
  - intros i Hi. destruct (Nat.ltb_spec (S i) w); [reflexivity|lia].
  - intros i Hi. destruct (Nat.ltb_spec (S i) w); [lia|discriminate].
Qed.
Lemma nth_seq_map {A} (f : nat -> A) n j d : j < n -> nth j (map f (seq 0 n)) d = f j.
Proof. intros H. rewrite (nth_indep _ d (f 0)) by (rewrite map_length, seq_length; exact H). rewrite map_nth, seq_nth by exact H. reflexivity. Qed.
Definition spike_at (w : nat) (k : Z) (l : list Q) (i : nat) : Q :=
  let j := (Z.of_nat i - k)%Z in
  if ((0 <=? j) && (j <? Z.of_nat (length l)))%Z && Nat.leb w (length l)
  then (wmean w l (Nat.max i (w - 1)) - wmean w l (Nat.max (Z.to_nat j) (w - 1)))%Q else 0%Q.
Lemma spikes_list w k l : 1 <= w -> spikes w k l = map (spike_at w k l) (seq 0 (length l)).
Proof.
  intros Hw. unfold spikes, fillna0, pd_diff. rewrite (smoothed_list w l Hw). set (g := fun i => if Nat.leb w (length l) then _ else _).
  rewrite map_map, !map_length, seq_length. apply map_ext_in. intros i Hi. apply in_seq in Hi. unfold spike_at. cbv zeta.
  destruct (Z.leb_spec 0 (Z.of_nat i - k)); [|reflexivity]. destruct (Z.ltb_spec (Z.of_nat i - k) (Z.of_nat (length l))); [|reflexivity]. cbn [andb].
  rewrite !nth_seq_map by lia. unfold g. destruct (Nat.leb w (length l)); reflexivity.
Qed.
Lemma spikes_length w k l : 1 <= w -> length (spikes w k l) = length l.
Proof. intros H. rewrite spikes_list by exact H. rewrite map_length, seq_length. reflexivity. Qed.
Lemma qsum_sumn l : (qsum l == sumn (length l) (fun j => nth j l 0))%Q.
Proof.
  induction l as [|x t IH] using rev_ind; [reflexivity|]. rewrite qsum_app, app_length. cbn [length qsum]. rewrite Nat.add_1_r. cbn [sumn].
  rewrite IH. rewrite (sumn_ext (length t) (fun j => nth j (t ++ [x]) 0%Q) (fun j => nth j t 0%Q)).
  - rewrite nth_middle. ring.
  - intros j Hj. rewrite app_nth1 by exact Hj. reflexivity.
Qed.
Lemma nth_firstn_skipn (l : list Q) a w j : j < w -> nth j (firstn w (skipn a l)) 0%Q = nth (a + j) l 0%Q.
Proof.
  intros H. assert (E1 : forall (m : list Q) w j, j < w -> nth j (firstn w m) 0%Q = nth j m 0%Q).
  { induction m as [|x t IH]; intros v i Hi; [rewrite firstn_nil; reflexivity|]. destruct v; [lia|]. destruct i; [reflexivity|]. cbn. apply IH. lia. }
  rewrite E1 by exact H. clear. revert a. induction l as [|x t IH]; intros a; [rewrite skipn_nil; destruct j, (a + 0); destruct a; reflexivity|].
  destruct a; [reflexivity|]. cbn. apply IH.
Qed.
Lemma of_nat_pos w : 1 <= w -> (0 < of_nat w)%Q.
Proof. intros H. unfold of_nat, Qlt. cbn. lia. Qed.
Lemma wmean_spec w l e : 1 <= w -> w <= S e -> e < length l -> window_mean w l e (wmean w l e).
Proof.
  intros Hw H1 H2. split; [exact H1|]. split; [exact H2|]. unfold wmean. fold (of_nat w). pose proof (of_nat_pos w Hw). rewrite Qmult_comm, Qmult_div_r by lra.
  rewrite qsum_sumn. rewrite firstn_length, skipn_length. replace (Nat.min w (length l - (S e - w))) with w by lia.
  apply sumn_ext. intros j Hj. rewrite nth_firstn_skipn by exact Hj. reflexivity.
Qed.
Lemma window_unique w l e a b : 1 <= w -> window_mean w l e a -> window_mean w l e b -> (a == b)%Q.
Proof. intros Hw (_ & _ & E) (_ & _ & E'). rewrite <- E' in E. apply Qmult_inj_r in E; [exact E|]. fold (of_nat w). pose proof (of_nat_pos w Hw). lra. Qed.
Lemma spike_ok w k l i : 1 <= w -> i < length l -> spike w k l i (spike_at w k l i).
Proof.
  intros Hw Hi. split; [exact Hi|]. unfold spike_at. cbv zeta.
  destruct (((0 <=? Z.of_nat i - k) && (Z.of_nat i - k <? Z.of_nat (length l)))%Z && Nat.leb w (length l)) eqn:E.
  - apply andb_true_iff in E as [E1 E2]. apply andb_true_iff in E1 as [E0 E1]. apply Z.leb_le in E0. apply Z.ltb_lt in E1. apply Nat.leb_le in E2.
    left. exists (Z.to_nat (Z.of_nat i - k)). eexists. eexists. split; [lia|].
    split; [split; [exact Hi|apply wmean_spec; lia]|]. split; [split; [lia|apply wmean_spec; lia]|]. reflexivity.
  - right. split; [|reflexivity]. intros j b Hj (B1 & B2 & B3 & B4). 
    apply andb_false_iff in E as [E|E]; [apply andb_false_iff in E as [E|E]; [apply Z.leb_gt in E|apply Z.ltb_ge in E]|apply Nat.leb_gt in E]; lia.
Qed.
Lemma spike_unique w k l i a b : 1 <= w -> spike w k l i a -> spike w k l i b -> (a == b)%Q.
Proof.
  intros Hw (_ & [(j & p & q & J & P & Q & E)|(N & E)]) (_ & [(j' & p' & q' & J' & P' & Q' & E')|(N' & E')]).
  - assert (j = j') by lia. subst j'. destruct P as [_ P], Q as [_ Q], P' as [_ P'], Q' as [_ Q'].
    rewrite E, E', (window_unique _ _ _ _ _ Hw P P'), (window_unique _ _ _ _ _ Hw Q Q'). reflexivity.
  - exfalso. apply (N' j q J Q).
  - exfalso. apply (N j' q' J' Q').
  - rewrite E, E'. reflexivity.
Qed.

(** ** z-scores *)
Section Robust.
Variable sf : Q -> Q.
Hypothesis sf_ext : forall a b, (a == b)%Q -> (sf a == sf b)%Q.

Lemma below_in cutoff z : forall s i, In i (where_below sf cutoff s z) <-> s <= i /\ exists v, nth_error z (i - s) = Some (Some v) /\ (sf v < cutoff)%Q.
Proof.
  induction z as [|o t IH]; intros s i; cbn [where_below].
  - split; [intros []|]. intros (_ & v & E & _). destruct (i - s); discriminate.
  - assert (Hs : forall i, S s <= i -> nth_error (o :: t) (i - s) = nth_error t (i - S s)) by (intros j Hj; replace (j - s) with (S (j - S s)) by lia; reflexivity).
    assert (HT : In i (where_below sf cutoff (S s) t) <-> S s <= i /\ exists v, nth_error (o :: t) (i - s) = Some (Some v) /\ (sf v < cutoff)%Q).
    { rewrite IH. split; intros (A & B); (split; [exact A|]); [rewrite Hs by exact A|rewrite Hs in B by exact A]; exact B. }
    assert (H0 : i = s -> nth_error (o :: t) (i - s) = Some o) by (intros ->; rewrite Nat.sub_diag; reflexivity).
    destruct o as [v|].
    + destruct (negb (Qle_bool cutoff (sf v))) eqn:E.
      * assert (L : (sf v < cutoff)%Q) by (apply negb_true_iff in E; apply Qnot_le_lt; intros C; apply Qle_bool_iff in C; congruence).
        cbn [In]. rewrite HT. split.
        -- intros [<-|(A & B)]; [split; [lia|]; exists v; split; [apply H0; reflexivity|exact L]|split; [lia|exact B]].
        -- intros (A & B). destruct (Nat.eq_dec s i); [left; assumption|right; split; [lia|exact B]].
      * assert (L : ~ (sf v < cutoff)%Q) by (apply negb_false_iff, Qle_bool_iff in E; lra). rewrite HT. split; intros (A & B); (split; [|exact B]); [lia|].
        destruct (Nat.eq_dec s i) as [Es|]; [|lia]. exfalso. destruct B as (v' & Ev & Lv). rewrite (H0 (eq_sym Es)) in Ev. injection Ev as <-. contradiction.
    + rewrite HT. split; intros (A & B); (split; [|exact B]); [lia|].
      destruct (Nat.eq_dec s i) as [Es|]; [|lia]. exfalso. destruct B as (v' & Ev & Lv). rewrite (H0 (eq_sym Es)) in Ev. discriminate.
Qed.
Lemma below_sorted' cutoff z : forall s, StronglySorted lt (where_below sf cutoff s z).
Proof.
  induction z as [|[v|] t IH]; intros s; cbn [where_below]; [constructor| |apply IH]. destruct (negb _); [|apply IH].
  constructor; [apply IH|]. apply Forall_forall. intros i Hi. apply below_in in Hi. lia.
Qed.
Lemma nonneg_sq (a : Q) : (0 <= a * a)%Q.
Proof. destruct (Qlt_le_dec a 0); nra. Qed.
Lemma qsum_sq_nonneg (m : Q) l : (0 <= qsum (map (fun x => (x - m) * (x - m)) l))%Q.
Proof. apply qsum_nonneg. intros y Hy. apply in_map_iff in Hy as (x & <- & _). apply nonneg_sq. Qed.
Lemma zsq_spec l i v : nth_error (zsq l) i = Some (Some v) -> zscore_squared l i v.
Proof.
  unfold zsq. intros E. rewrite nth_error_map in E. destruct (nth_error l i) as [x|] eqn:Ex; [|discriminate]. cbn [option_map] in E.
  assert (Hn : (0 < of_nat (length l))%Q) by (apply of_nat_pos; destruct l; [destruct i; discriminate|cbn; lia]).
  set (m := (qsum l / of_nat (length l))%Q) in *. set (vv := (qsum (map (fun x => (x - m) * (x - m)) l) / of_nat (length l))%Q) in *.
  destruct (Qeq_bool vv 0) eqn:Ev; [discriminate|]. injection E as <-.
  assert (Hv : (vv * of_nat (length l) == qsum (map (fun x => (x - m) * (x - m)) l))%Q) by (unfold vv; rewrite Qmult_comm; apply Qmult_div_r; lra).
  assert (Hp : (0 < vv)%Q).
  { assert (~ vv == 0)%Q by (intros C; apply Qeq_bool_iff in C; congruence). pose proof (qsum_sq_nonneg m l). rewrite <- Hv in H0. nra. }
  exists x, m, vv. split; [exact Ex|]. split; [unfold mean_is, m; fold (of_nat (length l)); rewrite Qmult_comm; apply Qmult_div_r; lra|].
  split; [exact Hv|]. split; [exact Hp|]. rewrite Qmult_comm. apply Qmult_div_r. lra.
Qed.
Lemma mean_is_unique l m m' : l <> [] -> mean_is l m -> mean_is l m' -> (m == m')%Q.
Proof. unfold mean_is. intros H E E'. rewrite <- E' in E. apply Qmult_inj_r in E; [exact E|]. destruct l; [contradiction|]. unfold Qeq. cbn. lia. Qed.
Lemma variance_unique l m m' v v' : l <> [] -> (m == m')%Q -> variance_is l m v -> variance_is l m' v' -> (v == v')%Q.
Proof.
  unfold variance_is. intros H Em E E'. assert (Q : (qsum (map (fun x => (x - m) * (x - m)) l) == qsum (map (fun x => (x - m') * (x - m')) l))%Q)
    by (apply qsum_ext; intros x _; rewrite Em; reflexivity).
  rewrite Q, <- E' in E. apply Qmult_inj_r in E; [exact E|]. destruct l; [contradiction|]. unfold Qeq. cbn. lia.
Qed.
Lemma zsq_complete l i z : zscore_squared l i z -> exists v, nth_error (zsq l) i = Some (Some v) /\ (v == z)%Q.
Proof.
  intros (x & m0 & v0 & Ex & Hm & Hv & Hp & Ez). unfold zsq. rewrite nth_error_map, Ex. cbn [option_map].
  assert (Hne : l <> []) by (intros ->; destruct i; discriminate).
  assert (Hn : (0 < of_nat (length l))%Q) by (apply of_nat_pos; destruct l; [contradiction|cbn; lia]).
  set (m := (qsum l / of_nat (length l))%Q) in *. set (vv := (qsum (map (fun x => (x - m) * (x - m)) l) / of_nat (length l))%Q) in *.
  assert (Em : (m == m0)%Q) by (apply (mean_is_unique l); [exact Hne| |exact Hm]; unfold mean_is, m; fold (of_nat (length l)); rewrite Qmult_comm; apply Qmult_div_r; lra).
  assert (Ev : (vv == v0)%Q) by (apply (variance_unique l m m0); [exact Hne|exact Em| |exact Hv]; unfold variance_is, vv; fold (of_nat (length l)); rewrite Qmult_comm; apply Qmult_div_r; lra).
  destruct (Qeq_bool vv 0) eqn:E0; [apply Qeq_bool_iff in E0; lra|]. eexists. split; [reflexivity|].
  apply Qmult_inj_r with v0; [lra|]. rewrite Ez, <- Em, Ev. rewrite Qmult_comm. apply Qmult_div_r. lra.
Qed.

(** ** spacing *)
Lemma spread_in w : forall ind prev i, In i (spread w prev ind) -> In i ind.
Proof.
  induction ind as [|x t IH]; intros prev i H; [destruct H|]. cbn [spread] in H. destruct prev as [p|].
  - destruct (Nat.ltb (x - p) w); [right; eapply IH, H|]. destruct H as [<-|H]; [left; reflexivity|right; eapply IH, H].
  - destruct H as [<-|H]; [left; reflexivity|right; eapply IH, H].
Qed.
Lemma spread_far w : forall ind p, StronglySorted lt ind -> (forall i, In i ind -> p < i) -> forall i, In i (spread w (Some p) ind) -> p + w <= i.
Proof.
  induction ind as [|x t IH]; intros p Hs Hp i H; [destruct H|]. inversion Hs as [|? ? H1 H2]; subst. rewrite Forall_forall in H2. cbn [spread] in H.
  destruct (Nat.ltb_spec (x - p) w); [apply (IH p H1); [intros j Hj; apply Hp; right; exact Hj|exact H]|].
  specialize (Hp x (or_introl eq_refl)). destruct H as [<-|H]; [lia|]. specialize (IH x H1 H2 i H). lia.
Qed.
Lemma spread_sorted w : forall ind prev, StronglySorted lt ind -> StronglySorted (fun i j => i + w <= j) (spread w prev ind).
Proof.
  induction ind as [|x t IH]; intros prev Hs; [constructor|]. inversion Hs as [|? ? H1 H2]; subst. rewrite Forall_forall in H2.
  assert (G : StronglySorted (fun i j => i + w <= j) (x :: spread w (Some x) t)).
  { constructor; [apply IH, H1|]. apply Forall_forall. intros i Hi. eapply spread_far; [exact H1|exact H2|exact Hi]. }
  cbn [spread]. destruct prev as [p|]; [|exact G]. destruct (Nat.ltb (x - p) w); [apply IH, H1|exact G].
Qed.
Lemma spread_cover w : forall ind prev, 1 <= w -> StronglySorted lt ind -> (forall p, prev = Some p -> forall i, In i ind -> p < i) ->
  forall i, In i ind -> (exists p, prev = Some p /\ i < p + w) \/ exists j, In j (spread w prev ind) /\ j <= i /\ i < j + w.
Proof.
  induction ind as [|x t IH]; intros prev Hw Hs Hp i Hi; [destruct Hi|]. inversion Hs as [|? ? H1 H2]; subst. rewrite Forall_forall in H2.
  assert (G : exists j, In j (x :: spread w (Some x) t) /\ j <= i /\ i < j + w).
  { destruct Hi as [<-|Hi]; [exists x; split; [left; reflexivity|lia]|].
    destruct (IH (Some x) Hw H1 ltac:(intros p [= <-]; exact H2) i Hi) as [(p & [= <-] & L)|(j & A & B)].
    - exists x. split; [left; reflexivity|]. specialize (H2 i Hi). lia.
    - exists j. split; [right; exact A|exact B]. }
  cbn [spread]. destruct prev as [p|]; [|right; exact G]. destruct (Nat.ltb_spec (x - p) w) as [L|L]; [|right; exact G].
  destruct Hi as [<-|Hi]; [left; exists p; split; [reflexivity|]; lia|].
  destruct (IH (Some p) Hw H1 ltac:(intros p' [= <-] j Hj; apply (Hp p eq_refl j); right; exact Hj) i Hi) as [A|A]; [left; exact A|right; exact A].
Qed.
Lemma sorted_map_pairs {A B} (R : A -> A -> Prop) (S : B -> B -> Prop) (f : A -> B) l : (forall a b, R a b -> S (f a) (f b)) -> StronglySorted R l -> StronglySorted S (map f l).
Proof.
  intros H. induction 1 as [|x t Ht IH Hx]; [constructor|]. cbn. constructor; [exact IH|]. rewrite Forall_forall in *. intros y Hy.
  apply in_map_iff in Hy as (z & <- & Hz). apply H, Hx, Hz.
Qed.

(** The change points are significant spikes at least a window apart, and every significant
    spike is covered by one. *)
Theorem C40_points : forall cutoff w k l, 1 <= w ->
  exists d, length d = length l /\ (forall i, i < length l -> spike w k l i (nth i d 0%Q)) /\
  let significant i := exists z, zscore_squared d i z /\ (sf z < cutoff)%Q in
  let out := robust_detector sf cutoff w k l in
  StronglySorted (fun p q => fst p + w <= fst q) out /\
  (forall i m, In (i, m) out -> significant i /\ spike w k l i m) /\
  (forall i, significant i -> exists j m, In (j, m) out /\ j <= i /\ i < j + w).
Proof.
  intros cutoff w k l Hw. exists (spikes w k l). split; [apply spikes_length, Hw|].
  assert (Hs : forall i, i < length l -> spike w k l i (nth i (spikes w k l) 0%Q)).
  { intros i Hi. rewrite spikes_list by exact Hw. rewrite nth_seq_map by exact Hi. apply spike_ok; assumption. }
  split; [exact Hs|]. intros significant out. set (ind := where_below sf cutoff 0 (zsq (spikes w k l))).
  assert (Hsig : forall i, In i ind <-> significant i).
  { intros i. unfold ind. rewrite below_in, Nat.sub_0_r. split.
    - intros (_ & v & E & L). exists v. split; [apply zsq_spec, E|exact L].
    - intros (z & Z1 & L). destruct (zsq_complete _ _ _ Z1) as (v & E & Ev). split; [lia|]. exists v. split; [exact E|]. rewrite (sf_ext _ _ Ev). exact L. }
  assert (Hlt : forall i, significant i -> i < length l).
  { intros i (z & (x & m & v & E & _) & _). rewrite <- (spikes_length w k l Hw). apply nth_error_Some. congruence. }
  unfold out, robust_detector. fold ind. split; [|split].
  - apply (sorted_map_pairs (fun i j => i + w <= j)); [intros a b H; exact H|]. apply spread_sorted, below_sorted'.
  - intros i m H. apply in_map_iff in H as (j & E & Hj). injection E as <- <-. apply spread_in in Hj. apply Hsig in Hj. split; [exact Hj|apply Hs, Hlt, Hj].
  - intros i Hi. apply Hsig in Hi. destruct (spread_cover w ind None Hw (below_sorted' _ _ _) ltac:(discriminate) i Hi) as [(p & C & _)|(j & A & B)]; [discriminate|].
    exists j, (nth j (spikes w k l) 0%Q). split; [|exact B]. apply in_map_iff. exists j. split; [reflexivity|exact A].
Qed.

(** ** C105: units *)
Lemma spike_affine w k l l' a b : 1 <= w -> Forall2 (fun x y => (y == a * x + b)%Q) l l' -> forall i, i < length l -> (spike_at w k l' i == a * spike_at w k l i)%Q.
Proof.
  intros Hw H i Hi. assert (L : length l' = length l) by (clear - H; induction H; cbn; congruence).
  assert (W : forall e, w <= S e -> e < length l -> (wmean w l' e == a * wmean w l e + b)%Q).
  { intros e H1 H2. apply (window_unique w l' e); [exact Hw|apply wmean_spec; lia|]. split; [exact H1|]. split; [lia|].
    destruct (wmean_spec w l e Hw H1 H2) as (_ & _ & E). rewrite Qmult_plus_distr_l, <- Qmult_assoc, E.
    assert (P : forall n, (forall j, j < n -> S e - w + j < length l) -> (sumn n (fun j => nth (S e - w + j) l' 0) == a * sumn n (fun j => nth (S e - w + j) l 0) + b * inject_Z (Z.of_nat n))%Q).
    { induction n as [|n IH]; intros Hn; [cbn; ring|]. cbn [sumn]. rewrite IH by (intros; apply Hn; lia). rewrite Nat2Z.inj_succ. unfold Z.succ. rewrite inject_Z_plus.
      assert (Q : (nth (S e - w + n) l' 0 == a * nth (S e - w + n) l 0 + b)%Q).
      { specialize (Hn n ltac:(lia)). revert Hn. generalize (S e - w + n). clear - H. induction H; intros [|j] Hj; cbn in *; try lia; [assumption|apply IHForall2; lia]. }
      rewrite Q. change (inject_Z 1) with 1%Q. ring. }
    rewrite P by lia. reflexivity. }
  unfold spike_at. cbv zeta. rewrite L. destruct (((0 <=? Z.of_nat i - k) && (Z.of_nat i - k <? Z.of_nat (length l)))%Z && Nat.leb w (length l)) eqn:E; [|ring].
  apply andb_true_iff in E as [E1 E2]. apply andb_true_iff in E1 as [E0 E1]. apply Z.leb_le in E0. apply Z.ltb_lt in E1. apply Nat.leb_le in E2.
  rewrite !W by lia. ring.
Qed.
Lemma qsum_mapF (a : Q) (f : Q -> Q) l l' (g : Q -> Q) : Forall2 (fun x y => (g y == a * f x)%Q) l l' -> (qsum (map g l') == a * qsum (map f l))%Q.
Proof. induction 1; cbn [map qsum]; [ring|]. rewrite H, IHForall2. ring. Qed.
Lemma zsq_scale d d' a : ~ (a == 0)%Q -> Forall2 (fun x y => (y == a * x)%Q) d d' ->
  Forall2 (fun o o' => match o, o' with Some z, Some z' => (z == z')%Q | None, None => True | _, _ => False end) (zsq d) (zsq d').
Proof.
  intros Ha H. assert (L : length d' = length d) by (clear - H; induction H; cbn; congruence). unfold zsq. rewrite L.
  destruct d as [|x0 t0]; [destruct d'; [constructor|discriminate]|]. set (d := x0 :: t0) in *.
  assert (Hn : (0 < of_nat (length d))%Q) by (apply of_nat_pos; cbn; lia). set (n := of_nat (length d)) in *.
  set (m := (qsum d / n)%Q). set (m' := (qsum d' / n)%Q).
  assert (Em : (m' == a * m)%Q).
  { unfold m, m'. assert (Q : (qsum d' == a * qsum d)%Q). { rewrite <- (map_id d'), <- (map_id d). apply qsum_mapF. exact H. } rewrite Q. field. lra. }
  set (v := (qsum (map (fun x => (x - m) * (x - m)) d) / n)%Q). set (v' := (qsum (map (fun x => (x - m') * (x - m')) d') / n)%Q).
  assert (Ev : (v' == a * a * v)%Q).
  { unfold v, v'. assert (Q : (qsum (map (fun x => (x - m') * (x - m')) d') == (a * a) * qsum (map (fun x => (x - m) * (x - m)) d))%Q).
    { apply qsum_mapF. clearbody m m'. clearbody d. clear - H Em. induction H; constructor; [|assumption]. rewrite H, Em. ring. }
    rewrite Q. field. lra. }
  clearbody v v' m m'. clear - H Em Ev Ha. assert (Haa : ~ (a * a == 0)%Q) by (intros C; apply Qmult_integral in C; tauto).
  assert (Eb : Qeq_bool v' 0 = Qeq_bool v 0).
  { destruct (Qeq_bool v 0) eqn:E; [apply Qeq_bool_iff in E; apply Qeq_bool_iff; rewrite Ev, E; ring|].
    destruct (Qeq_bool v' 0) eqn:E'; [|reflexivity]. apply Qeq_bool_iff in E'. rewrite Ev in E'. apply Qmult_integral in E' as [C|C]; [contradiction|].
    apply Qeq_bool_iff in C. congruence. }
  induction H as [|x y t u Hxy H IH]; cbn [map]; constructor; [|exact IH]. rewrite Eb. destruct (Qeq_bool v 0) eqn:E; [exact I|].
  assert (Hv : ~ (v == 0)%Q) by (intros C; apply Qeq_bool_iff in C; congruence). rewrite Hxy, Em, Ev. field. split; assumption.
Qed.
Lemma below_ext cutoff z z' : Forall2 (fun o o' => match o, o' with Some z, Some z' => (z == z')%Q | None, None => True | _, _ => False end) z z' ->
  forall s, where_below sf cutoff s z' = where_below sf cutoff s z.
Proof.
  induction 1 as [|o o' t u Ho H IH]; intros s; [reflexivity|]. cbn [where_below]. destruct o as [v|], o' as [v'|]; try contradiction; [|apply IH].
  rewrite (IH (S s)). assert (E : Qle_bool cutoff (sf v') = Qle_bool cutoff (sf v)) by (rewrite (sf_ext v' v) by (symmetry; exact Ho); reflexivity). rewrite E. reflexivity.
Qed.
(** Changing the unit (even its sign) and the origin keeps the change points and scales
    their metrics. *)
Theorem C105_units : forall cutoff w k l l' a b, 1 <= w -> ~ (a == 0)%Q -> Forall2 (fun x y => (y == a * x + b)%Q) l l' ->
  Forall2 (fun p q => fst q = fst p /\ (snd q == a * snd p)%Q) (robust_detector sf cutoff w k l) (robust_detector sf cutoff w k l').
Proof.
  intros cutoff w k l l' a b Hw Ha H. assert (L : length l' = length l) by (clear - H; induction H; cbn; congruence).
  pose proof (spike_affine w k l l' a b Hw H) as Hs. unfold robust_detector.
  assert (F : Forall2 (fun x y => (y == a * x)%Q) (spikes w k l) (spikes w k l')).
  { rewrite !spikes_list by exact Hw. rewrite L. assert (G : forall n s, s + n <= length l -> Forall2 (fun x y => (y == a * x)%Q) (map (spike_at w k l) (seq s n)) (map (spike_at w k l') (seq s n))).
    { induction n as [|n IH]; intros s Hn; cbn [seq map]; constructor; [apply Hs; lia|apply IH; lia]. } apply G. lia. }
  rewrite (below_ext cutoff _ _ (zsq_scale _ _ a Ha F) 0). set (ind := spread w None _). 
  assert (N : forall i, (nth i (spikes w k l') 0 == a * nth i (spikes w k l) 0)%Q).
  { clear - F. induction F; intros [|i]; cbn; try ring; [assumption|apply IHF]. }
  clearbody ind. clear - N. induction ind as [|i t IH]; cbn [map]; constructor; [split; [reflexivity|apply N]|exact IH].
Qed.
(** A constant series has no change points. *)
Theorem C105_constant : forall cutoff w k l c, 1 <= w -> (forall x, In x l -> (x == c)%Q) -> robust_detector sf cutoff w k l = [].
Proof.
  intros cutoff w k l c Hw Hc. unfold robust_detector.
  assert (F : Forall2 (fun x y => (y == 0 * x + c)%Q) l l) by (induction l as [|x t IH]; constructor; [rewrite Hc by (left; reflexivity); ring|apply IH; intros; apply Hc; right; assumption]).
  assert (Z0 : forall x, In x (spikes w k l) -> (x == 0)%Q).
  { rewrite spikes_list by exact Hw. intros x Hx. apply in_map_iff in Hx as (i & <- & Hi). apply in_seq in Hi. rewrite (spike_affine w k l l 0 c Hw F) by lia. ring. }
  set (d := spikes w k l) in *. assert (Q0 : (qsum d == 0)%Q) by (clearbody d; clear - Z0; induction d as [|x t IH]; [reflexivity|]; cbn [qsum]; rewrite (Z0 x (or_introl eq_refl)), (IH (fun y Hy => Z0 y (or_intror Hy))); reflexivity).
  assert (W : forall z s, (forall o, In o z -> o = None) -> where_below sf cutoff s z = []).
  { induction z as [|o t IH]; intros s Hz; [reflexivity|]. cbn. rewrite (Hz o) by (left; reflexivity). apply IH. intros; apply Hz; right; assumption. }
  rewrite W; [reflexivity|]. unfold zsq. intros o Ho. apply in_map_iff in Ho as (x & <- & Hx).
  assert (Hd : (0 < of_nat (length d))%Q) by (apply of_nat_pos; destruct d; [destruct Hx|cbn; lia]).
  set (m := (qsum d / of_nat (length d))%Q). assert (Em : (m == 0)%Q) by (unfold m; rewrite Q0; field; lra).
  assert (V : (qsum (map (fun x => (x - m) * (x - m)) d) == 0)%Q).
  { clear - Z0 Em. assert (E : (qsum (map (fun x => (x - m) * (x - m)) d) == qsum (map (fun _ => 0) d))%Q) by (apply qsum_ext; intros x Hx; rewrite (Z0 x Hx), Em; ring).
    rewrite E. clear. induction d; cbn; [reflexivity|]. rewrite IHd. reflexivity. }
  replace (Qeq_bool (qsum (map (fun x => (x - m) * (x - m)) d) / of_nat (length d))%Q 0) with true; [reflexivity|].
  symmetry. apply Qeq_bool_iff. rewrite V. field. lra.
Qed.
End Robust.

(** a tail function for the examples: 1 / (1 + z^2) *)
Definition c40_sf (z : Q) : Q := (1 / (1 + z))%Q.
Definition c40_data : list Q := map inject_Z [1;1;1;1;1;1;1;1;1;9;9;9;9;9;9;9;9;9;9;9]%Z.
Example C40_case : (forall a b, (a == b)%Q -> (c40_sf a == c40_sf b)%Q) /\
  map (fun p => (fst p, Qred (snd p))) (robust_detector c40_sf (3#10) 3 (-2) c40_data) = [(8, (-(16#3))%Q)] /\
  map fst (robust_detector c40_sf (3#10) 1 (-2) c40_data) = [7; 8].
Proof. split; [intros a b E; unfold c40_sf; rewrite E; reflexivity|]. split; vm_compute; reflexivity. Qed.
Example C105_case : map (fun p => (fst p, Qred (snd p))) (robust_detector c40_sf (3#10) 3 (-2) (map (fun x => (-(2) * x + 5)%Q) c40_data)) = [(8, (32#3)%Q)].
Proof. vm_compute. reflexivity. Qed.

Print Assumptions C40_points.
Print Assumptions C105_units.
Print Assumptions C105_constant.
