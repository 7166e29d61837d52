(** Parameter tuning: the grid, evaluated arms, arms within the constraints, the nevergrad search and searches over several spaces. *)
From Coq Require Import List Bool Arith ZArith QArith Lia.
From Verif Require Import Common TuneModel.
Import ListNotations.
Open Scope nat_scope.

(** ** The grid *)
(** an arm gives each parameter, in order, one of its values *)
Definition arm_of (space : list (nat * spec)) (a : list (nat * Q)) : Prop :=
  Forall2 (fun p v => fst v = fst p /\ match snd p with Choice vs => In (snd v) vs | Fixed w => snd v = w | Range _ _ _ => False end) space a.

Lemma grid_arms : forall space a, In a (grid space) <-> arm_of space a.
Proof.
  unfold arm_of. induction space as [|[n s] space IH]; intro a; cbn [grid].
  - split; intro H; [destruct H as [<- | []]; constructor | left; inversion H; reflexivity].
  - rewrite in_flat_map. split.
    + intros [v [Hv Ha]]. apply in_map_iff in Ha as [b [<- Hb]]. constructor; [|apply IH; exact Hb].
      cbn. split; [reflexivity|]. destruct s as [vs | w | ? ? ?]; cbn in Hv; [exact Hv | destruct Hv as [<- | []]; reflexivity | contradiction].
    + intro H. inversion H as [|p v l l' H1 H2]; subst. destruct v as [m v]. cbn in H1. destruct H1 as [-> H1].
      exists v. split; [destruct s; cbn; [exact H1 | left; symmetry; exact H1 | contradiction] | apply in_map, IH; exact H2].
Qed.

Lemma card_fold : forall (space : list (nat * spec)) k,
  fold_left (fun res p => match snd p with Choice vs => res * length vs | _ => res end) space k =
  k * fold_left (fun res p => match snd p with Choice vs => res * length vs | _ => res end) space 1.
Proof.
  induction space as [|[n s] space IH]; intro k; cbn [fold_left]; [lia|]. rewrite IH. symmetry. rewrite IH. destruct s; cbn [snd]; lia.
Qed.

Lemma grid_length : forall space n, cardinality space = Some n -> length (grid space) = n.
Proof.
  unfold cardinality. induction space as [|[m s] space IH]; intros n H; cbn [existsb fold_left] in H.
  - injection H as <-. reflexivity.
  - cbn [snd] in H. destruct (is_range s) eqn:Es; cbn [orb] in H; [discriminate|].
    destruct (existsb _ space) eqn:Ex; [discriminate|]. injection H as <-. rewrite card_fold.
    specialize (IH _ eq_refl). cbn [grid]. revert IH. set (c := fold_left _ space 1). intro IH.
    assert (L : forall l, length (flat_map (fun v => map (fun a => (m, v) :: a) (grid space)) l) = length l * c).
    { induction l; cbn; [reflexivity|]. rewrite app_length, map_length, IHl, IH. lia. }
    rewrite L. destruct s; cbn in *; try discriminate; lia.
Qed.

Lemma NoDup_app_disjoint : forall {A} (l m : list A), NoDup l -> NoDup m -> (forall x, In x l -> In x m -> False) -> NoDup (l ++ m).
Proof.
  induction l as [|x l IH]; intros m Hl Hm D; [exact Hm|]. inversion Hl; subst. cbn. constructor.
  - rewrite in_app_iff. intros [H|H]; [contradiction | apply (D x); [left; reflexivity | exact H]].
  - apply IH; auto. intros y H3 H4. apply (D y); [right; exact H3 | exact H4].
Qed.

Lemma grid_nodup : forall space, Forall (fun p => match snd p with Choice vs => NoDup vs | _ => True end) space -> NoDup (grid space).
Proof.
  induction space as [|[n s] space IH]; intro F; cbn [grid]; [constructor; [intros [] | constructor]|].
  inversion F as [|p l H1 H2]; subst. specialize (IH H2).
  assert (N : NoDup (options s)) by (destruct s; cbn in *; [exact H1 | constructor; [intros [] | constructor] | constructor]).
  revert N. generalize (options s). induction l as [|v l IHl]; intro N; cbn; [constructor|]. inversion N; subst.
  apply NoDup_app_disjoint; [| apply IHl; assumption |].
  - clear - IH. induction IH; cbn; constructor; auto. rewrite in_map_iff. intros [b [E B]]. injection E as ->. contradiction.
  - intros x Hx Hy. apply in_map_iff in Hx as [b [<- _]]. apply in_flat_map in Hy as [w [Hw Hy]].
    apply in_map_iff in Hy as [b' [E _]]. injection E as -> _. contradiction.
Qed.

(** The computed size of a space is the number of arms grid search evaluates; these are exactly the ways to give every parameter one
    of its values, each once; the size is infinite exactly if some parameter is a range. *)
Theorem C240_grid : forall space,
  (forall a, In a (grid space) <-> arm_of space a) /\
  (forall n, cardinality space = Some n -> length (grid space) = n) /\
  (cardinality space = None <-> exists k b v i, In (k, Range b v i) space) /\
  (Forall (fun p => match snd p with Choice vs => NoDup vs | _ => True end) space -> NoDup (grid space)).
Proof.
  intro space. split; [intro; apply grid_arms|]. split; [apply grid_length|]. split; [|apply grid_nodup].
  unfold cardinality. destruct (existsb _ space) eqn:E.
  - split; [|reflexivity]. intros _. apply existsb_exists in E as [[k s] [H1 H2]]. destruct s; cbn in H2; try discriminate. eauto 6.
  - split; [discriminate|]. intros (k & b & v & i & H). exfalso.
    assert (X : existsb (fun p => is_range (snd p)) space = true) by (apply existsb_exists; exists (k, Range b v i); auto). congruence.
Qed.

(** A list of parameters passes the check exactly if it is not empty and no parameter is an empty dictionary. *)
Theorem C240_format : forall A (l : list (option A)), valid_format (Some l) = true <-> l <> [] /\ ~ In None l.
Proof.
  intros A l. unfold valid_format. rewrite andb_true_iff, negb_true_iff, Nat.eqb_neq, forallb_forall. split; intros [N H].
  - split; [intros ->; apply N; reflexivity|]. intro I. specialize (H _ I). discriminate.
  - split; [destruct l; [congruence | discriminate]|]. intros [x|] I; [reflexivity | contradiction].
Qed.
(** Leaving the parameters out is refused, although the argument has a default. *)
Theorem C240_default_refuted : forall A, valid_format (@None (list (option A))) = false.
Proof. reflexivity. Qed.

Example C240_case : cardinality [(0, Choice [1; 2]%Q); (1, Fixed 5); (2, Choice [7; 8; 9]%Q)] = Some 6 /\
  In [(0, 2%Q); (1, 5%Q); (2, 8%Q)] (grid [(0, Choice [1; 2]%Q); (1, Fixed 5); (2, Choice [7; 8; 9]%Q)]) /\ valid_format (Some [Some tt]) = true.
Proof. split; [reflexivity|]. split; [cbn; tauto | reflexivity]. Qed.

(** ** Evaluating arms *)
Lemma filter_seq_at : forall {B} (l : list B) s i, filter (fun p => fst p =? i) (combine (seq s (length l)) l) =
  match nth_error l (i - s) with Some x => if s <=? i then [(i, x)] else [] | None => [] end.
Proof.
  induction l as [|x l IH]; intros s i; cbn [length seq combine filter]; [destruct (i - s); reflexivity|]. cbn [fst].
  rewrite IH. destruct (Nat.eqb_spec s i) as [->|N].
  - rewrite Nat.sub_diag. cbn [nth_error]. rewrite Nat.leb_refl. destruct (nth_error l (i - S i)) as [y|]; [|reflexivity].
    destruct (Nat.leb_spec (S i) i); [lia | reflexivity].
  - destruct (Nat.leb_spec s i).
    + replace (i - s) with (S (i - S s)) by lia. cbn [nth_error]. destruct (nth_error l (i - S s)); [|reflexivity].
      destruct (Nat.leb_spec (S s) i); [reflexivity | lia].
    + replace (i - s) with 0 by lia. cbn [nth_error]. destruct (nth_error l (i - S s)); [|reflexivity].
      destruct (Nat.leb_spec (S s) i); [lia | reflexivity].
Qed.

Lemma filter_concat : forall {B} (f : B -> bool) ls, filter f (concat ls) = concat (map (filter f) ls).
Proof. induction ls; cbn; [reflexivity|]. rewrite filter_app, IHls. reflexivity. Qed.

Lemma filter_filter_comm : forall {B} (f g : B -> bool) l, filter f (filter g l) = filter g (filter f l).
Proof.
  induction l as [|x l IH]; cbn; [reflexivity|]. destruct (g x) eqn:G, (f x) eqn:F; cbn; rewrite ?F, ?G, IH; reflexivity.
Qed.

Lemma pick_class : forall {B} (y : B) c s n, s <= c < s + n -> concat (map (fun w => if c =? w then [y] else []) (seq s n)) = [y].
Proof.
  intros B y c s n; revert s; induction n as [|n IH]; intros s H; [lia|]. cbn [seq map concat].
  destruct (Nat.eqb_spec c s) as [->|N].
  - assert (E : concat (map (fun w => if s =? w then [y] else []) (seq (S s) n)) = []).
    { assert (G : forall t, s < t -> concat (map (fun w => if s =? w then [y] else []) (seq t n)) = []).
      { clear. induction n; intros t H; cbn; [reflexivity|]. destruct (Nat.eqb_spec s t); [lia|]. apply IHn. lia. }
      apply G. lia. }
    rewrite E. reflexivity.
  - cbn. apply IH. lia.
Qed.

Lemma pool_map_map : forall {B C} k (f : B -> C) l, 0 < k -> pool_map k f l = map f l.
Proof.
  intros B C k f l K. unfold pool_map. set (z := combine (seq 0 (length l)) l).
  assert (P : forall i x, nth_error l i = Some x ->
    filter (fun p => fst p =? i) (concat (map (fun w => map (fun p => (fst p, f (snd p))) (filter (fun p => fst p mod k =? w) z)) (seq 0 k))) = [(i, f x)]).
  { intros i x Hx. rewrite filter_concat, map_map.
    rewrite (map_ext _ (fun w => if i mod k =? w then [(i, f x)] else [])).
    - apply pick_class. split; [lia|]. cbn. apply Nat.mod_upper_bound. lia.
    - intro w. transitivity (map (fun p => (fst p, f (snd p))) (filter (fun p => fst p mod k =? w) (filter (fun p => fst p =? i) z))).
      + rewrite (filter_filter_comm (fun p => fst p mod k =? w)).
        induction (filter (fun p => fst p mod k =? w) z) as [|a r IH]; cbn; [reflexivity|]. destruct (fst a =? i); cbn; rewrite IH; reflexivity.
      + unfold z. rewrite filter_seq_at, Nat.sub_0_r, Hx. cbn. destruct (i mod k =? w); reflexivity. }
  assert (G : forall (g : nat -> list C) l s, (forall i x, nth_error l i = Some x -> g (s + i) = [f x]) -> flat_map g (seq s (length l)) = map f l).
  { clear. induction l as [|x l IH]; intros s H; cbn; [reflexivity|]. rewrite <- (IH (S s)).
    - specialize (H 0 x eq_refl). rewrite Nat.add_0_r in H. rewrite H. reflexivity.
    - intros i y Hy. rewrite <- (H (S i) y Hy). f_equal. lia. }
  apply G. intros i x Hx. cbn [plus]. rewrite (P i x Hx). reflexivity.
Qed.

Lemma fetch_serial : forall A name trial m cpus (eval : A -> outcome) arms, fetch A name trial m cpus eval arms = fetch A name trial Serial cpus eval arms.
Proof.
  intros. unfold fetch. change (pooled Serial (length arms) cpus) with false.
  destruct (pooled m (length arms) cpus) eqn:E; [|reflexivity]. rewrite pool_map_map; [reflexivity|].
  unfold pooled in E. apply andb_true_iff in E as [_ E]. apply Nat.ltb_lt in E. lia.
Qed.

Lemma all_some_map : forall {B C} (f : B -> option C) l r, all_some (map f l) = Some r <-> Forall2 (fun x y => f x = Some y) l r.
Proof.
  induction l as [|x l IH]; intro r; cbn.
  - split; [intro H; injection H as <-; constructor | intro H; inversion H; reflexivity].
  - split.
    + destruct (f x) as [y|] eqn:E; [|discriminate]. destruct (all_some (map f l)) as [t|] eqn:T; [|discriminate]. cbn. intro H. injection H as <-.
      constructor; [exact E | apply IH; reflexivity].
    + intro H. inversion H as [|a b la lb H1 H2]; subst. rewrite H1. apply IH in H2. rewrite H2. reflexivity.
Qed.

Lemma all_some_none : forall {B} (l : list (option B)), In None l -> all_some l = None.
Proof. induction l as [|[x|] l IH]; cbn; intro H; [contradiction | | reflexivity]. destruct H; [discriminate|]. rewrite IH; auto. Qed.

(** the mean and standard error a single result stands for *)
Definition single (o : outcome) : option (Q * Q) := match o with ONum m => Some (m, 0%Q) | OPair m s => Some (m, s) | _ => None end.

(** If every arm evaluates to a number or a pair, the data of a trial has one record per arm, in the order of the arms, with the arm,
    its value, the metric asked for and the trial, whatever the number of processes. *)
Theorem C241_records : forall A name trial m cpus (eval : A -> outcome) arms,
  arms <> [] -> Forall (fun a => single (eval a) <> None) arms ->
  exists l, fetch A name trial m cpus eval arms = Some l /\
    Forall2 (fun a r => r_arm r = a /\ r_metric r = name /\ r_trial r = trial /\ single (eval a) = Some (r_mean r, r_sem r)) arms l.
Proof.
  intros A name trial m cpus eval arms N F. rewrite fetch_serial. unfold fetch. change (pooled Serial (length arms) cpus) with false. cbn [negb].
  assert (X : exists l, Forall2 (fun a r => evaluate_arm A name trial eval a = Some (inl r) /\ r_arm r = a /\ r_metric r = name /\ r_trial r = trial /\ single (eval a) = Some (r_mean r, r_sem r)) arms l).
  { clear N. induction F as [|a arms H F IH]; [exists []; constructor|]. destruct IH as [l IH]. unfold evaluate_arm in *.
    destruct (eval a) as [q|q s|d| |] eqn:E; cbn in H; try congruence.
    - exists ({| r_metric := name; r_arm := a; r_mean := q; r_sem := 0; r_trial := trial |} :: l). constructor; [rewrite E; cbn; auto | exact IH].
    - exists ({| r_metric := name; r_arm := a; r_mean := q; r_sem := s; r_trial := trial |} :: l). constructor; [rewrite E; cbn; auto | exact IH]. }
  destruct X as [l X]. exists l. split.
  - assert (Y : all_some (map (evaluate_arm A name trial eval) arms) = Some (map inl l)).
    { apply all_some_map. clear - X. induction X as [|a r arms l H X IH]; [constructor | constructor; [apply H | exact IH]]. }
    rewrite Y. destruct l as [|r l]; [inversion X; subst; congruence|]. cbn [map flatten]. change (inl r :: map inl l) with (map (@inl (record A) (list (record A))) (r :: l)).
    rewrite map_map. assert (Z : forall q : list (record A), all_some (map (fun x => Some x) q) = Some q) by (clear; induction q as [|x q IH]; cbn; [reflexivity | rewrite IH; reflexivity]).
    exact (Z (r :: l)).
  - clear - X. induction X as [|a r arms l H X IH]; constructor; [apply H | exact IH].
Qed.

(** If every arm evaluates to a dictionary of metrics, there is one record per arm and metric. *)
Theorem C241_metrics : forall A name trial m cpus (eval : A -> outcome) arms,
  arms <> [] -> Forall (fun a => exists d, eval a = ODict d) arms ->
  exists l, fetch A name trial m cpus eval arms = Some l /\
    (forall r, In r l <-> exists a d, In a arms /\ eval a = ODict d /\ In (r_metric r, (r_mean r, r_sem r)) d /\ r_arm r = a /\ r_trial r = trial) /\
    length l = fold_right plus 0 (map (fun a => match eval a with ODict d => length d | _ => 0 end) arms).
Proof.
  intros A name trial m cpus eval arms N F. rewrite fetch_serial. unfold fetch. change (pooled Serial (length arms) cpus) with false. cbv iota.
  set (recs := fun a => match eval a with ODict d => map (fun kv : nat * (Q * Q) => {| r_metric := fst kv; r_arm := a; r_mean := fst (snd kv); r_sem := snd (snd kv); r_trial := trial |}) d | _ => [] end).
  assert (Y : all_some (map (evaluate_arm A name trial eval) arms) = Some (map (fun a => inr (recs a)) arms)).
  { apply all_some_map. clear N. induction F as [|a arms [d H] F IH]; constructor; [|exact IH]. unfold evaluate_arm, recs. rewrite H. reflexivity. }
  rewrite Y. exists (concat (map recs arms)). split.
  - destruct arms as [|a arms]; [congruence|]. cbn [map flatten]. change (inr (recs a) :: map (fun a0 => inr (recs a0)) arms) with (map (fun a0 => @inr (record A) (list (record A)) (recs a0)) (a :: arms)).
    rewrite map_map. assert (Z : forall q : list A, all_some (map (fun x => Some (recs x)) q) = Some (map recs q)) by (clear; induction q as [|x q IH]; cbn; [reflexivity | rewrite IH; reflexivity]).
    exact (f_equal (option_map (@concat _)) (Z (a :: arms))).
  - split.
    + intro r. rewrite in_concat. split.
      * intros [t [Ht Hr]]. apply in_map_iff in Ht as [a [<- Ha]]. unfold recs in Hr. rewrite Forall_forall in F. destruct (F a Ha) as [d Hd]. rewrite Hd in Hr.
        apply in_map_iff in Hr as [[k [q s]] [<- Hk]]. exists a, d. cbn. auto.
      * intros (a & d & Ha & Hd & Hk & H1 & H2). exists (recs a). split; [apply in_map; exact Ha|]. unfold recs. rewrite Hd. apply in_map_iff.
        exists (r_metric r, (r_mean r, r_sem r)). split; [|exact Hk]. destruct r; cbn in *. subst. reflexivity.
    + clear - F. induction F as [|a arms [d H] F IH]; [reflexivity|]. cbn. rewrite app_length, IH. unfold recs at 1. rewrite H, map_length. reflexivity.
Qed.

(** One arm that cannot be evaluated makes the data of the whole trial unavailable; so do arms of which some give a dictionary and
    some a number. *)
Theorem C241_failure : forall A name trial m cpus (eval : A -> outcome) arms,
  ((exists a, In a arms /\ (eval a = OOther \/ eval a = ORaise)) -> fetch A name trial m cpus eval arms = None) /\
  ((exists a b d, In a arms /\ In b arms /\ single (eval a) <> None /\ eval b = ODict d) -> fetch A name trial m cpus eval arms = None).
Proof.
  intros. rewrite fetch_serial. unfold fetch. change (pooled Serial (length arms) cpus) with false. cbv iota. split.
  - intros (a & Ha & He). rewrite all_some_none; [reflexivity|]. apply in_map_iff. exists a. split; [|exact Ha]. unfold evaluate_arm. destruct He as [-> | ->]; reflexivity.
  - intros (a & b & d & Ha & Hb & Sa & Hd). destruct (all_some (map (evaluate_arm A name trial eval) arms)) as [l|] eqn:E; [|reflexivity].
    apply all_some_map in E.
    assert (P : forall x, In x arms -> exists y, In y l /\ evaluate_arm A name trial eval x = Some y).
    { clear - E. induction E as [|x y arms l H E IH]; intros z [].
      - subst. exists y. split; [left; reflexivity | exact H].
      - destruct (IH z H0) as [w [H1 H2]]. exists w. split; [right; exact H1 | exact H2]. }
    destruct (P a Ha) as [y [Hy Ey]]. destruct (P b Hb) as [w [Hw Ew]].
    assert (exists r, y = inl r) as [r ->] by (unfold evaluate_arm in Ey; destruct (eval a); cbn in Sa; try congruence; injection Ey as <-; eauto).
    assert (exists t, w = inr t) as [t ->] by (unfold evaluate_arm in Ew; rewrite Hd in Ew; injection Ew as <-; eauto).
    destruct l as [|[h|h] l]; [contradiction| |]; cbn [flatten].
    + apply all_some_none. apply in_map_iff. exists (inr t). auto.
    + rewrite all_some_none; [reflexivity|]. apply in_map_iff. exists (inl r). auto.
Qed.

(** A trial without arms has no data: its evaluation fails. *)
Theorem C241_no_arms : forall A name trial m cpus (eval : A -> outcome), fetch A name trial m cpus eval [] = None.
Proof. intros. rewrite fetch_serial. reflexivity. Qed.

(** No pool has more processes than arms, than processors or than asked for, and never more than 150 unless asked for. *)
Theorem C241_processes : forall m arms cpus,
  processes m arms cpus <= arms /\ processes m arms cpus <= cpus /\
  (m = All -> processes m arms cpus <= 150) /\ (forall n, m = Processes n -> (0 <= n)%Z -> (Z.of_nat (processes m arms cpus) <= n)%Z) /\
  (pooled m arms cpus = true -> 2 <= processes m arms cpus /\ m <> Serial).
Proof.
  intros m arms cpus. split; [unfold processes; lia|]. split; [unfold processes; lia|]. split; [|split].
  - intros ->. unfold processes. cbn [as_int]. change (-1 <? 0)%Z with true. cbv iota. lia.
  - intros n -> H. unfold processes. cbn [as_int]. destruct (Z.ltb_spec n 0); [lia|]. rewrite <- (Z2Nat.id n H) at 2. apply Nat2Z.inj_le. lia.
  - unfold pooled. intro H. apply andb_true_iff in H as [H1 H]. apply Nat.ltb_lt in H. split; [lia|]. intros ->. discriminate.
Qed.

Example C241_case :
  fetch nat 7 3 All 4 (fun a => OPair (inject_Z (Z.of_nat a)) 1) [5; 6; 8; 5] = fetch nat 7 3 Serial 4 (fun a => OPair (inject_Z (Z.of_nat a)) 1) [5; 6; 8; 5] /\
  pooled All 4 4 = true /\ option_map (map r_mean) (fetch nat 7 3 (Processes 2) 4 (fun a => ONum (inject_Z (Z.of_nat a))) [5; 6; 8]) = Some [5; 6; 8]%Q /\
  option_map (map r_metric) (fetch nat 7 3 All 4 (fun a => ODict [(1, (2, 0)%Q); (2, (3, 0)%Q)]) [5; 6]) = Some [1; 2; 1; 2] /\
  fetch nat 7 3 All 4 (fun a => if a =? 6 then ORaise else ONum 1) [5; 6; 8] = None.
Proof. repeat split. Qed.

(** ** Arms within the constraints *)
Lemma checked_in : forall d c i b, In (i, b) (checked d c) <->
  exists row, nth_error d i = Some row /\ s_metric row = c_metric c /\ b = meets c (s_mean row).
Proof.
  intros d c i b. unfold checked. rewrite in_map_iff. split.
  - intros [[j row] [E H]]. cbn in E. apply pair_equal_spec in E as [-> E]. apply filter_In in H as [H1 H2]. cbn in H2. apply Nat.eqb_eq in H2.
    exists row. split; [|auto]. unfold zscores in H1. clear - H1.
    assert (G : forall d s, In (i, row) (combine (seq s (length d)) d) -> s <= i /\ nth_error d (i - s) = Some row).
    { induction d0 as [|x d0 IH]; intros s H; [contradiction|]. cbn in H. destruct H as [H|H].
      - apply pair_equal_spec in H as [-> ->]. rewrite Nat.sub_diag. auto.
      - apply IH in H as [H1' H2']. split; [lia|]. replace (i - s) with (S (i - S s)) by lia. exact H2'. }
    apply G in H1 as [_ H1]. rewrite Nat.sub_0_r in H1. exact H1.
  - intros (row & H1 & H2 & ->). exists (i, row). split; [reflexivity|]. apply filter_In. split; [|apply Nat.eqb_eq; exact H2].
    unfold zscores. clear - H1.
    assert (G : forall d s i, nth_error d i = Some row -> In (s + i, row) (combine (seq s (length d)) d)).
    { induction d0 as [|x d0 IH]; intros s j H; [destruct j; discriminate|]. destruct j; cbn in *.
      - injection H as ->. left. f_equal. lia.
      - right. replace (s + S j) with (S s + j) by lia. apply IH. exact H. }
    exact (G d 0 i H1).
Qed.

(** truth of a series at an index *)
Definition holds (s : list (nat * bool)) (i : nat) : Prop := In (i, true) s.
Definition functional (s : list (nat * bool)) : Prop := forall i b b', In (i, b) s -> In (i, b') s -> b = b'.

Lemma at_index_in : forall s i, functional s -> forall b, at_index s i = Some b <-> In (i, b) s.
Proof.
  intros s i F b. unfold at_index. split.
  - destruct (find _ s) as [[j c]|] eqn:E; [|discriminate]. cbn. intro H. injection H as <-. apply find_some in E as [E1 E2]. cbn in E2. apply Nat.eqb_eq in E2. subst. exact E1.
  - intro H. destruct (find _ s) as [[j c]|] eqn:E.
    + apply find_some in E as [E1 E2]. cbn in E2. apply Nat.eqb_eq in E2. subst. cbn. f_equal. exact (F _ _ _ E1 H).
    + exfalso. pose proof (find_none _ _ E _ H) as X. cbn in X. rewrite Nat.eqb_refl in X. discriminate.
Qed.

Lemma at_index_none : forall s i, at_index s i = None -> forall b, ~ In (i, b) s.
Proof.
  intros s i H b Hb. unfold at_index in H. destruct (find _ s) as [p|] eqn:E; [discriminate|]. pose proof (find_none _ _ E _ Hb) as X. cbn in X. rewrite Nat.eqb_refl in X. discriminate.
Qed.

Lemma land_spec : forall x y, functional x -> functional y -> functional (land x y) /\ forall i, holds (land x y) i <-> holds x i /\ holds y i.
Proof.
  intros x y Fx Fy. split.
  - intros i b b' H1 H2. unfold land in *. rewrite in_app_iff, !in_map_iff in *.
    assert (K : forall j c, at_index x j = None -> ~ In (j, c) x) by (intros; apply at_index_none; assumption).
    destruct H1 as [[[j c] [E H1]] | [[j c] [E H1]]]; destruct H2 as [[[j' c'] [E' H2]] | [[j' c'] [E' H2]]]; cbn in E, E';
      apply pair_equal_spec in E as [-> <-]; apply pair_equal_spec in E' as [-> <-]; try reflexivity.
    + rewrite (Fx _ _ _ H1 H2). reflexivity.
    + exfalso. apply filter_In in H2 as [_ H2]. cbn in H2. destruct (at_index x i) eqn:E; [discriminate|]. exact (K _ _ E H1).
    + exfalso. apply filter_In in H1 as [_ H1]. cbn in H1. destruct (at_index x i) eqn:E; [discriminate|]. exact (K _ _ E H2).
  - intro i. unfold holds, land. rewrite in_app_iff, !in_map_iff. split.
    + intros [[[j c] [E H]] | [[j c] [E H]]]; cbn in E; apply pair_equal_spec in E as [-> E]; [|discriminate].
      apply andb_true_iff in E as [-> E]. split; [exact H|]. destruct (at_index y i) as [b|] eqn:A; [|discriminate]. subst b. apply at_index_in in A; assumption.
    + intros [H1 H2]. left. exists (i, true). split; [|exact H1]. cbn. apply (at_index_in y i Fy) in H2. rewrite H2. reflexivity.
Qed.

Lemma checked_functional : forall d c, functional (checked d c).
Proof.
  intros d c i b b' H1 H2. apply checked_in in H1 as (r & A & _ & ->). apply checked_in in H2 as (r' & A' & _ & ->). rewrite A in A'. injection A' as <-. reflexivity.
Qed.

Lemma fold_land : forall l s, functional s -> Forall functional l -> forall i, holds (fold_left land l s) i <-> holds s i /\ Forall (fun x => holds x i) l.
Proof.
  induction l as [|x l IH]; intros s Fs Fl i; cbn [fold_left].
  - split; [intro H; split; [exact H | constructor] | tauto].
  - inversion Fl; subst. destruct (land_spec s x Fs H1) as [F E]. rewrite (IH _ F H2), E. split.
    + intros [[A B] C]. split; [exact A | constructor; assumption].
    + intros [A B]. inversion B; subst. auto.
Qed.

Lemma legit_spec : forall d cs arms l, legit d cs arms = Some l -> forall a,
  In a l <-> In a arms /\ exists row, In row d /\ s_arm row = a /\ Forall (fun c => s_metric row = c_metric c /\ meets c (s_mean row) = true) cs.
Proof.
  intros d cs arms l H a. unfold legit in H. destruct cs as [|c cs]; [discriminate|]. cbn [map] in H. injection H as <-.
  rewrite filter_In. apply and_iff_compat_l. rewrite existsb_exists.
  assert (F : Forall functional (map (checked d) cs)) by (apply Forall_forall; intros x Hx; apply in_map_iff in Hx as [c' [<- _]]; apply checked_functional).
  assert (C : forall c i, holds (checked d c) i <-> exists row, nth_error d i = Some row /\ s_metric row = c_metric c /\ meets c (s_mean row) = true).
  { intros c' i. unfold holds. rewrite checked_in. split; intros (r & A & B & E); exists r; auto. }
  split.
  - intros [n [Hn En]]. apply Nat.eqb_eq in En. subst n. apply in_flat_map in Hn as [[i b] [Hi Hn]]. cbn in Hn. destruct b; [|contradiction].
    apply (fold_land _ _ (checked_functional d c) F) in Hi as [H1 H2]. apply C in H1 as (row & R1 & R2 & R3). rewrite R1 in Hn. destruct Hn as [<- | []].
    exists row. split; [eapply nth_error_In; exact R1|]. split; [reflexivity|]. constructor; [auto|]. rewrite Forall_forall in *. intros c' Hc'.
    specialize (H2 _ (in_map _ _ _ Hc')). apply C in H2 as (row' & R1' & R2' & R3'). rewrite R1 in R1'. injection R1' as <-. auto.
  - intros (row & Hr & <- & Hc). inversion Hc as [|c' cs' H1 H2]; subst. apply In_nth_error in Hr as [i Hi]. exists (s_arm row). split; [|apply Nat.eqb_refl].
    apply in_flat_map. exists (i, true). split; [|cbn; rewrite Hi; left; reflexivity]. apply (fold_land _ _ (checked_functional d c) F). split; [apply C; exists row; tauto|].
    apply Forall_forall. intros x Hx. apply in_map_iff in Hx as [c' [<- Hc']]. apply C. exists row. rewrite Forall_forall in H2. destruct (H2 c' Hc'). auto.
Qed.

(** With constraints on one metric only, exactly the arms with a score of that metric that satisfies all of them are kept.  Missing:
    constraints on several metrics, for which it is refuted below. *)
Theorem C242_legit_partial : forall d cs arms l metric, legit d cs arms = Some l -> Forall (fun c => c_metric c = metric) cs ->
  forall a, In a l <-> In a arms /\ exists v, In {| s_arm := a; s_metric := metric; s_mean := Some v |} d /\
    Forall (fun c => if c_leq c then (v <= c_bound c)%Q else (c_bound c <= v)%Q) cs.
Proof.
  intros d cs arms l metric H F a. rewrite (legit_spec _ _ _ _ H). apply and_iff_compat_l. destruct cs as [|c0 cs0] eqn:E; [discriminate|]. rewrite <- E in *.
  assert (X : exists c, In c cs) by (exists c0; rewrite E; left; reflexivity). clear E. rewrite Forall_forall in F. split.
  - intros (row & Hr & <- & Hc). rewrite Forall_forall in Hc. destruct X as [c Hc0]. destruct (Hc c Hc0) as [M Y]. rewrite (F c Hc0) in M.
    destruct row as [ra rm [v|]]; cbn in *; [|discriminate]. subst. exists v. split; [exact Hr|]. apply Forall_forall. intros c' Hc'. destruct (Hc c' Hc') as [_ Z].
    unfold meets in Z. destruct (c_leq c'); apply Qle_bool_iff; exact Z.
  - intros (v & Hr & Hc). exists {| s_arm := a; s_metric := metric; s_mean := Some v |}. split; [exact Hr|]. split; [reflexivity|]. rewrite Forall_forall in *. intros c Hc'.
    cbn. split; [symmetry; auto|]. specialize (Hc c Hc'). destruct (c_leq c); apply Qle_bool_iff; exact Hc.
Qed.

(** With constraints on two different metrics no arm is kept, whatever the scores are. *)
Theorem C242_metrics_refuted : forall d cs arms l c c', legit d cs arms = Some l -> In c cs -> In c' cs -> c_metric c <> c_metric c' -> l = [].
Proof.
  intros d cs arms l c c' H H1 H2 N. destruct l as [|a l]; [reflexivity|]. exfalso.
  destruct (proj1 (legit_spec _ _ _ _ H a) (or_introl eq_refl)) as [_ (row & _ & _ & F)]. rewrite Forall_forall in F.
  destruct (F c H1) as [A _], (F c' H2) as [B _]. congruence.
Qed.

Example C242_case :
  let d := [{| s_arm := 0; s_metric := 1; s_mean := Some 4%Q |}; {| s_arm := 0; s_metric := 2; s_mean := Some 1%Q |};
            {| s_arm := 1; s_metric := 1; s_mean := Some 9%Q |}; {| s_arm := 1; s_metric := 2; s_mean := Some 1%Q |}] in
  legit d [{| c_metric := 1; c_leq := true; c_bound := 5 |}; {| c_metric := 1; c_leq := false; c_bound := 2 |}] [0; 1] = Some [0] /\
  legit d [{| c_metric := 1; c_leq := true; c_bound := 5 |}; {| c_metric := 2; c_leq := true; c_bound := 3 |}] [0; 1] = Some [].
Proof. split; reflexivity. Qed.

(** ** Nevergrad *)
(** a value nevergrad may choose *)
Definition admits (i : instrument) (v : Q) : Prop := match i with IChoice vs => In v vs | IScalar a b _ => a <= v <= b | IConst w => v = w end%Q.
(** a value the space allows *)
Definition allows (s : spec) (v : Q) : Prop :=
  match s with
  | Choice vs => In v vs | Fixed w => v = w
  | Range (Some (a :: b :: _)) _ _ => a <= v <= b
  | Range None (Some [a; b]) _ => a <= v <= b
  | Range _ _ _ => False
  end%Q.

(** Whatever point nevergrad asks for, the evaluation function is called with a value for each parameter of the space that the space
    allows. *)
Theorem C243_space : forall in_space space ins p, instrumentation in_space space = Some ins ->
  Forall2 (fun i v => fst v = fst i /\ admits (snd i) (snd v)) ins p ->
  forall n s, In (n, s) space -> exists v, In (n, v) (p ++ (if in_space then [] else fixed_params space)) /\ allows s v.
Proof.
  intros in_space space ins p H F n s Hn.
  assert (X : (exists i, In (n, i) ins /\ forall v, admits i v -> allows s v) \/ (in_space = false /\ exists v, In (n, v) (fixed_params space) /\ allows s v)).
  { clear F. revert ins H. induction space as [|[m t] space IH]; intros ins H; [contradiction|]. cbn in H.
    destruct (instrument1 in_space t) as [l|] eqn:E; [|discriminate]. destruct (instrumentation in_space space) as [i|] eqn:I; [|discriminate]. injection H as <-.
    destruct Hn as [Hn|Hn].
    - apply pair_equal_spec in Hn as [-> ->]. destruct s as [vs | w | b vs int].
      + left. injection E as <-. exists (IChoice vs). split; [left; reflexivity | intros v Hv; exact Hv].
      + destruct in_space; injection E as <-.
        * left. exists (IConst w). split; [left; reflexivity | intros v Hv; exact Hv].
        * right. split; [reflexivity|]. exists w. split; [left; reflexivity | reflexivity].
      + left. destruct b as [[|a [|b r]]|]; cbn in E; try discriminate.
        * injection E as <-. exists (IScalar a b int). split; [left; reflexivity | intros v Hv; exact Hv].
        * destruct vs as [[|a [|b [|? ?]]]|]; try discriminate. injection E as <-. exists (IScalar a b int). split; [left; reflexivity | intros v Hv; exact Hv].
    - destruct (IH Hn _ eq_refl) as [[j [Hj A]] | [-> [v [Hv A]]]].
      + left. exists j. split; [apply in_or_app; right; exact Hj | exact A].
      + right. split; [reflexivity|]. exists v. split; [apply in_or_app; right; exact Hv | exact A]. }
  destruct X as [[i [Hi A]] | [-> [v [Hv A]]]].
  - assert (Y : exists v, In (n, v) p /\ admits i v).
    { clear - F Hi. induction F as [|j [m v] ins p [H1 H2] F IH]; [contradiction|]. destruct Hi as [-> | Hi].
      - cbn in *. subst. exists v. split; [left; reflexivity | exact H2].
      - destruct (IH Hi) as [w [Hw Aw]]. exists w. split; [right; exact Hw | exact Aw]. }
    destruct Y as [v [Hv Av]]. exists v. split; [apply in_or_app; left; exact Hv | auto].
  - exists v. split; [apply in_or_app; right; exact Hv | exact A].
Qed.

(** For each point nevergrad asks for, the evaluation function itself is called, with this point and an allowed value for each other
    parameter of the space: [fun f => [(n, f p)]] is a search that asks for the one point p. *)
Theorem C243_evaluated : forall in_space space ins p, instrumentation in_space space = Some ins ->
  Forall2 (fun i v => fst v = fst i /\ admits (snd i) (snd v)) ins p ->
  exists q, (forall n s, In (n, s) space -> exists v, In (n, v) q /\ allows s v) /\ incl p q /\
    (forall m v, In (m, v) q -> In (m, v) p \/ (in_space = false /\ In (m, Fixed v) space)) /\
    forall n eval, nevergrad in_space space (fun f => [(n, f p)]) eval = [(n, eval q)].
Proof.
  intros in_space space ins p H F. exists (p ++ (if in_space then [] else fixed_params space)). split; [exact (C243_space in_space space ins p H F)|].
  split; [apply incl_appl; intros x I; exact I|]. split; [|reflexivity]. intros m v I. apply in_app_or in I as [I|I]; [left; exact I|]. destruct in_space; [destruct I|].
  right. split; [reflexivity|]. unfold fixed_params in I. apply in_flat_map in I as [[k t] [Hk Hv]]. cbn [fst snd] in Hv. destruct t; cbn in Hv; try contradiction. destruct Hv as [Hv|[]]. injection Hv as <- <-. exact Hk.
Qed.

(** The parameters reported are not those evaluated: by default the fixed ones are missing. *)
Theorem C243_reported_refuted : exists space minimize eval ins,
  instrumentation false space = Some ins /\
  (forall f, Forall2 (fun i v => fst v = fst i /\ admits (snd i) (snd v)) ins (minimize f)) /\
  (exists n s, In (n, s) space /\ forall v, ~ In (n, v) (nevergrad false space minimize eval)).
Proof.
  exists [(0, Choice [1; 2]%Q); (1, Fixed 5)], (fun _ => [(0, 1%Q)]), (fun _ => 0%Q), [(0, IChoice [1; 2]%Q)].
  split; [reflexivity|]. split; [intro; constructor; [cbn; auto | constructor]|].
  exists 1, (Fixed 5). split; [right; left; reflexivity|]. intros v [H|[]]. discriminate.
Qed.

(** At least one worker and no more than the processors; a negative budget is 100. *)
Theorem C243_workers : forall m cpus b, 1 <= workers m cpus /\ (1 <= cpus -> workers m cpus <= cpus) /\
  (forall n, m = Processes n -> (1 <= n)%Z -> (Z.of_nat (workers m cpus) <= n)%Z) /\ ((b < 0)%Z -> budget b = 100%Z) /\ ((0 <= b)%Z -> budget b = b).
Proof.
  intros m cpus b. unfold workers, budget. repeat split.
  - lia.
  - intro H. destruct m; lia.
  - intros n -> H. lia.
  - intro H. destruct (Z.ltb_spec b 0); [reflexivity | lia].
  - intro H. destruct (Z.ltb_spec b 0); [lia | reflexivity].
Qed.

(** The number of processes in the options is not used: a search made by the factory without the argument has one worker. *)
Theorem C243_options_refuted : exists options cpus, workers options cpus = 8 /\ workers (factory_multi Serial options) cpus = 1.
Proof. exists (Processes 8), 16. split; reflexivity. Qed.

Example C243_case : exists ins, instrumentation false [(0, Choice [1; 2]%Q); (1, Fixed 5); (2, Range (Some [0; 4]%Q) None true)] = Some ins /\
  Forall2 (fun i v => fst v = fst i /\ admits (snd i) (snd v)) ins [(0, 2%Q); (2, 3%Q)] /\
  fixed_params [(0, Choice [1; 2]%Q); (1, Fixed 5); (2, Range (Some [0; 4]%Q) None true)] = [(1, 5%Q)].
Proof.
  eexists. split; [reflexivity|]. split; [|reflexivity]. constructor; [cbn; auto|]. constructor; [|constructor]. cbn. split; [reflexivity|]. split; discriminate.
Qed.

(** ** Several spaces *)
(** Asking for arms of one model leaves the searches of the others as they were. *)
Theorem C244_independent : forall S (advance : S -> nat -> S) d k n d', generate S advance d k n = Some d' ->
  length d' = length d /\ map fst d' = map fst d /\
  (forall i e, nth_error d i = Some e -> nth_error d' i = Some (fst e, if fst e =? k then advance (snd e) n else snd e)).
Proof.
  intros S advance d k n d' H. unfold generate in H. destruct (existsb _ d); [|discriminate]. injection H as <-.
  split; [apply map_length|]. split.
  - rewrite map_map. apply map_ext. intro e. destruct (Nat.eqb_spec (fst e) k); cbn; congruence.
  - intros i e H. rewrite nth_error_map, H. cbn. destruct (Nat.eqb_spec (fst e) k) as [E|E]; [rewrite E; reflexivity | destruct e; reflexivity].
Qed.

(** Bayesian optimisation, one of the offered methods, cannot be used with several spaces: the constructor raises. *)
Theorem C244_bayes_refuted : forall S (start : list (nat * spec) -> method -> option S) l, l <> [] -> spaces S start BayesM l = None.
Proof. intros S start [|[k sp] l] H; [congruence|]. reflexivity. Qed.

(** With any other method each model gets a search of its own, over its own space, unless one of the searches cannot be started; and a search
    can be advanced exactly for the models given. *)
Theorem C244_spaces : forall S (start : list (nat * spec) -> method -> option S) (advance : S -> nat -> S) m l, m <> BayesM ->
  (forall d, spaces S start m l = Some d <-> Forall2 (fun p e => fst e = fst p /\ start (snd p) m = Some (snd e)) l d) /\
  (spaces S start m l = None <-> exists k sp, In (k, sp) l /\ start sp m = None) /\
  (forall d k n, spaces S start m l = Some d -> (exists d', generate S advance d k n = Some d') <-> In k (map fst l)).
Proof.
  intros S start advance m l M. assert (C : forall sp, create S start sp m false = start sp m) by (intros sp; destruct m; try reflexivity; congruence).
  assert (X : forall d, spaces S start m l = Some d <-> Forall2 (fun p e => fst e = fst p /\ start (snd p) m = Some (snd e)) l d).
  { induction l as [|[k sp] l IH]; intros d; cbn [spaces].
    - split; [intros H; injection H as <-; constructor | intros H; inversion H; reflexivity].
    - rewrite C. split.
      + destruct (start sp m) as [s|] eqn:E; [|discriminate]. destruct (spaces S start m l) as [d'|]; [|discriminate]. intros H. injection H as <-. constructor; [cbn; auto | apply IH; reflexivity].
      + intros H. inversion H as [|x [k' s] l' d' [H1 H2] F]; subst. cbn [fst snd] in *. rewrite H2, (proj2 (IH d') F), H1. reflexivity. }
  split; [exact X|]. split.
  - clear X. induction l as [|[k sp] l IH]; cbn [spaces]; [split; [discriminate | intros (k & sp & [] & _)]|]. rewrite C. destruct (start sp m) as [s|] eqn:E.
    + destruct (spaces S start m l) as [d|]; split; try discriminate.
      * intros (k' & sp' & [H|H] & N); [congruence|]. assert (Y : Some d = None) by (apply IH; eauto). discriminate.
      * intros _. destruct (proj1 IH eq_refl) as (k' & sp' & H & N). exists k', sp'. split; [right; exact H | exact N].
      * reflexivity.
    + split; [intros _; exists k, sp; split; [left; reflexivity | exact E] | reflexivity].
  - intros d k n H. apply X in H. assert (K : map fst d = map fst l) by (clear - H; induction H as [|p e l d [H1 _] F IH]; [reflexivity | cbn; congruence]). rewrite <- K.
    unfold generate. destruct (existsb (fun e => fst e =? k) d) eqn:E.
    + split; [intros _ | eauto]. apply existsb_exists in E as [e [I Q]]. apply Nat.eqb_eq in Q. subst k. apply in_map. exact I.
    + split; [intros [d' Y]; discriminate|]. intros I. apply in_map_iff in I as [e [Q I]]. assert (Y : existsb (fun e => fst e =? k) d = true) by (apply existsb_exists; exists e; split; [exact I | apply Nat.eqb_eq; exact Q]). congruence.
Qed.

Example C244_case : spaces nat (fun _ _ => Some 0) GridM [(3, []); (5, [])] = Some [(3, 0); (5, 0)] /\
  generate nat plus [(3, 0); (5, 0)] 5 4 = Some [(3, 0); (5, 4)] /\ generate nat plus [(3, 0); (5, 0)] 6 4 = None.
Proof. repeat split. Qed.

Print Assumptions C240_grid.
Print Assumptions C240_default_refuted.
Print Assumptions C241_records.
Print Assumptions C241_metrics.
Print Assumptions C241_failure.
Print Assumptions C241_processes.
Print Assumptions C242_legit_partial.
Print Assumptions C242_metrics_refuted.
Print Assumptions C243_space.
Print Assumptions C243_reported_refuted.
Print Assumptions C243_workers.
Print Assumptions C243_options_refuted.
Print Assumptions C244_independent.
Print Assumptions C244_bayes_refuted.

Print Assumptions C240_format.
Print Assumptions C241_no_arms.
Print Assumptions C243_evaluated.

Print Assumptions C244_spaces.
