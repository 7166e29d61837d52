From Verif Require Import Common DistDistModel DistDistSpec.
From Coq Require Import Sorted Permutation.
Open Scope Q_scope.

Lemma qlt_t a b : qlt a b = true -> a < b.
Proof. unfold qlt. intros H. apply Qnot_le_lt. intros C. apply Qle_bool_iff in C. rewrite C in H. discriminate. Qed.
Lemma qlt_f a b : qlt a b = false -> b <= a.
Proof. unfold qlt. intros H. apply Bool.negb_false_iff in H. apply Qle_bool_iff, H. Qed.
Lemma qlt_tt a b : a < b -> qlt a b = true.
Proof. intros H. destruct (qlt a b) eqn:E; [reflexivity|]. apply qlt_f in E. lra. Qed.
Lemma qlt_ff a b : b <= a -> qlt a b = false.
Proof. intros H. destruct (qlt a b) eqn:E; [|reflexivity]. apply qlt_t in E. lra. Qed.
Lemma qeqb_t a b : Qeq_bool a b = true -> a == b.
Proof. apply Qeq_bool_iff. Qed.
Lemma qeqb_ff a b : ~ a == b -> Qeq_bool a b = false.
Proof. intros H. destruct (Qeq_bool a b) eqn:E; [|reflexivity]. apply Qeq_bool_iff in E. contradiction. Qed.
Lemma qeqb_tt a b : a == b -> Qeq_bool a b = true.
Proof. apply Qeq_bool_iff. Qed.

Definition cnt (f : Q -> bool) (l : list Q) : Q := inject_Z (Z.of_nat (length (filter f l))).
Lemma cnt_snoc f l x : cnt f (l ++ [x]) == cnt f l + (if f x then 1 else 0).
Proof.
  unfold cnt. rewrite filter_app, app_length, Nat2Z.inj_add, inject_Z_plus. cbn [filter]. destruct (f x); cbn; reflexivity.
Qed.
Lemma cnt_app f l l' : cnt f (l ++ l') == cnt f l + cnt f l'.
Proof. unfold cnt. rewrite filter_app, app_length, Nat2Z.inj_add, inject_Z_plus. reflexivity. Qed.
Lemma cnt_zero f l : (forall y, In y l -> f y = false) -> cnt f l == 0.
Proof.
  intros H. unfold cnt. assert (E : filter f l = []).
  { induction l as [|a l IH]; [reflexivity|]. cbn. rewrite (H a) by (left; reflexivity). apply IH. intros; apply H; right; assumption. }
  rewrite E. reflexivity.
Qed.
Lemma cnt_nonneg f l : 0 <= cnt f l.
Proof. unfold cnt. change 0 with (inject_Z 0). rewrite <- Zle_Qle. lia. Qed.
Lemma cnt_mono f g l : (forall y, In y l -> f y = true -> g y = true) -> cnt f l <= cnt g l.
Proof.
  intros H. unfold cnt. rewrite <- Zle_Qle. induction l as [|a l IH]; [cbn; lia|]. cbn [filter].
  specialize (IH (fun y Hy => H y (or_intror Hy))). pose proof (H a (or_introl eq_refl)) as Ha.
  destruct (f a); [rewrite (Ha eq_refl); cbn [length]; lia|]. destruct (g a); cbn [length]; lia.
Qed.

(** ** merging *)
Record inv (np prev : Q) (pre : list Q) (acc : list (Q * Q)) : Prop := {
  inv_desc : StronglySorted (fun a b => b < a) (map fst acc);
  inv_in : forall x p, In (x, p) acc -> In x pre /\ p == cnt (fun y => Qeq_bool y x) pre * np;
  inv_all : forall y, In y pre -> exists x p, In (x, p) acc /\ x == y;
  inv_prev : exists v p r, acc = (v, p) :: r /\ v == prev;
  inv_top : forall y, In y pre -> y <= prev;
  inv_sum : qsum (map snd acc) == inject_Z (Z.of_nat (length pre)) * np }.

Lemma inv_step np prev pre acc x : prev <= x -> inv np prev pre acc ->
  match acc with
  | [] => False
  | (v, p) :: r => if qlt prev x then inv np x (pre ++ [x]) ((x, np) :: acc) else inv np x (pre ++ [x]) ((v, p + np) :: r)
  end.
Proof.
  intros Hx [Hd Hi Ha (v & p & r & -> & Hv) Ht Hs].
  assert (L : inject_Z (Z.of_nat (length (pre ++ [x]))) == inject_Z (Z.of_nat (length pre)) + 1)
    by (rewrite app_length, Nat2Z.inj_add, inject_Z_plus; reflexivity).
  destruct (qlt prev x) eqn:E.
  - apply qlt_t in E. constructor.
    + cbn [map fst]. constructor; [exact Hd|]. apply Forall_forall. intros y Hy. change (v :: map fst r) with (map fst ((v, p) :: r)) in Hy.
      apply in_map_iff in Hy as ([y' p'] & <- & Hy). cbn.
      apply Hi in Hy as [Hy _]. specialize (Ht _ Hy). lra.
    + intros y q [H|H].
      * inversion H; subst. split; [apply in_or_app; right; left; reflexivity|]. rewrite cnt_snoc, (qeqb_tt y y) by reflexivity.
        rewrite cnt_zero; [ring|]. intros z Hz. apply qeqb_ff. specialize (Ht _ Hz). lra.
      * destruct (Hi _ _ H) as [A B]. split; [apply in_or_app; left; exact A|]. rewrite cnt_snoc, (qeqb_ff x y), B; [ring|].
        specialize (Ht _ A). lra.
    + intros y Hy. apply in_app_iff in Hy as [Hy|[<-|[]]].
      * destruct (Ha _ Hy) as (x' & p' & H & H'). exists x', p'. split; [right; exact H|exact H'].
      * exists x, np. split; [left; reflexivity|reflexivity].
    + exists x, np. eexists. split; [reflexivity|reflexivity].
    + intros y Hy. apply in_app_iff in Hy as [Hy|[<-|[]]]; [|apply Qle_refl]. specialize (Ht _ Hy). lra.
    + cbn [map snd qsum] in *. rewrite Hs, L. ring.
  - apply qlt_f in E. assert (Ex : x == prev) by lra. cbn [map fst] in Hd. inversion Hd as [|? ? Hd1 Hd2]; subst. constructor.
    + cbn [map fst]. constructor; assumption.
    + intros y q [H|H].
      * inversion H; subst. destruct (Hi y p (or_introl eq_refl)) as [A B]. split; [apply in_or_app; left; exact A|].
        rewrite cnt_snoc, (qeqb_tt x y), B by lra. ring.
      * destruct (Hi _ _ (or_intror H)) as [A B]. split; [apply in_or_app; left; exact A|]. rewrite cnt_snoc, (qeqb_ff x y), B; [ring|].
        rewrite Forall_forall in Hd2. specialize (Hd2 y (in_map fst _ _ H)). cbn in Hd2. lra.
    + assert (Hv' : forall y, y == v -> exists x' p', In (x', p') ((v, p + np) :: r) /\ x' == y)
        by (intros y Hy; exists v, (p + np); split; [left; reflexivity|symmetry; exact Hy]).
      intros y Hy. apply in_app_iff in Hy as [Hy|[<-|[]]].
      * destruct (Ha _ Hy) as (x' & p' & [H|H] & H'); [inversion H; subst; apply Hv'; symmetry; exact H'|]. exists x', p'. split; [right; exact H|exact H'].
      * apply Hv'. lra.
    + exists v, (p + np), r. split; [reflexivity|]. lra.
    + intros y Hy. apply in_app_iff in Hy as [Hy|[<-|[]]]; [|apply Qle_refl]. specialize (Ht _ Hy). lra.
    + cbn [map snd qsum] in *. rewrite L. rewrite <- Qplus_assoc, (Qplus_comm np), Qplus_assoc, Hs. ring.
Qed.
Lemma merge_go_inv np l : forall prev pre acc, StronglySorted Qle l -> (forall y, In y l -> prev <= y) -> inv np prev pre acc ->
  exists prev' acc', merge_go np prev acc l = rev acc' /\ inv np prev' (pre ++ l) acc'.
Proof.
  induction l as [|x t IH]; intros prev pre acc Hs Hp I.
  - exists prev, acc. rewrite app_nil_r. split; [destruct acc; reflexivity|exact I].
  - inversion Hs as [|? ? Hs1 Hs2]; subst. rewrite Forall_forall in Hs2.
    pose proof (inv_step np prev pre acc x (Hp x (or_introl eq_refl)) I) as S1. destruct acc as [|[v p] r]; [contradiction|].
    cbn [merge_go]. replace (pre ++ x :: t) with ((pre ++ [x]) ++ t) by (rewrite <- app_assoc; reflexivity).
    destruct (qlt prev x); apply IH; auto.
Qed.
Lemma sorted_rev l : StronglySorted (fun a b => b < a) l -> StronglySorted Qlt (rev l).
Proof.
  induction 1 as [|x t Ht IH Hx]; [constructor|]. cbn. rewrite Forall_forall in Hx.
  assert (H : forall y, In y (rev t) -> y < x) by (intros y Hy; apply Hx, in_rev, Hy). clear - IH H.
  induction (rev t) as [|a u IHu]; cbn; [repeat constructor|]. inversion IH; subst. constructor.
  - apply IHu; [assumption|]. intros y Hy. apply H. right. exact Hy.
  - apply Forall_forall. intros y Hy. apply in_app_iff in Hy as [Hy|[<-|[]]]; [rewrite Forall_forall in H3; auto|]. apply H. left. reflexivity.
Qed.
Lemma map_rev' {A B} (f : A -> B) l : map f (rev l) = rev (map f l).
Proof. apply map_rev. Qed.
Lemma qsum_rev' l : qsum (rev l) == qsum l.
Proof. induction l as [|x t IH]; [reflexivity|]. cbn. rewrite qsum_app, IH. cbn. ring. Qed.
Lemma size_pos l : l <> [] -> 0 < size l.
Proof. intros H. unfold size. destruct l; [contradiction|]. unfold Qlt. cbn. lia. Qed.
Lemma share_cnt f l : l <> [] -> cnt f l * n_perc l == cnt f l / size l.
Proof. intros H. pose proof (size_pos l H). unfold n_perc. fold (size l). field. lra. Qed.

Lemma merge_ok l : l <> [] -> StronglySorted Qle l ->
  distribution_of l (merge_percentile l) /\ is_distribution (map snd (merge_percentile l)).
Proof.
  intros Hl Hs. unfold merge_percentile. set (np := n_perc l). destruct l as [|x t]; [contradiction|].
  inversion Hs as [|? ? Hs1 Hs2]; subst. rewrite Forall_forall in Hs2.
  assert (I0 : inv np x [x] [(x, np)]).
  { constructor; cbn [map fst snd qsum length].
    - repeat constructor.
    - intros y p [H|[]]. inversion H; subst. split; [left; reflexivity|]. unfold cnt. cbn [filter]. rewrite qeqb_tt by reflexivity. cbn. ring.
    - intros y [<-|[]]. exists x, np. split; [left; reflexivity|reflexivity].
    - exists x, np, []. split; reflexivity.
    - intros y [<-|[]]. apply Qle_refl.
    - change (inject_Z (Z.of_nat 1)) with 1. ring. }
  destruct (merge_go_inv np t x [x] [(x, np)] Hs1 Hs2 I0) as (prev' & acc' & E & [Hd Hi Ha _ _ Hsum]).
  cbn [app] in *. cbn [merge_go]. rewrite E. split; [split; [|split]|split].
  - rewrite map_rev. apply sorted_rev, Hd.
  - intros y p Hy. apply in_rev in Hy. destruct (Hi _ _ Hy) as [A B]. split; [exact A|]. rewrite B. unfold np.
    rewrite share_cnt by discriminate. reflexivity.
  - intros y Hy. destruct (Ha _ Hy) as (x' & p' & H & H'). exists x', p'. split; [apply in_rev in H; exact H|exact H'].
  - intros v Hv. rewrite map_rev in Hv. apply in_rev in Hv. apply in_map_iff in Hv as ([y p] & <- & Hy). cbn [snd].
    destruct (Hi _ _ Hy) as [A B]. rewrite B.
    assert (P : 0 < np) by (unfold np, n_perc; apply Qlt_shift_div_l; [apply (size_pos (x :: t)); discriminate|]; lra).
    assert (C : 1 <= cnt (fun z => Qeq_bool z y) (x :: t)).
    { unfold cnt. change 1 with (inject_Z 1). rewrite <- Zle_Qle. assert (In y (filter (fun z => Qeq_bool z y) (x :: t))).
      { apply filter_In. split; [exact A|]. apply qeqb_tt. reflexivity. }
      destruct (filter _ _); [contradiction|]. cbn. lia. }
    nra.
  - rewrite map_rev, qsum_rev', Hsum. unfold np, n_perc. fold (size (x :: t)). pose proof (size_pos (x :: t) ltac:(discriminate)). field. lra.
Qed.

(** ** shares of a distribution *)
Definition weigh (f : Q -> Q) (l : list Q) : Q := qsum (map f l).
Lemma weigh_zero f s : (forall y, In y s -> f y == 0) -> weigh f s == 0.
Proof.
  unfold weigh. induction s as [|y t IH]; intros H; [reflexivity|]. cbn [map qsum].
  rewrite (H y) by (left; reflexivity). rewrite IH by (intros; apply H; right; assumption). ring.
Qed.
Lemma weigh_one (f : Q -> Q) z s : (forall a b, a == b -> f a == f b) -> StronglySorted Qlt s -> (exists y, In y s /\ y == z) ->
  weigh (fun y => f y * (if Qeq_bool z y then 1 else 0)) s == f z.
Proof.
  intros Hf. unfold weigh. induction 1 as [|y t Ht IH Hy]; intros (y' & Hin & E); [destruct Hin|]. rewrite Forall_forall in Hy.
  cbn [map qsum]. destruct Hin as [->|Hin].
  - rewrite (qeqb_tt z y') by (symmetry; exact E). fold (weigh (fun y => f y * (if Qeq_bool z y then 1 else 0)) t). rewrite weigh_zero.
    + rewrite (Hf _ _ E). ring.
    + intros w Hw. rewrite qeqb_ff; [ring|]. specialize (Hy w Hw). lra.
  - rewrite IH by (exists y'; split; assumption). rewrite qeqb_ff; [ring|]. specialize (Hy y' Hin). lra.
Qed.
Lemma weigh_plus f g s : weigh (fun y => f y + g y) s == weigh f s + weigh g s.
Proof. unfold weigh. induction s as [|y t IH]; [reflexivity|]. cbn [map qsum]. rewrite IH. ring. Qed.
Lemma weigh_ext f g s : (forall y, In y s -> f y == g y) -> weigh f s == weigh g s.
Proof.
  unfold weigh. induction s as [|y t IH]; intros H; [reflexivity|]. cbn [map qsum].
  rewrite (H y) by (left; reflexivity). rewrite IH by (intros; apply H; right; assumption). reflexivity.
Qed.
Lemma cnt_cons f x l : cnt f (x :: l) == (if f x then 1 else 0) + cnt f l.
Proof. change (x :: l) with ([x] ++ l). rewrite cnt_app. unfold cnt at 1. cbn [filter]. destruct (f x); cbn; reflexivity. Qed.
Lemma weigh_counts (f : Q -> Q) s l : (forall a b, a == b -> f a == f b) -> StronglySorted Qlt s ->
  (forall z, In z l -> exists y, In y s /\ y == z) ->
  weigh (fun y => f y * cnt (fun z => Qeq_bool z y) l) s == weigh f l.
Proof.
  intros Hf Hs. induction l as [|z t IH]; intros H.
  - cbn. apply weigh_zero. intros y _. unfold cnt. cbn. ring.
  - unfold weigh at 2. cbn [map qsum]. fold (weigh f t). rewrite <- IH by (intros; apply H; right; assumption).
    rewrite <- (weigh_one f z s Hf Hs) by (apply H; left; reflexivity). rewrite <- weigh_plus. apply weigh_ext. intros y Hy.
    rewrite cnt_cons. destruct (Qeq_bool z y); ring.
Qed.
Lemma weigh_indicator (g : Q -> bool) l : weigh (fun y => if g y then 1 else 0) l == cnt g l.
Proof. unfold weigh. induction l as [|x t IH]; [reflexivity|]. cbn [map qsum]. rewrite cnt_cons, IH. destruct (g x); ring. Qed.
Lemma dist_share l d x : l <> [] -> distribution_of l d ->
  qsum (map (fun e => if Qle_bool (fst e) x then snd e else 0) d) == share_le l x.
Proof.
  intros Hl (Hs & Hi & Ha). pose proof (size_pos l Hl) as Hp.
  assert (E : qsum (map (fun e => if Qle_bool (fst e) x then snd e else 0) d) * size l
              == weigh (fun y => (if Qle_bool y x then 1 else 0) * cnt (fun z => Qeq_bool z y) l) (map fst d)).
  { clear Hs Ha. unfold weigh. rewrite map_map. induction d as [|[y p] t IH]; [cbn; ring|]. cbn [map qsum fst snd].
    rewrite Qmult_plus_distr_l. rewrite IH by (intros; apply Hi; right; assumption). destruct (Hi y p (or_introl eq_refl)) as [_ B].
    unfold share_eq in B. fold (cnt (fun z => Qeq_bool z y) l) in B. destruct (Qle_bool y x); [rewrite B; field; lra|ring]. }
  unfold share_le. fold (cnt (fun y => Qle_bool y x) l). rewrite <- weigh_indicator.
  rewrite <- (weigh_counts (fun y => if Qle_bool y x then 1 else 0) (map fst d) l).
  - rewrite <- E. field. lra.
  - intros a b Hab. destruct (Qle_bool a x) eqn:A, (Qle_bool b x) eqn:B; try reflexivity.
    + apply Qle_bool_iff in A. assert (b <= x) by lra. apply Qle_bool_iff in H. congruence.
    + apply Qle_bool_iff in B. assert (a <= x) by lra. apply Qle_bool_iff in H. congruence.
  - exact Hs.
  - intros z Hz. destruct (Ha z Hz) as (y & p & H & H'). exists y. split; [apply (in_map fst _ _ H)|exact H'].
Qed.

Lemma ssorted_nth s : StronglySorted Qlt s -> forall i j, (i < j)%nat -> (j < length s)%nat -> nth i s 0 < nth j s 0.
Proof.
  induction 1 as [|x t Ht IH Hx]; intros i j Hij Hj; [cbn in Hj; lia|]. rewrite Forall_forall in Hx. cbn [length] in Hj.
  destruct j; [lia|]. cbn [nth]. destruct i; [apply Hx, nth_In; lia|apply IH; lia].
Qed.
Lemma ssorted_le s i j : StronglySorted Qlt s -> (i <= j)%nat -> (j < length s)%nat -> nth i s 0 <= nth j s 0.
Proof.
  intros H Hij Hj. destruct (Nat.eq_dec i j) as [->|]; [apply Qle_refl|]. apply Qlt_le_weak, ssorted_nth; [exact H|lia|exact Hj].
Qed.
Lemma cumsum_nth l : forall s i, (i < length l)%nat -> nth i (cumsum_from s l) 0 == s + qsum (firstn (S i) l).
Proof.
  induction l as [|x t IH]; intros s i Hi; [cbn in Hi; lia|]. cbn [cumsum_from length] in *. destruct i; [cbn; ring|].
  cbn [nth]. rewrite IH by lia. rewrite (firstn_cons (S i) x t). cbn [qsum]. ring.
Qed.
Lemma prefix_indicator (x : Q) d i : StronglySorted Qlt (map fst d) -> (i < length d)%nat ->
  nth i (map fst d) 0 <= x -> (forall j, (i < j < length d)%nat -> x < nth j (map fst d) 0) ->
  qsum (map (fun e => if Qle_bool (fst e) x then snd e else 0) d) == qsum (firstn (S i) (map snd d)).
Proof.
  revert i. induction d as [|[y p] t IH]; intros i Hs Hi Hx Ha; [cbn in Hi; lia|]. cbn [map fst snd qsum length] in *.
  inversion Hs as [|? ? H1 H2]; subst. rewrite Forall_forall in H2.
  assert (Hy : y <= x).
  { destruct i; [exact Hx|]. apply Qle_trans with (2 := Hx). apply Qlt_le_weak, H2. cbn. apply nth_In. rewrite map_length. lia. }
  rewrite (proj2 (Qle_bool_iff _ _) Hy). rewrite (firstn_cons i p). cbn [qsum]. apply Qplus_inj_l. destruct i.
  - cbn [firstn qsum]. clear IH Hs H1 H2 Hi Hx. 
    assert (Hall : forall e, In e t -> x < fst e).
    { intros e He. apply (In_nth _ _ (0%Q,0%Q)) in He as (j & Hj & E). specialize (Ha (S j) ltac:(lia)). cbn [nth] in Ha.
      rewrite (nth_indep (map fst t) 0 (fst (0%Q,0%Q))) in Ha by (rewrite map_length; lia). rewrite map_nth, E in Ha. exact Ha. }
    clear Ha. induction t as [|e t IHt]; [reflexivity|]. cbn [map qsum]. rewrite IHt by (intros; apply Hall; right; assumption).
    specialize (Hall e (or_introl eq_refl)). destruct (Qle_bool (fst e) x) eqn:E; [apply Qle_bool_iff in E; lra|ring].
  - apply IH; [exact H1|lia|exact Hx|]. intros j Hj. apply (Ha (S j)). lia.
Qed.

Lemma first_above_spec x l : forall k,
  match first_above x l k with
  | None => forall y, In y l -> y <= x
  | Some n => (k <= n)%nat /\ (n - k < length l)%nat /\ x < nth (n - k) l 0 /\ forall j, (j < n - k)%nat -> nth j l 0 <= x
  end.
Proof.
  induction l as [|y t IH]; intros k; cbn [first_above]; [intros y []|]. destruct (qlt x y) eqn:E.
  - apply qlt_t in E. rewrite Nat.sub_diag. cbn [length nth]. repeat split; try lia. exact E.
  - apply qlt_f in E. specialize (IH (S k)). destruct (first_above x t (S k)).
    + destruct IH as (A & B & C & D). replace (n - k)%nat with (S (n - S k)) by lia. cbn [length nth]. repeat split; try lia; [exact C|].
      intros j Hj. destruct j; [exact E|]. apply D. lia.
    + intros z [<-|Hz]; [exact E|apply IH, Hz].
Qed.
Lemma first_other_spec y l : match first_other y l with Some z => In z l | None => True end.
Proof. induction l as [|z t IH]; cbn [first_other]; [exact I|]. destruct (Qeq_bool z y); [|left; reflexivity]. destruct (first_other y t); [right; exact IH|exact I]. Qed.
Lemma qdiv_neg a b : a < 0 -> 0 < b -> a / b < 0.
Proof. intros. apply Qlt_shift_div_r; lra. Qed.
Lemma qdiv_nonneg a b : 0 <= a -> 0 < b -> 0 <= a / b.
Proof. intros. apply Qle_shift_div_l; lra. Qed.
Lemma qdiv_ext a a' b b' : a == a' -> b == b' -> a / b == a' / b'.
Proof. intros -> ->. reflexivity. Qed.

Lemma dist_nonempty l d : l <> [] -> distribution_of l d -> d <> [].
Proof. intros Hl (_ & _ & Ha). destruct l as [|y t]; [contradiction|]. destruct (Ha y (or_introl eq_refl)) as (x & p & H & _). intros ->. destruct H. Qed.

(** the projected values are the interpolated distribution function *)
Lemma projected_ok l d n : l <> [] -> distribution_of l d -> length l = n ->
  forall s, StronglySorted Qlt s ->
  length (projected (map fst d) (cumsum (map snd d)) (1 / inject_Z (Z.of_nat n)) s) = length s /\
  forall k x, nth_error s k = Some x -> interpolated l x (nth k (projected (map fst d) (cumsum (map snd d)) (1 / inject_Z (Z.of_nat n)) s) 0).
Proof.
  intros Hl Hd Hn. pose proof (size_pos l Hl) as Hp. pose proof (dist_nonempty l d Hl Hd) as Hne. pose proof (fun x => dist_share l d x Hl Hd) as Hsh. pose proof Hd as (Hs & Hi & Ha).
  replace (inject_Z (Z.of_nat n)) with (size l) by (unfold size; congruence). set (np := 1 / size l).
  assert (Hnp : 0 < np) by (apply Qlt_shift_div_l; lra).
  assert (Hmem : forall j, (j < length d)%nat -> In (nth j (map fst d) 0) l).
  { intros j Hj. assert (H : In (nth j d (0%Q,0%Q)) d) by (apply nth_In, Hj). destruct (nth j d (0%Q,0%Q)) as [y p] eqn:E.
    rewrite (nth_indep _ 0 (fst (0%Q,0%Q))) by (rewrite map_length; lia). rewrite map_nth, E. apply (Hi _ _ H). }
  assert (Hval : forall y, In y l -> exists j, (j < length d)%nat /\ nth j (map fst d) 0 == y).
  { intros y Hy. destruct (Ha y Hy) as (x & p & H & Hx). apply (In_nth _ _ (0%Q,0%Q)) in H as (j & Hj & E). exists j. split; [exact Hj|].
    rewrite (nth_indep _ 0 (fst (0%Q,0%Q))) by (rewrite map_length; lia). rewrite map_nth, E. exact Hx. }
  induction s as [|x t IH]; intros Hst; [split; [reflexivity|intros [|k] x H; discriminate]|].
  inversion Hst as [|? ? Ht Hx]; subst. specialize (IH Ht) as [IHl IHk]. rewrite Forall_forall in Hx. cbn [projected].
  pose proof (first_above_spec x (map fst d) 0) as F. destruct (first_above x (map fst d) 0) as [[|i]|].
  - (* below everything *)
    destruct F as (_ & F1 & F2 & _). rewrite map_length in F1. cbn [Nat.sub] in *. cbn [length]. split; [rewrite IHl; reflexivity|].
    intros [|k] z E; [|apply (IHk k z E)]. injection E as <-. cbn [nth]. left. split.
    + intros y Hy. destruct (Hval y Hy) as (j & Hj & Ey). pose proof (ssorted_le _ 0 j Hs ltac:(lia) ltac:(rewrite map_length; lia)). lra.
    + pose proof (first_other_spec (nth 0 (map fst d) 0) (tl (map fst d))) as Fo. destruct (first_other _ _) as [z|]; [|reflexivity].
      assert (Hz : nth 0 (map fst d) 0 < z).
      { destruct (map fst d) as [|a u]; [destruct Fo|]. cbn [tl nth] in *. inversion Hs as [|? ? ? Hu]; subst. rewrite Forall_forall in Hu. apply Hu, Fo. }
      rewrite qlt_tt; [reflexivity|]. assert (np * (x - nth 0 (map fst d) 0) / (z - nth 0 (map fst d) 0) < 0).
      { apply qdiv_neg; [nra|lra]. } lra.
  - (* between two *)
    destruct F as (_ & F1 & F2 & F3). rewrite map_length in F1. rewrite Nat.sub_0_r in *. specialize (F3 i ltac:(lia)).
    cbn [length]. split; [rewrite IHl; reflexivity|].
    intros [|k] z E; [|apply (IHk k z E)]. injection E as <-. cbn [nth].
    pose proof (ssorted_nth _ Hs i (S i) ltac:(lia) ltac:(rewrite map_length; lia)) as Hgap.
    assert (Hc : nth i (cumsum (map snd d)) 0 == share_le l x).
    { unfold cumsum. rewrite cumsum_nth by (rewrite map_length; lia). rewrite <- Hsh. rewrite (prefix_indicator x d i Hs ltac:(lia) F3).
      - ring.
      - intros j Hj. pose proof (ssorted_le _ (S i) j Hs ltac:(lia) ltac:(rewrite map_length; lia)). lra. }
    assert (Hc0 : 0 <= share_le l x) by (unfold share_le; apply qdiv_nonneg; [apply (cnt_nonneg (fun y => Qle_bool y x) l)|exact Hp]).
    set (a := nth i (map fst d) 0) in *. set (b := nth (S i) (map fst d) 0) in *.
    assert (Hfr : 0 <= np * (x - a) / (b - a)) by (apply qdiv_nonneg; [nra|lra]).
    rewrite qlt_ff by lra. right; right. exists a, b. repeat split.
    + apply Hmem. lia.
    + apply Hmem. lia.
    + exact F3.
    + exact F2.
    + intros y Hy. destruct (Hval y Hy) as (j & Hj & Ey). destruct (Nat.le_gt_cases j i) as [Hji|Hji].
      * left. pose proof (ssorted_le _ j i Hs Hji ltac:(rewrite map_length; lia)). fold a in H. lra.
      * right. pose proof (ssorted_le _ (S i) j Hs ltac:(lia) ltac:(rewrite map_length; lia)). fold b in H. lra.
    + rewrite Hc. apply Qplus_inj_l. unfold np. field. split; lra.
  - (* above everything, from here on *)
    assert (HR : forall y z, In y l -> x <= z -> y <= z).
    { intros y z Hy Hz. destruct (Hval y Hy) as (j & Hj & Ey). specialize (F (nth j (map fst d) 0) ltac:(apply nth_In; rewrite map_length; exact Hj)). lra. }
    change (1 :: repeat 1 (length t)) with (repeat 1 (S (length t))). rewrite repeat_length. split; [reflexivity|].
    intros k z E. right; left. split.
    + intros y Hy. apply (HR y z Hy). destruct k; [injection E as <-; apply Qle_refl|]. apply Qlt_le_weak, Hx. eapply nth_error_In, E.
    + assert (k < S (length t))%nat by (change (S (length t)) with (length (x :: t)); apply nth_error_Some; congruence).
      rewrite (nth_indep _ 0 1) by (rewrite repeat_length; lia); rewrite nth_repeat; reflexivity.
Qed.

Lemma cnt_strict f g l b : (forall y, In y l -> f y = true -> g y = true) -> In b l -> f b = false -> g b = true -> cnt f l + 1 <= cnt g l.
Proof.
  intros H Hb Hf Hg. apply in_split in Hb as (u & w & ->). rewrite !cnt_app, !cnt_cons, Hf, Hg.
  pose proof (cnt_mono f g u (fun y Hy => H y (in_or_app _ _ _ (or_introl Hy)))).
  pose proof (cnt_mono f g w (fun y Hy => H y (in_or_app u (b :: w) y (or_intror (or_intror Hy))))). lra.
Qed.
Lemma qle_b a b : a <= b -> Qle_bool a b = true.
Proof. apply Qle_bool_iff. Qed.
Lemma qle_bf a b : b < a -> Qle_bool a b = false.
Proof. intros H. destruct (Qle_bool a b) eqn:E; [apply Qle_bool_iff in E; lra|reflexivity]. Qed.
Lemma cnt_le_size f l : cnt f l <= size l.
Proof. unfold size. assert (E : filter (fun _ => true) l = l) by (induction l; cbn; congruence). rewrite <- E at 2. apply (cnt_mono f (fun _ => true)). reflexivity. Qed.
Lemma qdiv_le a b c : 0 < c -> a <= b -> a / c <= b / c.
Proof. intros. apply Qmult_le_r with (z := c); [assumption|]. rewrite !(Qmult_comm _ c), !Qmult_div_r by lra. assumption. Qed.

(** the value of the interpolation, scaled by the number of entries *)
Lemma frac_bounds a b x : a <= x -> x < b -> 0 <= (x - a) / (b - a) /\ (x - a) / (b - a) < 1.
Proof. intros. split; [apply Qle_shift_div_l; lra|apply Qlt_shift_div_r; lra]. Qed.
Lemma interp_scaled l a b x v : l <> [] -> v == share_le l x + (x - a) / (b - a) / size l -> a < b ->
  v * size l == cnt (fun y => Qle_bool y x) l + (x - a) / (b - a).
Proof.
  intros Hl -> Hab. pose proof (size_pos l Hl). unfold share_le. fold (cnt (fun y => Qle_bool y x) l). field. split; lra.
Qed.
Lemma interp_bounds l x v : l <> [] -> interpolated l x v -> 0 <= v /\ v <= 1 /\ ((exists y, In y l /\ x < y) -> v < 1).
Proof.
  intros Hl [[A E]|[[A E]|(a & b & Ha & Hb & Hax & Hxb & Hg & E)]].
  - rewrite E. repeat split; try lra. 
  - rewrite E. repeat split; try lra. intros (y & Hy & H). specialize (A y Hy). lra.
  - pose proof (size_pos l Hl) as Hp. apply interp_scaled in E; [|exact Hl|lra]. destruct (frac_bounds a b x Hax Hxb) as [F0 F1].
    pose proof (cnt_nonneg (fun y => Qle_bool y x) l) as C0.
    assert (C1 : cnt (fun y => Qle_bool y x) l + 1 <= size l).
    { apply Qle_trans with (cnt (fun _ => true) l); [|apply cnt_le_size].
      apply (cnt_strict _ _ l b); [reflexivity|exact Hb|apply qle_bf, Hxb|reflexivity]. }
    set (q := (x - a) / (b - a)) in *. clearbody q. repeat split; [| |intros _]; nra.
Qed.
Lemma interp_mono l x x' v v' : l <> [] -> x <= x' -> interpolated l x v -> interpolated l x' v' -> v <= v'.
Proof.
  intros Hl Hx I I'. pose proof (size_pos l Hl) as Hp. destruct (interp_bounds l x v Hl I) as (B0 & B1 & _).
  destruct (interp_bounds l x' v' Hl I') as (B0' & B1' & _).
  destruct I as [[A E]|[[A E]|(a & b & Ha & Hb & Hax & Hxb & Hg & E)]]; [rewrite E; exact B0'| |];
  destruct I' as [[A' E']|[[A' E']|(a' & b' & Ha' & Hb' & Hax' & Hxb' & Hg' & E')]]; try (rewrite E'; exact B1).
  - destruct l as [|y t]; [contradiction|]. specialize (A y (or_introl eq_refl)). specialize (A' y (or_introl eq_refl)). lra.
  - specialize (A b' Hb'). lra.
  - specialize (A' a Ha). lra.
  - apply interp_scaled in E; [|exact Hl|lra]. apply interp_scaled in E'; [|exact Hl|lra].
    destruct (frac_bounds a b x Hax Hxb) as [F0 F1]. destruct (frac_bounds a' b' x' Hax' Hxb') as [F0' F1'].
    apply Qmult_le_r with (z := size l); [exact Hp|]. rewrite E, E'.
    pose proof (cnt_mono (fun y => Qle_bool y x) (fun y => Qle_bool y x') l) as M. cbn beta in M.
    assert (M0 : forall y, In y l -> Qle_bool y x = true -> Qle_bool y x' = true) by (intros y _ H; apply Qle_bool_iff in H; apply qle_b; lra).
    specialize (M M0). destruct (Hg a' Ha') as [G|G].
    + assert (Ea : a == a') by (destruct (Hg' a Ha); lra). assert (Eb : b == b') by (destruct (Hg' b Hb), (Hg b' Hb'); lra).
      assert ((x - a) / (b - a) <= (x' - a') / (b' - a')).
      { rewrite <- (qdiv_ext (x' - a) (x' - a') (b - a) (b' - a')) by lra. apply qdiv_le; lra. }
      lra.
    + pose proof (cnt_strict _ _ l b M0 Hb (qle_bf _ _ Hxb) ltac:(apply qle_b; lra)) as C. cbn beta in C. lra.
Qed.
Lemma interp_unique l x x' v v' : l <> [] -> x == x' -> interpolated l x v -> interpolated l x' v' -> v == v'.
Proof. intros Hl Hx I I'. pose proof (interp_mono l x x' v v' Hl ltac:(lra) I I'). pose proof (interp_mono l x' x v' v Hl ltac:(lra) I' I). lra. Qed.

(** ** differences *)
Lemma steps_prefix l : forall prev k, (k < length l)%nat -> qsum (firstn (S k) (steps_of prev l)) == nth k l 0 - prev.
Proof.
  induction l as [|x t IH]; intros prev k Hk; [cbn in Hk; lia|]. cbn [steps_of length] in *. rewrite (firstn_cons k). cbn [qsum].
  destruct k; [cbn; ring|]. rewrite IH by lia. cbn [nth]. ring.
Qed.
Lemma differences_prefix l k : (k < length l)%nat -> qsum (firstn (S k) (differences l)) == nth k l 0.
Proof.
  destruct l as [|x t]; intros Hk; [cbn in Hk; lia|]. cbn [differences length] in *. rewrite (firstn_cons k). cbn [qsum].
  destruct k; [cbn; ring|]. rewrite steps_prefix by lia. cbn [nth]. ring.
Qed.
Lemma steps_length l : forall p, length (steps_of p l) = length l.
Proof. induction l; intros; cbn; [reflexivity|]. rewrite IHl. reflexivity. Qed.
Lemma differences_length l : length (differences l) = length l.
Proof. destruct l; cbn; [reflexivity|]. rewrite steps_length. reflexivity. Qed.
Lemma prefix_step l k : (k < length l)%nat -> prefix_sum (S k) l == prefix_sum k l + nth k l 0.
Proof.
  unfold prefix_sum. revert k. induction l as [|x t IH]; intros k Hk; [cbn in Hk; lia|]. rewrite (firstn_cons k). destruct k; [cbn; ring|].
  rewrite (firstn_cons k). cbn [qsum nth length] in *. rewrite IH by lia. ring.
Qed.
Lemma prefix_all l k : (length l <= k)%nat -> prefix_sum k l = qsum l.
Proof. intros H. unfold prefix_sum. rewrite firstn_all2 by exact H. reflexivity. Qed.
Lemma prefix_zero l : prefix_sum 0 l = 0.
Proof. reflexivity. Qed.

Lemma project_ok l d n s : l <> [] -> distribution_of l d -> length l = n -> StronglySorted Qlt s ->
  projection_of l s (differences (projected (map fst d) (cumsum (map snd d)) (1 / inject_Z (Z.of_nat n)) s)).
Proof.
  intros Hl Hd Hn Hs. destruct (projected_ok l d n Hl Hd Hn s Hs) as [L K]. set (v := projected _ _ _ _) in *. clearbody v.
  split; [rewrite differences_length; exact L|]. assert (P : forall k x, nth_error s k = Some x -> interpolated l x (prefix_sum (S k) (differences v))).
  { intros k x E. assert (Hk : (k < length v)%nat) by (rewrite L; apply nth_error_Some; congruence). specialize (K k x E).
    pose proof (differences_prefix v k Hk) as D. unfold prefix_sum. unfold interpolated in *.
    destruct K as [[A B]|[[A B]|(a & b & H1 & H2 & H3 & H4 & H5 & B)]]; [left|right; left|right; right; exists a, b]; rewrite D; repeat (split; [assumption|]); assumption. }
  split; [|exact P]. intros w Hw. apply (In_nth _ _ 0) in Hw as (k & Hk & <-).
  pose proof (prefix_step _ k Hk) as St. rewrite differences_length, L in Hk.
  destruct (nth_error s k) as [x|] eqn:E; [|apply nth_error_None in E; lia]. pose proof (P k x E) as Pk.
  destruct k.
  - rewrite prefix_zero in St. destruct (interp_bounds _ _ _ Hl Pk). lra.
  - destruct (nth_error s k) as [x'|] eqn:E'; [|apply nth_error_None in E'; lia]. pose proof (P k x' E') as Pk'.
    assert (x' <= x). { pose proof (ssorted_le s k (S k) Hs ltac:(lia) Hk). rewrite (nth_error_nth _ _ 0 E), (nth_error_nth _ _ 0 E') in H. exact H. }
    pose proof (interp_mono l x' x _ _ Hl H Pk' Pk). lra.
Qed.
