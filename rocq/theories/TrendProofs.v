(** Lemmas about the trend detector. *)
From Verif Require Import Common TrendModel TrendSpec.
From Coq Require Import String Sorted Permutation.
Open Scope Z_scope.

(** ** finite sums of integers *)
Lemma total_ext n f g : (forall i, (i < n)%nat -> f i = g i) -> total n f = total n g.
Proof. induction n as [|n IH]; intros H; cbn; [reflexivity|]. rewrite IH by (intros; apply H; lia). rewrite H by lia. reflexivity. Qed.
Lemma total_first n f : total (S n) f = f 0%nat + total n (fun i => f (S i)).
Proof. induction n as [|n IH]; [cbn; ring|]. change (total (S (S n)) f) with (total (S n) f + f (S n)). rewrite IH. cbn [total]. ring. Qed.
Lemma total_zero n f : (forall i, (i < n)%nat -> f i = 0) -> total n f = 0.
Proof. induction n as [|n IH]; intros H; cbn; [reflexivity|]. rewrite IH by (intros; apply H; lia). rewrite H by lia. reflexivity. Qed.
Lemma total_le n f g : (forall i, (i < n)%nat -> f i <= g i) -> total n f <= total n g.
Proof. induction n as [|n IH]; intros H; cbn; [lia|]. specialize (IH (fun i Hi => H i ltac:(lia))). specialize (H n ltac:(lia)). lia. Qed.
Lemma total_opp n f : total n (fun i => - f i) = - total n f.
Proof. induction n as [|n IH]; cbn; [reflexivity|]. rewrite IH. ring. Qed.
Lemma total_eq n f g : (forall i, (i < n)%nat -> f i <= g i) -> total n f = total n g -> forall i, (i < n)%nat -> f i = g i.
Proof.
  induction n as [|n IH]; intros H E i Hi; [lia|]. cbn in E. pose proof (total_le n f g (fun i Hi => H i ltac:(lia))) as L. pose proof (H n ltac:(lia)).
  destruct (Nat.eq_dec i n) as [->|N]; [lia|]. apply IH; [intros; apply H; lia|lia|lia].
Qed.
Lemma total_list l : total (List.length l) (fun i => nth i l 0) = zsum l.
Proof. induction l as [|x l IH]; [reflexivity|]. cbn [List.length]. rewrite total_first. cbn [nth zsum]. rewrite IH. reflexivity. Qed.
Lemma total_map {A} (f : A -> Z) l d : total (List.length l) (fun i => f (nth i l d)) = zsum (map f l).
Proof. induction l as [|x l IH]; [reflexivity|]. cbn [List.length]. rewrite total_first. cbn [nth zsum map]. rewrite IH. reflexivity. Qed.
Lemma sumz_zsum {A} (f : A -> Z) l : sumz f l = zsum (map f l).
Proof. unfold sumz. apply total_list. Qed.
Lemma zsum_app a b : zsum (a ++ b) = zsum a + zsum b.
Proof. induction a as [|x a IH]; cbn; [reflexivity|]. rewrite IH. ring. Qed.

(** ** the score *)
Lemma sgn_sign x y : sgn x y = sign (y - x)%Q.
Proof.
  unfold sgn, sign. destruct (Qcompare_spec y x) as [E|L|G].
  - assert (H : (y - x == 0)%Q) by (rewrite E; ring). unfold Qeq in H. cbn [Qnum Qden] in H. assert (Z0 : Qnum (y - x) = 0) by lia. rewrite Z0. reflexivity.
  - assert (H : (y - x < 0)%Q) by lra. unfold Qlt in H. cbn [Qnum Qden] in H. rewrite Z.sgn_neg by lia. reflexivity.
  - assert (H : (0 < y - x)%Q) by lra. unfold Qlt in H. cbn [Qnum Qden] in H. rewrite Z.sgn_pos by lia. reflexivity.
Qed.
Lemma score_kendall x : score x = kendall x.
Proof.
  induction x as [|x l IH]; [reflexivity|]. unfold kendall. cbn [List.length score]. rewrite total_first. f_equal.
  - rewrite total_first. cbn [Nat.ltb Nat.leb]. rewrite Z.add_0_l. change (nth 0 (x :: l) 0%Q) with x.
    rewrite <- (total_map (sgn x) l 0%Q). apply total_ext. intros i Hi. cbn [Nat.ltb Nat.leb nth]. apply sgn_sign.
  - rewrite IH. unfold kendall. apply total_ext. intros i Hi. rewrite total_first.
    replace (S i <? 0)%nat with false by reflexivity. rewrite Z.add_0_l. apply total_ext. intros j Hj. reflexivity.
Qed.

(** ** the variance *)
Definition proper (g : Q -> Z) : Prop := forall x y, (x == y)%Q -> g x = g y.
Lemma seen_proper l : proper (fun x => times_seen x l).
Proof.
  intros x y E. unfold times_seen. do 2 f_equal. induction l as [|z l IH]; [reflexivity|]. cbn.
  replace (Qeq_bool y z) with (Qeq_bool x z); [rewrite IH; reflexivity|]. apply eq_true_iff_eq. rewrite !Qeq_bool_iff, E. reflexivity.
Qed.
Lemma seen_cons u x l : times_seen u (x :: l) = (if Qeq_bool u x then 1 else 0) + times_seen u l.
Proof. unfold times_seen. cbn. destruct (Qeq_bool u x); cbn [List.length]; lia. Qed.
Lemma filter_twice {A} (f : A -> bool) l : filter f (filter (fun y => negb (f y)) l) = [].
Proof. induction l as [|x l IH]; [reflexivity|]. cbn. destruct (f x) eqn:E; cbn; [exact IH|rewrite E; exact IH]. Qed.
Lemma filter_length_le {A} (f : A -> bool) l : (List.length (filter f l) <= List.length l)%nat.
Proof. induction l as [|x l IH]; cbn; [lia|]. destruct (f x); cbn; lia. Qed.
Lemma filter_comm {A} (f g : A -> bool) l : filter f (filter g l) = filter g (filter f l).
Proof. induction l as [|x l IH]; [reflexivity|]. cbn. destruct (f x) eqn:E, (g x) eqn:E'; cbn; rewrite ?E, ?E', IH; reflexivity. Qed.
Lemma unique_one x l : List.length (filter (Qeq_bool x) (uniqueq l)) = (if (times_seen x l =? 0)%Z then 0 else 1)%nat.
Proof.
  induction l as [|y l IH]; [reflexivity|]. cbn [uniqueq filter]. rewrite seen_cons.
  assert (P : 0 <= times_seen x l) by (unfold times_seen; lia).
  destruct (Qeq_bool x y) eqn:E.
  - replace (1 + times_seen x l =? 0) with false by (symmetry; apply Z.eqb_neq; lia). cbn [List.length]. f_equal.
    replace (filter (Qeq_bool x) (filter (fun z => negb (Qeq_bool y z)) (uniqueq l))) with (@nil Q); [reflexivity|].
    symmetry. rewrite (filter_ext (Qeq_bool x) (Qeq_bool y)); [apply filter_twice|]. intros z. apply eq_true_iff_eq. apply Qeq_bool_iff in E. rewrite !Qeq_bool_iff, E. reflexivity.
  - rewrite Z.add_0_l, <- IH. f_equal. rewrite filter_comm.
    assert (K : forall z, In z (filter (Qeq_bool x) (uniqueq l)) -> negb (Qeq_bool y z) = true).
    { intros z I. apply filter_In in I as [_ I]. apply negb_true_iff. destruct (Qeq_bool y z) eqn:E'; [|reflexivity].
      apply Qeq_bool_iff in E', I. assert (C : Qeq_bool x y = true) by (apply Qeq_bool_iff; rewrite I, E'; reflexivity). congruence. }
    clear IH. induction (filter (Qeq_bool x) (uniqueq l)) as [|z t IHt]; [reflexivity|]. cbn [filter]. rewrite (K z) by (left; reflexivity). f_equal. apply IHt. intros; apply K; right; assumption.
Qed.
Lemma zsum_split {A} (f : A -> bool) (g : A -> Z) l :
  zsum (map g l) = zsum (map g (filter f l)) + zsum (map g (filter (fun x => negb (f x)) l)).
Proof. induction l as [|x l IH]; [reflexivity|]. cbn. destruct (f x); cbn; rewrite IH; ring. Qed.
Lemma zsum_ext {A} (f g : A -> Z) l : (forall x, In x l -> f x = g x) -> zsum (map f l) = zsum (map g l).
Proof. intros H. f_equal. apply map_ext_in, H. Qed.
Lemma zsum_const {A} (g : A -> Z) c l : (forall x, In x l -> g x = c) -> zsum (map g l) = Z.of_nat (List.length l) * c.
Proof. induction l as [|x l IH]; intros H; [reflexivity|]. cbn [map zsum List.length]. rewrite (H x) by (left; reflexivity). rewrite IH by (intros; apply H; right; assumption). lia. Qed.
Lemma groups g l : proper g -> zsum (map g l) = zsum (map (fun u => times_seen u l * g u) (uniqueq l)).
Proof.
  intros Pg. induction l as [|x l IH]; [reflexivity|]. cbn [map zsum uniqueq].
  rewrite seen_cons. replace (Qeq_bool x x) with true by (symmetry; apply Qeq_bool_iff; reflexivity).
  rewrite (zsum_ext (fun u => times_seen u (x :: l) * g u) (fun u => times_seen u l * g u)).
  - rewrite IH. rewrite (zsum_split (Qeq_bool x) _ (uniqueq l)).
    rewrite (zsum_const _ (times_seen x l * g x) (filter (Qeq_bool x) (uniqueq l))), unique_one.
    + destruct (times_seen x l =? 0) eqn:E; [apply Z.eqb_eq in E; rewrite E|]; ring.
    + intros u I. apply filter_In in I as [_ I]. apply Qeq_bool_iff in I. rewrite (seen_proper l x u I), (Pg x u I). reflexivity.
  - intros u I. apply filter_In in I as [_ I]. apply negb_true_iff in I. rewrite seen_cons.
    replace (Qeq_bool u x) with false; [ring|]. symmetry. destruct (Qeq_bool u x) eqn:E; [|reflexivity]. apply Qeq_bool_iff in E.
    assert (C : Qeq_bool x u = true) by (apply Qeq_bool_iff; rewrite E; reflexivity). congruence.
Qed.
Lemma occurs_seen x i : occurs x i = times_seen (nth i x 0%Q) x.
Proof.
  unfold occurs. rewrite (total_map (fun y => if Qeq_bool y (nth i x 0%Q) then 1 else 0) x 0%Q). generalize (nth i x 0%Q) as u. intros u.
  induction x as [|y x IH]; [reflexivity|]. rewrite seen_cons, <- IH. cbn [map zsum]. f_equal.
  replace (Qeq_bool y u) with (Qeq_bool u y); [reflexivity|]. apply eq_true_iff_eq. rewrite !Qeq_bool_iff. split; intros H; symmetry; exact H.
Qed.
Lemma ties_total x : zsum (map (fun u => cubic (times_seen u x)) (uniqueq x)) = total (List.length x) (fun i => (occurs x i - 1) * (2 * occurs x i + 5)).
Proof.
  rewrite (total_ext _ _ (fun i => (fun v => (times_seen v x - 1) * (2 * times_seen v x + 5)) (nth i x 0%Q))) by (intros; rewrite occurs_seen; reflexivity).
  rewrite (total_map (fun v => (times_seen v x - 1) * (2 * times_seen v x + 5))).
  rewrite (groups (fun v => (times_seen v x - 1) * (2 * times_seen v x + 5))).
  - apply zsum_ext. intros u _. unfold cubic. ring.
  - intros a b E. rewrite (seen_proper x a b E). reflexivity.
Qed.
Lemma variance_spread x : (variance x == inject_Z (spread18 x) / 18)%Q.
Proof. unfold variance, spread18. cbv zeta. rewrite ties_total. reflexivity. Qed.

(** ** bounds of the score *)
Lemma sign_range x : -1 <= sign x <= 1.
Proof. unfold sign. destruct (Z.sgn_spec (Qnum x)) as [[_ ->]|[[_ ->]|[_ ->]]]; lia. Qed.
Lemma sign_pos x : sign x = 1 <-> (0 < x)%Q.
Proof. unfold sign, Qlt. cbn [Qnum Qden]. rewrite Z.sgn_pos_iff. lia. Qed.
Lemma sign_opp x y : sign (x - y)%Q = - sign (y - x)%Q.
Proof. rewrite <- !sgn_sign. unfold sgn. rewrite <- (Qcompare_antisym y x). destruct (Qcompare y x); reflexivity. Qed.
Lemma sign_ext x y : (x == y)%Q -> sign x = sign y.
Proof.
  intros E. unfold sign. unfold Qeq in E. destruct (Z.sgn_spec (Qnum x)) as [[A ->]|[[A ->]|[A ->]]]; symmetry.
  - apply Z.sgn_pos_iff. nia.
  - apply Z.sgn_null_iff. nia.
  - apply Z.sgn_neg_iff. nia.
Qed.
Lemma pairs_count n : 2 * total n (fun i => total n (fun j => if (i <? j)%nat then 1 else 0)) = Z.of_nat n * (Z.of_nat n - 1).
Proof.
  induction n as [|n IH]; [reflexivity|]. rewrite total_first.
  rewrite (total_ext n _ (fun i => total n (fun j => if (i <? j)%nat then 1 else 0))).
  - assert (F : total (S n) (fun j => if (0 <? j)%nat then 1 else 0) = Z.of_nat n).
    { rewrite total_first. change ((0 <? 0)%nat) with false. rewrite (total_ext n _ (fun _ => 1)) by reflexivity. clear. induction n as [|n IH]; [reflexivity|]. cbn [total]. lia. }
    rewrite F, Z.mul_add_distr_l, IH. lia.
  - intros i Hi. rewrite total_first. reflexivity.
Qed.
Lemma kendall_bound x : Z.abs (2 * kendall x) <= choose2 x.
Proof.
  unfold choose2. rewrite <- pairs_count. unfold kendall.
  assert (A : total (List.length x) (fun i => total (List.length x) (fun j => if (i <? j)%nat then sign (nth j x 0%Q - nth i x 0%Q)%Q else 0)) <=
              total (List.length x) (fun i => total (List.length x) (fun j => if (i <? j)%nat then 1 else 0))).
  { apply total_le. intros i _. apply total_le. intros j _. destruct (i <? j)%nat; [apply sign_range|lia]. }
  assert (B : - total (List.length x) (fun i => total (List.length x) (fun j => if (i <? j)%nat then 1 else 0)) <=
              total (List.length x) (fun i => total (List.length x) (fun j => if (i <? j)%nat then sign (nth j x 0%Q - nth i x 0%Q)%Q else 0))).
  { rewrite <- total_opp. apply total_le. intros i _. rewrite <- total_opp. apply total_le. intros j _. pose proof (sign_range (nth j x 0%Q - nth i x 0%Q)%Q). destruct (i <? j)%nat; lia. }
  lia.
Qed.
Lemma kendall_full x : 2 * kendall x = choose2 x <-> forall i j, (i < j < List.length x)%nat -> (nth i x 0 < nth j x 0)%Q.
Proof.
  unfold choose2. rewrite <- pairs_count. unfold kendall. set (n := List.length x). split.
  - intros E i j H. assert (E' : total n (fun i => total n (fun j => if (i <? j)%nat then sign (nth j x 0%Q - nth i x 0%Q)%Q else 0)) = total n (fun i => total n (fun j => if (i <? j)%nat then 1 else 0))) by lia.
    assert (LE : forall i j, (if (i <? j)%nat then sign (nth j x 0%Q - nth i x 0%Q)%Q else 0) <= (if (i <? j)%nat then 1 else 0)) by (intros a b; destruct (a <? b)%nat; [apply sign_range|lia]).
    pose proof (total_eq n _ _ (fun i _ => total_le n _ _ (fun j _ => LE i j)) E' i ltac:(lia)) as E1. cbv beta in E1.
    pose proof (total_eq n _ _ (fun j _ => LE i j) E1 j ltac:(lia)) as E2. cbv beta in E2. replace (i <? j)%nat with true in E2 by (symmetry; apply Nat.ltb_lt; lia).
    apply sign_pos in E2. lra.
  - intros H. f_equal. apply total_ext. intros i Hi. apply total_ext. intros j Hj. destruct (i <? j)%nat eqn:E; [|reflexivity]. apply Nat.ltb_lt in E.
    apply sign_pos. specialize (H i j ltac:(lia)). lra.
Qed.
Lemma kendall_ext x y c : List.length x = List.length y ->
  (forall i j, (i < j < List.length x)%nat -> sign (nth j x 0%Q - nth i x 0%Q)%Q = c * sign (nth j y 0%Q - nth i y 0%Q)%Q) -> kendall x = c * kendall y.
Proof.
  intros L H. unfold kendall. rewrite <- L. assert (M : forall n f, total n (fun i => c * f i) = c * total n f) by (intros n f; induction n as [|n IH]; cbn; [ring|rewrite IH; ring]).
  rewrite <- M. apply total_ext. intros i Hi. rewrite <- M. apply total_ext. intros j Hj. destruct (i <? j)%nat eqn:E; [|ring]. apply Nat.ltb_lt in E. apply H. lia.
Qed.

(** ** the variance is positive unless all values are equal *)
Lemma total_const n c : total n (fun _ => c) = Z.of_nat n * c.
Proof. induction n as [|n IH]; cbn [total]; lia. Qed.
Lemma occurs_range x i : (i < List.length x)%nat -> 1 <= occurs x i <= Z.of_nat (List.length x).
Proof.
  intros Hi. unfold occurs. split.
  - assert (G : forall n f, (forall j, (j < n)%nat -> 0 <= f j) -> forall k, (k < n)%nat -> f k <= total n f).
    { induction n as [|n IH]; intros f Hf k Hk; [lia|]. cbn [total]. assert (0 <= total n f) by (rewrite <- (total_zero n (fun _ => 0)) by reflexivity; apply total_le; intros; apply Hf; lia).
      pose proof (Hf n ltac:(lia)). destruct (Nat.eq_dec k n) as [->|N]; [lia|]. specialize (IH f (fun j Hj => Hf j ltac:(lia)) k ltac:(lia)). lia. }
    specialize (G (List.length x) (fun j => if Qeq_bool (nth j x 0%Q) (nth i x 0%Q) then 1 else 0)). cbv beta in G.
    specialize (G (fun j _ => ltac:(destruct (Qeq_bool (nth j x 0%Q) (nth i x 0%Q)); lia)) i Hi). replace (Qeq_bool (nth i x 0%Q) (nth i x 0%Q)) with true in G by (symmetry; apply Qeq_bool_iff; reflexivity). exact G.
  - rewrite <- (Z.mul_1_r (Z.of_nat (List.length x))), <- total_const. apply total_le. intros j _. destruct (Qeq_bool (nth j x 0%Q) (nth i x 0%Q)); lia.
Qed.
Lemma spread_total x : let n := Z.of_nat (List.length x) in
  spread18 x = total (List.length x) (fun i => (n - 1) * (2 * n + 5)) - total (List.length x) (fun i => (occurs x i - 1) * (2 * occurs x i + 5)).
Proof. cbv zeta. unfold spread18. rewrite total_const. lia. Qed.
Lemma spread_nonneg x : 0 <= spread18 x.
Proof.
  rewrite spread_total. match goal with |- 0 <= ?a - ?b => assert (b <= a); [|lia] end. apply total_le. intros i Hi. pose proof (occurs_range x i Hi). nia.
Qed.
Lemma spread_zero x : spread18 x = 0 -> kendall x = 0.
Proof.
  intros E. rewrite spread_total in E. unfold kendall. apply total_zero. intros i Hi. apply total_zero. intros j Hj.
  assert (T : (occurs x i - 1) * (2 * occurs x i + 5) = (Z.of_nat (List.length x) - 1) * (2 * Z.of_nat (List.length x) + 5)).
  { apply (total_eq (List.length x) (fun i => (occurs x i - 1) * (2 * occurs x i + 5)) (fun i => (Z.of_nat (List.length x) - 1) * (2 * Z.of_nat (List.length x) + 5))); [|lia|exact Hi].
    intros k Hk. pose proof (occurs_range x k Hk). nia. }
  assert (O : occurs x i = Z.of_nat (List.length x)) by (pose proof (occurs_range x i Hi); nia).
  unfold occurs in O. rewrite <- (Z.mul_1_r (Z.of_nat (List.length x))), <- total_const in O.
  pose proof (total_eq _ _ _ (fun j _ => ltac:(destruct (Qeq_bool (nth j x 0%Q) (nth i x 0%Q)); lia) : (if Qeq_bool (nth j x 0%Q) (nth i x 0%Q) then 1 else 0) <= 1) O j Hj) as B. cbv beta in B.
  destruct (Qeq_bool (nth j x 0%Q) (nth i x 0%Q)) eqn:Q; [|discriminate]. apply Qeq_bool_iff in Q. destruct (i <? j)%nat; [|reflexivity].
  rewrite (sign_ext _ 0%Q) by (rewrite Q; ring). reflexivity.
Qed.
Lemma zsum_nonneg {A} (f : A -> Z) l : (forall x, In x l -> 0 <= f x) -> 0 <= zsum (map f l).
Proof. induction l as [|x l IH]; intros H; cbn; [lia|]. pose proof (H x (or_introl eq_refl)). specialize (IH (fun y I => H y (or_intror I))). lia. Qed.
Lemma sum_spread xs : sumz kendall xs <> 0 -> 0 < sumz spread18 xs.
Proof.
  rewrite !sumz_zsum. intros N. pose proof (zsum_nonneg spread18 xs (fun x _ => spread_nonneg x)) as P.
  destruct (Z.eq_dec (zsum (map spread18 xs)) 0) as [E|]; [|lia]. exfalso. apply N. clear N P. induction xs as [|x xs IH]; [reflexivity|]. cbn in *.
  pose proof (spread_nonneg x). pose proof (zsum_nonneg spread18 xs (fun x _ => spread_nonneg x)). rewrite spread_zero by lia. rewrite IH by lia. reflexivity.
Qed.
Lemma choose2_pos x : (2 <= List.length x)%nat -> 0 < choose2 x.
Proof. unfold choose2. intros. nia. Qed.
Lemma sum_choose xs : xs <> [] -> (forall x, In x xs -> (2 <= List.length x)%nat) -> 0 < sumz choose2 xs.
Proof.
  rewrite sumz_zsum. intros N H. destruct xs as [|x xs]; [congruence|]. cbn. pose proof (choose2_pos x (H x (or_introl eq_refl))).
  pose proof (zsum_nonneg choose2 xs (fun y I => Z.lt_le_incl _ _ (choose2_pos y (H y (or_intror I))))). lia.
Qed.
Lemma inject_zsum {A} (f : A -> Z) l : (inject_Z (zsum (map f l)) == qsum (map (fun x => inject_Z (f x)) l))%Q.
Proof. induction l as [|x l IH]; [reflexivity|]. cbn. rewrite inject_Z_plus, IH. reflexivity. Qed.
Lemma zlt0 n : 0 < n -> (0 < inject_Z n)%Q.
Proof. intros H. change 0%Q with (inject_Z 0). rewrite <- Zlt_Qlt. exact H. Qed.

Section Tests.
Variables tail crit : Q -> Q.
Lemma decide_tested threshold xs s v d : xs <> [] -> (forall x, In x xs -> (2 <= List.length x)%nat) ->
  s = sumz kendall xs -> (v == inject_Z (sumz spread18 xs) / 18)%Q -> (d == inject_Z (sumz choose2 xs) / 2)%Q ->
  tested tail crit (5 # 100) threshold xs (threshold_trend threshold (decide tail crit (5 # 100) s v d)).
Proof.
  intros N L -> Ev Ed. pose proof (sum_choose xs N L) as PD. pose proof (sum_spread xs) as PV. set (s := sumz kendall xs) in *. set (V := sumz spread18 xs) in *. set (D := sumz choose2 xs) in *.
  apply zlt0 in PD. unfold tested. cbv zeta. fold s V D.
  assert (TAU : k_tau (threshold_trend threshold (decide tail crit (5 # 100) s v d)) = (inject_Z s / d)%Q) by (unfold threshold_trend; destruct (Qle_bool _ _); reflexivity).
  assert (P : k_p (threshold_trend threshold (decide tail crit (5 # 100) s v d)) = tail (zsq s v)) by (unfold threshold_trend; destruct (Qle_bool _ _); reflexivity).
  split.
  - rewrite TAU, Ed. field. lra.
  - exists (zsq s v). rewrite P. split; [reflexivity|]. split; [|split].
    + intros E. unfold zsq. rewrite E. reflexivity.
    + intros E. specialize (PV E). apply zlt0 in PV. unfold zsq. apply Z.eqb_neq in E. rewrite E, Ev. field. lra.
    + rewrite TAU. unfold threshold_trend. cbn [decide k_tau k_trend k_p].
      assert (H1 : forall a b, Qle_bool a b = true -> ~ (b < a)%Q) by (intros a b H C; apply Qle_bool_iff in H; lra).
      assert (H2 : forall a b, Qle_bool a b = false -> (b < a)%Q) by (intros a b H; apply Qnot_le_lt; intros C; apply Qle_bool_iff in C; congruence).
      destruct (Qle_bool (Qabs (inject_Z s / d)) threshold) eqn:E1; cbn [k_trend].
      { apply H1 in E1. split; split; [discriminate| |discriminate|]; intros (_ & _ & C); contradiction. }
      apply H2 in E1. unfold decide. cbn [k_trend]. destruct (Qle_bool (zsq s v) (crit (5 # 100))) eqn:E2; cbn [negb].
      { apply H1 in E2. split; split; [discriminate| |discriminate|]; intros (_ & C & _); contradiction. }
      apply H2 in E2. destruct (0 <? s) eqn:E3; [apply Z.ltb_lt in E3|apply Z.ltb_ge in E3; destruct (s <? 0) eqn:E4; [apply Z.ltb_lt in E4|apply Z.ltb_ge in E4]].
      * split; split; auto; [discriminate|]. intros (C & _). lia.
      * split; split; auto; [discriminate|]. intros (C & _). lia.
      * split; split; try discriminate; intros (C & _); lia.
Qed.
Lemma pairs_choose x : (pairs x == inject_Z (choose2 x) / 2)%Q.
Proof. reflexivity. Qed.
Lemma original_tested threshold x k : original_test tail crit x = Some k -> tested tail crit (5 # 100) threshold [x] (threshold_trend threshold k).
Proof.
  unfold original_test. destruct (List.length x <? 2)%nat eqn:E; [discriminate|]. apply Nat.ltb_ge in E. intros H. injection H as <-.
  apply decide_tested; [discriminate|intros y [<-|[]]; exact E| | |].
  - unfold sumz. cbn. rewrite score_kendall. reflexivity.
  - rewrite variance_spread. unfold sumz. cbn [map List.length total nth]. rewrite Z.add_0_l. reflexivity.
  - rewrite pairs_choose. unfold sumz. cbn [map List.length total nth]. rewrite Z.add_0_l. reflexivity.
Qed.
Lemma qsum_div c (f : list Q -> Q) g l : (forall x, In x l -> f x == g x / c)%Q -> (qsum (map f l) == qsum (map g l) / c)%Q.
Proof. intros H. unfold Qdiv in *. induction l as [|x l IH]; [reflexivity|]. cbn. rewrite IH by (intros; apply H; right; assumption). rewrite (H x) by (left; reflexivity). ring. Qed.
Lemma multi_tested threshold xs k : xs <> [] -> multivariate_test tail crit xs = Some k -> tested tail crit (5 # 100) threshold xs (threshold_trend threshold k).
Proof.
  intros N. unfold multivariate_test. destruct (existsb (fun x => (List.length x <? 2)%nat) xs) eqn:E; [discriminate|]. intros H. injection H as <-.
  apply decide_tested; [exact N| | | |].
  - intros x I. destruct (List.length x <? 2)%nat eqn:F; [|apply Nat.ltb_ge in F; exact F]. exfalso.
    assert (C : existsb (fun x => (List.length x <? 2)%nat) xs = true) by (apply existsb_exists; eauto). congruence.
  - rewrite sumz_zsum. f_equal. apply map_ext. apply score_kendall.
  - rewrite sumz_zsum, inject_zsum. apply qsum_div. intros x _. apply variance_spread.
  - rewrite sumz_zsum, inject_zsum. apply qsum_div. intros x _. reflexivity.
Qed.
End Tests.

(** ** cleaning *)
Lemma ses_length level l : List.length (ses level l) = List.length l.
Proof. revert level. induction l as [|y l IH]; intros level; cbn; [reflexivity|]. rewrite IH. reflexivity. Qed.
Lemma ses_ok init y : smoothed init y (ses (init y) y).
Proof.
  split; [apply ses_length|]. split; [destruct y; [congruence|reflexivity]|].
  generalize (init y) as l. induction y as [|x y IH]; intros l i Hi; [cbn in Hi; lia|]. destruct y as [|x' y]; [cbn in Hi; lia|].
  destruct i as [|i]; [cbn; ring|]. specialize (IH ((1 # 5) * x + (4 # 5) * l)%Q i). cbn [List.length] in *. specialize (IH ltac:(lia)). exact IH.
Qed.
Lemma sumn_qsum l : (qsum l == sumn (List.length l) (fun i => nth i l 0))%Q.
Proof. induction l as [|x l IH]; [reflexivity|]. cbn [List.length]. rewrite sumn_S_first. cbn [qsum nth]. rewrite IH. reflexivity. Qed.
Lemma nth_skipn' {A} n (l : list A) i d : nth i (skipn n l) d = nth (n + i) l d.
Proof. revert l. induction n as [|n IH]; intros [|x l]; try reflexivity; [destruct i; reflexivity|apply IH]. Qed.
Lemma nth_firstn' {A} n (l : list A) i d : (i < n)%nat -> nth i (firstn n l) d = nth i l d.
Proof. revert l i. induction n as [|n IH]; intros [|x l] [|i] H; try lia; try reflexivity. cbn. apply IH. lia. Qed.
Lemma rolling_length w l : List.length (rolling w l) = (List.length l + 1 - w)%nat.
Proof. unfold rolling. rewrite map_length, seq_length. reflexivity. Qed.
Lemma rolling_ok w y : (1 <= w)%nat -> averaged w y (rolling w y).
Proof.
  intros Hw. split; [apply rolling_length|]. intros i Hi. rewrite rolling_length in Hi. unfold rolling.
  rewrite (nth_indep _ 0%Q (mean (firstn w (skipn 0 y)))) by (rewrite map_length, seq_length; exact Hi).
  rewrite (map_nth (fun i => mean (firstn w (skipn i y))) _ 0%nat), seq_nth by exact Hi. cbn [Nat.add]. unfold mean.
  assert (L : List.length (firstn w (skipn i y)) = w) by (rewrite firstn_length, skipn_length; lia). rewrite L.
  rewrite Qmult_comm, Qmult_div_r by (apply Qnot_eq_sym, Qlt_not_eq, zlt0; lia). rewrite sumn_qsum, L. apply sumn_ext. intros j Hj.
  rewrite nth_firstn', nth_skipn' by exact Hj. reflexivity.
Qed.
