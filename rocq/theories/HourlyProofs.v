(** Lemmas about the hourly ratio model. *)
From Verif Require Import Common HourlyModel HourlySpec.
From Verif Require TSDataModel TSDataSpec TSDataProofs.
From Coq Require Import Permutation Sorted.
Open Scope Z_scope.

(** ** uniq *)
Section Uniq.
Context {A : Type} (eqb : A -> A -> bool) (Heq : forall x y, eqb x y = true <-> x = y).
Lemma uniq_in x l : In x (uniq eqb l) <-> In x l.
Proof.
  induction l as [|y l IH]; [reflexivity|]. cbn. rewrite filter_In, IH. split.
  - intros [->|[H _]]; auto.
  - intros [->|H]; [auto|]. destruct (eqb y x) eqn:E; [left; apply Heq, E|right; split; [exact H|reflexivity]].
Qed.
Lemma nodup_filter (f : A -> bool) l : NoDup l -> NoDup (filter f l).
Proof.
  induction 1 as [|x l N D IH]; cbn; [constructor|]. destruct (f x); [|exact IH]. constructor; [|exact IH].
  rewrite filter_In. tauto.
Qed.
Lemma uniq_nodup l : NoDup (uniq eqb l).
Proof.
  induction l as [|y l IH]; cbn; constructor.
  - rewrite filter_In. intros [_ H]. rewrite (proj2 (Heq y y) eq_refl) in H. discriminate.
  - apply nodup_filter, IH.
Qed.
Lemma eqb_refl' x : eqb x x = true. Proof. apply Heq. reflexivity. Qed.
Lemma filter_twice (f : A -> bool) l : filter f (filter f l) = filter f l.
Proof. induction l as [|x l IH]; [reflexivity|]. cbn. destruct (f x) eqn:E; cbn; [rewrite E, IH; reflexivity|exact IH]. Qed.
Lemma uniq_dup x l : uniq eqb (x :: x :: l) = uniq eqb (x :: l).
Proof. cbn. rewrite eqb_refl'. cbn. rewrite filter_twice. reflexivity. Qed.
End Uniq.
Lemma filter_id' {A} (f : A -> bool) l : (forall x, In x l -> f x = true) -> filter f l = l.
Proof. induction l as [|x l IH]; intros H; [reflexivity|]. cbn. rewrite H by (left; reflexivity). f_equal. apply IH. intros; apply H; right; assumption. Qed.
Lemma filter_none {A} (f : A -> bool) l : (forall x, In x l -> f x = false) -> filter f l = [].
Proof. induction l as [|x l IH]; intros H; [reflexivity|]. cbn. rewrite H by (left; reflexivity). apply IH. intros; apply H; right; assumption. Qed.
Lemma filter_ext_in' {A} (f g : A -> bool) l : (forall x, In x l -> f x = g x) -> filter f l = filter g l.
Proof. induction l as [|x l IH]; intros H; [reflexivity|]. cbn. rewrite H by (left; reflexivity). rewrite IH; [reflexivity|]. intros; apply H; right; assumption. Qed.
Lemma filter_map {A B} (g : A -> B) (f : B -> bool) l : filter f (map g l) = map g (filter (fun x => f (g x)) l).
Proof. induction l as [|x l IH]; [reflexivity|]. cbn. destruct (f (g x)); cbn; rewrite IH; reflexivity. Qed.
Lemma filter_filter {A} (f g : A -> bool) l : filter f (filter g l) = filter (fun x => g x && f x) l.
Proof. induction l as [|x l IH]; [reflexivity|]. cbn. destruct (g x) eqn:E; cbn; [|exact IH]. destruct (f x); rewrite IH; reflexivity. Qed.
Lemma uniq_filter {A} (eqb : A -> A -> bool) (Heq : forall x y, eqb x y = true <-> x = y) (f : A -> bool) l :
  uniq eqb (filter f l) = filter f (uniq eqb l).
Proof.
  induction l as [|x l IH]; [reflexivity|]. cbn. destruct (f x) eqn:E.
  - cbn. rewrite IH, !filter_filter. f_equal. apply filter_ext_in'. intros y _. apply andb_comm.
  - rewrite filter_filter, IH. apply filter_ext_in'. intros y _. destruct (eqb x y) eqn:Exy; cbn; [|reflexivity].
    apply Heq in Exy. subst. exact E.
Qed.

(** ** the table by dates *)
Lemma zeqb_iff x y : (x =? y) = true <-> x = y. Proof. apply Z.eqb_eq. Qed.
(** a list in the order of its keys is the concatenation of its groups *)
Lemma grouped_sorted {A} (k : A -> Z) l : StronglySorted (fun a b => k a <= k b) l ->
  l = flat_map (fun d => filter (fun r => k r =? d) l) (uniq Z.eqb (map k l)).
Proof.
  induction l as [|x t IH]; intros S; [reflexivity|]. inversion S as [|? ? S' F]; subst. specialize (IH S').
  assert (G : forall U, ~ In (k x) U -> flat_map (fun d => filter (fun r => k r =? d) (x :: t)) U = flat_map (fun d => filter (fun r => k r =? d) t) U).
  { induction U as [|u U IHU]; intros N; [reflexivity|]. cbn [flat_map]. rewrite IHU by (intros C; apply N; right; exact C). f_equal.
    cbn [filter]. destruct (Z.eqb_spec (k x) u) as [E|E]; [exfalso; apply N; left; auto|reflexivity]. }
  destruct t as [|y t'].
  - cbn. rewrite Z.eqb_refl. reflexivity.
  - destruct (Z.eq_dec (k x) (k y)) as [E|E].
    + change (map k (x :: y :: t')) with (k x :: k y :: map k t'). rewrite <- E, (uniq_dup Z.eqb zeqb_iff).
      assert (U : uniq Z.eqb (map k (y :: t')) = uniq Z.eqb (k x :: map k t')) by (cbn [map]; rewrite E; reflexivity).
      rewrite U in IH. destruct (uniq Z.eqb (k x :: map k t')) as [|u U'] eqn:EU; [discriminate|].
      assert (u = k x) by (cbn in EU; congruence). subst u.
      pose proof (uniq_nodup Z.eqb zeqb_iff (k x :: map k t')) as N. rewrite EU in N. inversion N as [|? ? N1 N2]; subst.
      cbn [flat_map]. rewrite (G U' N1). cbn [flat_map] in IH.
      transitivity (x :: (filter (fun r => k r =? k x) (y :: t') ++ flat_map (fun d => filter (fun r => k r =? d) (y :: t')) U')).
      * f_equal. exact IH.
      * rewrite app_comm_cons. f_equal. remember (y :: t') as t. cbn [filter]. rewrite Z.eqb_refl. reflexivity.
    + assert (L : forall z, In z (y :: t') -> k x < k z).
      { intros z I. inversion S' as [|? ? S2 F2]; subst. rewrite Forall_forall in F, F2.
        assert (k x <= k y) by (apply F; left; reflexivity). destruct I as [<-|I]; [lia|]. specialize (F2 z I). lia. }
      assert (NI : ~ In (k x) (uniq Z.eqb (map k (y :: t')))).
      { rewrite (uniq_in Z.eqb zeqb_iff). intros C. apply in_map_iff in C as (z & Ez & Iz). specialize (L z Iz). lia. }
      change (uniq Z.eqb (map k (x :: y :: t'))) with (k x :: filter (fun y => negb (k x =? y)) (uniq Z.eqb (map k (y :: t')))).
      rewrite filter_id'.
      * cbn [flat_map]. rewrite G by exact NI. rewrite <- IH. remember (y :: t') as t. cbn [filter]. rewrite Z.eqb_refl.
        rewrite (filter_none _ t); [reflexivity|]. intros z I. apply Z.eqb_neq. specialize (L z I). lia.
      * intros z I. apply negb_true_iff, Z.eqb_neq. intros C. apply NI. rewrite C. exact I.
Qed.

(** ** sorting *)
Lemma filter_insert (p : Z * Q -> bool) r l : TSDataSpec.in_time_order l ->
  filter p (TSDataModel.insert_row r l) = if p r then TSDataModel.insert_row r (filter p l) else filter p l.
Proof.
  induction l as [|x t IH]; intros S.
  - cbn. destruct (p r); reflexivity.
  - cbn [TSDataModel.insert_row]. inversion S as [|? ? S' F]; subst. destruct (fst r <=? fst x) eqn:E.
    + cbn [filter]. destruct (p r) eqn:Pr; [|reflexivity]. destruct (p x) eqn:Px; cbn [TSDataModel.insert_row].
      * rewrite E. reflexivity.
      * destruct (filter p t) as [|y t'] eqn:Ef; [reflexivity|]. cbn.
        assert (In y t) by (assert (In y (filter p t)) by (rewrite Ef; left; reflexivity); apply filter_In in H; tauto).
        rewrite Forall_forall in F. specialize (F _ (in_map fst _ _ H)). apply Z.leb_le in E. replace (fst r <=? fst y) with true; [reflexivity|]. symmetry. apply Z.leb_le. lia.
    + cbn [filter]. rewrite IH by exact S'. destruct (p x) eqn:Px; destruct (p r) eqn:Pr; cbn [TSDataModel.insert_row]; try rewrite E; reflexivity.
Qed.
Lemma filter_sort (p : Z * Q -> bool) l : filter p (TSDataModel.sort_rows l) = TSDataModel.sort_rows (filter p l).
Proof.
  induction l as [|r t IH]; [reflexivity|]. cbn [TSDataModel.sort_rows filter].
  rewrite filter_insert by apply TSDataProofs.sort_rows_sorted. rewrite IH. destruct (p r); reflexivity.
Qed.
Lemma day_date t d : t / day_ns = d <-> d * 86400000000000 <= t < (d + 1) * 86400000000000.
Proof. unfold day_ns. split; intros H; [|symmetry; apply (Z.div_unique t 86400000000000 d (t - d * 86400000000000)); lia].
  pose proof (Z.div_mod t 86400000000000 ltac:(lia)). pose proof (Z.mod_pos_bound t 86400000000000 ltac:(lia)). lia. Qed.
Lemma hour_index t : t / day_ns * 24 + t mod day_ns / hour_ns = t / hour_ns.
Proof.
  unfold day_ns, hour_ns. pose proof (Z.div_mod t 86400000000000 ltac:(lia)). pose proof (Z.mod_pos_bound t 86400000000000 ltac:(lia)).
  set (q := t / 86400000000000) in *. set (m := t mod 86400000000000) in *.
  pose proof (Z.div_mod m 3600000000000 ltac:(lia)). pose proof (Z.mod_pos_bound m 3600000000000 ltac:(lia)).
  apply (Z.div_unique t 3600000000000 _ (m mod 3600000000000)); lia.
Qed.
Lemma hour_range t : 0 <= t mod day_ns / hour_ns < 24.
Proof.
  unfold day_ns, hour_ns. pose proof (Z.mod_pos_bound t 86400000000000 ltac:(lia)). split; [apply Z.div_pos; lia|apply Z.div_lt_upper_bound; lia].
Qed.
Lemma hour_date t d h : 0 <= h < 24 ->
  (t / day_ns = d /\ t mod day_ns / hour_ns = h) <-> (24 * d + h) * 3600000000000 <= t < (24 * d + h + 1) * 3600000000000.
Proof.
  intros Hh. pose proof (hour_index t) as I. pose proof (hour_range t) as R.
  assert (J : t / hour_ns = 24 * d + h <-> (24 * d + h) * 3600000000000 <= t < (24 * d + h + 1) * 3600000000000).
  { unfold hour_ns. split; intros H; [|symmetry; apply (Z.div_unique t 3600000000000 _ (t - (24 * d + h) * 3600000000000)); lia].
    pose proof (Z.div_mod t 3600000000000 ltac:(lia)). pose proof (Z.mod_pos_bound t 3600000000000 ltac:(lia)). lia. }
  rewrite <- J, <- I. split; [intros [<- <-]; lia|]. intros H. lia.
Qed.
Lemma seen_filter lo hi data : seen_between lo hi data = filter (fun r => (lo <=? fst r) && (fst r <? hi)) (dropna data).
Proof.
  induction data as [|[t [v|]] r IH]; [reflexivity| |].
  - change (dropna ((t, Some v) :: r)) with ((t, v) :: dropna r). cbn [seen_between filter fst].
    rewrite IH. reflexivity.
  - change (dropna ((t, None) :: r)) with (dropna r). exact IH.
Qed.
Definition plain (data : list (Z * option Q)) : list hrow := map row_of (TSDataModel.sort_rows (dropna data)).
Lemma plain_date data d : filter (of_date d) (plain data) = map row_of (TSDataModel.sort_rows (seen data d)).
Proof.
  unfold plain, seen. rewrite filter_map, filter_sort, seen_filter. do 2 f_equal. apply filter_ext_in'. intros r _.
  unfold of_date, row_of. cbn [h_date]. apply eq_true_iff_eq. rewrite Z.eqb_eq, andb_true_iff, Z.leb_le, Z.ltb_lt. apply day_date.
Qed.
Lemma plain_hour data d h : 0 <= h < 24 ->
  filter (fun r => key_eqb (key r) (d, h)) (plain data) = map row_of (TSDataModel.sort_rows (seen_hour data d h)).
Proof.
  intros Hh. unfold plain, seen_hour. rewrite filter_map, filter_sort, seen_filter. do 2 f_equal. apply filter_ext_in'. intros r _.
  unfold key_eqb, key, row_of. cbn [h_date h_hour fst snd]. apply eq_true_iff_eq. rewrite !andb_true_iff, !Z.eqb_eq, Z.leb_le, Z.ltb_lt. apply hour_date, Hh.
Qed.
Lemma sorted_map {A B} (R : A -> A -> Prop) (Q : B -> B -> Prop) (f : A -> B) l :
  (forall a b, R a b -> Q (f a) (f b)) -> StronglySorted R l -> StronglySorted Q (map f l).
Proof.
  intros H S. induction S as [|x l S IH F]; cbn; constructor; [exact IH|]. rewrite Forall_forall in *. intros y I.
  apply in_map_iff in I as (z & <- & I). apply H, F, I.
Qed.
Lemma sorted_of_map {A B} (Q : B -> B -> Prop) (f : A -> B) l :
  StronglySorted Q (map f l) -> StronglySorted (fun a b => Q (f a) (f b)) l.
Proof.
  induction l as [|x l IH]; intros S; constructor; inversion S as [|? ? S' F]; subst; [apply IH, S'|].
  rewrite Forall_forall in *. intros y I. apply F, in_map, I.
Qed.
Lemma plain_sorted data : StronglySorted (fun a b => h_date a < h_date b \/ (h_date a = h_date b /\ h_hour a <= h_hour b)) (plain data).
Proof.
  unfold plain. apply (sorted_map (fun a b => fst a <= fst b)); [|apply sorted_of_map, TSDataProofs.sort_rows_sorted]. intros a b H. cbn.
  pose proof (Z.div_le_mono (fst a) (fst b) day_ns ltac:(unfold day_ns; lia) H) as D.
  pose proof (Z.div_le_mono (fst a) (fst b) hour_ns ltac:(unfold hour_ns; lia) H) as E.
  rewrite <- (hour_index (fst a)), <- (hour_index (fst b)) in E. lia.
Qed.
Lemma sorted_filter {A} (R : A -> A -> Prop) f (l : list A) : StronglySorted R l -> StronglySorted R (filter f l).
Proof.
  induction 1 as [|x l S IH F]; cbn; [constructor|]. destruct (f x); [|exact IH]. constructor; [exact IH|].
  rewrite Forall_forall in *. intros y I. apply filter_In in I. apply F, I.
Qed.
Lemma sorted_weaken {A} (R Q : A -> A -> Prop) (l : list A) : (forall a b, R a b -> Q a b) -> StronglySorted R l -> StronglySorted Q l.
Proof. intros H S. induction S as [|x l S IH F]; constructor; [exact IH|]. eapply Forall_impl; [|exact F]. auto. Qed.
Lemma keyb_iff x y : key_eqb x y = true <-> x = y.
Proof. unfold key_eqb. destruct x, y. cbn. rewrite andb_true_iff, !Z.eqb_eq. split; [intros [-> ->]; reflexivity|intros H; injection H; auto]. Qed.
(** unique elements of a sorted list are strictly sorted *)
Lemma uniq_sorted {A} (eqb : A -> A -> bool) (Heq : forall x y, eqb x y = true <-> x = y) (R S : A -> A -> Prop) l :
  (forall a b, R a b -> a <> b -> S a b) -> StronglySorted R l -> StronglySorted S (uniq eqb l).
Proof.
  intros H. induction 1 as [|x l Sr IH F]; cbn; constructor; [apply sorted_filter, IH|].
  rewrite Forall_forall in *. intros y I. apply filter_In in I as [I N]. apply (proj1 (uniq_in _ Heq _ _)) in I. apply H; [apply F, I|].
  intros ->. rewrite (proj2 (Heq y y) eq_refl) in N. discriminate.
Qed.
