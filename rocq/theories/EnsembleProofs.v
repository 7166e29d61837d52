(** Lemmas about the ensemble model. *)
From Verif Require Import Common MedianSpec MedianProofs EnsembleModel EnsembleSpec.
From Verif Require MetricsModel BacktestModel.
From Coq Require Import String Ascii Permutation Sorted.
Open Scope nat_scope.

(** ** dictionaries *)
Definition agrees {A B} (f : A -> option B) (a : string * A) (b : string * B) : Prop :=
  fst a = fst b /\ f (snd a) = Some (snd b).
Lemma dmap_spec {A B} (f : A -> option B) d e : dmap f d = Some e <-> Forall2 (agrees f) d e.
Proof.
  revert e; induction d as [|[k v] r IH]; intros e; cbn.
  - split; intros H; [inversion H; constructor|inversion H; reflexivity].
  - destruct (f v) as [y|] eqn:E.
    + destruct (dmap f r) as [e'|] eqn:D; cbn.
      * split; intros H.
        -- inversion H; subst. constructor; [split; [reflexivity|exact E]|apply IH; reflexivity].
        -- inversion H as [|? [k' y'] ? ? [H1 H2] H3]; subst. cbn in H1, H2. apply IH in H3.
           inversion H3; subst. rewrite E in H2. inversion H2; reflexivity.
      * split; intros H; [discriminate|]. inversion H as [|? [k' y'] ? ? [H1 H2] H3]; subst.
        apply IH in H3. discriminate.
    + split; intros H; [discriminate|]. inversion H as [|? [k' y'] ? ? [H1 H2] H3]; subst. cbn in H2. congruence.
Qed.
Lemma dmap_keys {A B} (f : A -> option B) d e : dmap f d = Some e -> keys e = keys d.
Proof.
  intros H. apply dmap_spec in H. induction H as [|a b ? ? [H1 H2] H3 IH]; [reflexivity|].
  unfold keys in *. cbn. f_equal; [symmetry; exact H1|exact IH].
Qed.
Lemma dmap_entry {A B} (f : A -> option B) d e k y : dmap f d = Some e -> In (k, y) e ->
  exists v, In (k, v) d /\ f v = Some y.
Proof.
  intros H. apply dmap_spec in H. induction H as [|[a1 a2] [b1 b2] ? ? [H1 H2] H3 IH]; [intros []|].
  cbn in *. intros [H|H]; [inversion H; subst; exists a2; auto|].
  destruct (IH H) as (v & Hv & Ev). exists v; auto.
Qed.
Lemma dmap_image {A B} (f : A -> option B) d e k v : dmap f d = Some e -> In (k, v) d ->
  exists y, In (k, y) e /\ f v = Some y.
Proof.
  intros H. apply dmap_spec in H. induction H as [|[a1 a2] [b1 b2] ? ? [H1 H2] H3 IH]; [intros []|].
  cbn in *. intros [H|H]; [inversion H; subst; exists b2; auto|].
  destruct (IH H) as (y & Hv & Ev). exists y; auto.
Qed.
Lemma dmap_total {A B} (f : A -> option B) d : (forall k v, In (k, v) d -> exists y, f v = Some y) ->
  exists e, dmap f d = Some e.
Proof.
  induction d as [|[k v] r IH]; intros H; [exists []; reflexivity|]. cbn.
  destruct (H k v (or_introl eq_refl)) as (y & ->).
  destruct IH as (e & ->); [intros k' v' H'; apply (H k' v'); right; exact H'|]. cbn. eauto.
Qed.
Lemma dmap_pure {A B} (g : A -> B) (d : dict A) :
  dmap (fun v => Some (g v)) d = Some (map (fun kv => (fst kv, g (snd kv))) d).
Proof. induction d as [|[k v] r IH]; [reflexivity|]. cbn. rewrite IH. reflexivity. Qed.
Lemma keys_length {A} (d : dict A) : List.length (keys d) = List.length d.
Proof. apply map_length. Qed.
Lemma values_length {A} (d : dict A) : List.length (values d) = List.length d.
Proof. apply map_length. Qed.

Lemma dset_keys {A} k (v : A) d : keys (dset k v d) = if existsb (String.eqb k) (keys d) then keys d else keys d ++ [k].
Proof.
  unfold keys. induction d as [|[k' v'] r IH]; [reflexivity|]. cbn. destruct (String.eqb k k') eqn:E; cbn.
  - reflexivity.
  - rewrite IH. destruct (existsb (String.eqb k) (map fst r)); reflexivity.
Qed.
Lemma existsb_in k l : existsb (String.eqb k) l = true <-> In k l.
Proof.
  rewrite existsb_exists. split.
  - intros (x & Hx & E). apply String.eqb_eq in E. subst. exact Hx.
  - intros H. exists k. split; [exact H|apply String.eqb_refl].
Qed.
Lemma dset_nodup {A} k (v : A) d : NoDup (keys d) -> NoDup (keys (dset k v d)).
Proof.
  intros H. rewrite dset_keys. destruct (existsb (String.eqb k) (keys d)) eqn:E; [exact H|].
  apply Permutation_NoDup with (k :: keys d); [apply Permutation_cons_append|].
  constructor; [|exact H]. intros C. apply existsb_in in C. congruence.
Qed.
Lemma dset_new {A} k (v : A) d : ~ In k (keys d) -> dset k v d = d ++ [(k, v)].
Proof.
  induction d as [|[k' v'] r IH]; [reflexivity|]. cbn. intros H. destruct (String.eqb k k') eqn:E.
  - apply String.eqb_eq in E. subst. exfalso; apply H; auto.
  - rewrite IH; [reflexivity|]. intros C; apply H; auto.
Qed.
Lemma dset_in {A} k (v : A) d k' v' : In (k', v') (dset k v d) -> (k' = k /\ v' = v) \/ In (k', v') d.
Proof.
  induction d as [|[k0 v0] r IH]; cbn.
  - intros [H|[]]. inversion H; auto.
  - destruct (String.eqb k k0) eqn:E; cbn.
    + apply String.eqb_eq in E. subst. intros [H|H]; [inversion H; auto|auto].
    + intros [H|H]; [auto|]. destruct (IH H); auto.
Qed.
Lemma dupdate_new {A} (e : dict A) : forall d, NoDup (keys e) -> (forall k, In k (keys e) -> ~ In k (keys d)) ->
  dupdate d e = d ++ e.
Proof.
  induction e as [|[k v] r IH]; intros d H D; cbn; [rewrite app_nil_r; reflexivity|].
  inversion H as [|? ? Hk Hr]; subst. rewrite dset_new by (apply D; cbn; auto).
  rewrite IH; [rewrite <- app_assoc; reflexivity|exact Hr|].
  intros k' Hk' C. unfold keys in C. rewrite map_app, in_app_iff in C. destruct C as [C|[C|[]]].
  - apply (D k'); [right; exact Hk'|exact C].
  - cbn in C. subst. contradiction.
Qed.
Lemma dupdate_keys_same {A B} (d : dict A) (e : dict A) (d' e' : dict B) :
  keys d = keys d' -> keys e = keys e' -> keys (dupdate d e) = keys (dupdate d' e').
Proof.
  revert d d' e'. induction e as [|[k v] r IH]; intros d d' [|[k' v'] r'] H1 H2; cbn in *; try discriminate; [exact H1|].
  inversion H2; subst. apply IH; [|assumption]. rewrite !dset_keys, H1. reflexivity.
Qed.
Lemma dget_in {A} k (v : A) d : NoDup (keys d) -> (dget k d = Some v <-> In (k, v) d).
Proof.
  induction d as [|[k' v'] r IH]; intros N; cbn; [split; [discriminate|intros []]|].
  inversion N as [|? ? Hk Hr]; subst. destruct (String.eqb k k') eqn:E.
  - apply String.eqb_eq in E. subst. split; intros H; [inversion H; auto|].
    destruct H as [H|H]; [inversion H; reflexivity|]. exfalso. apply Hk. apply in_map_iff. exists (k', v); auto.
  - rewrite IH by exact Hr. split; [auto|]. intros [H|H]; [|exact H]. inversion H; subst. rewrite String.eqb_refl in E. discriminate.
Qed.
Lemma entry_unique {A} k (v v' : A) d : NoDup (keys d) -> In (k, v) d -> In (k, v') d -> v = v'.
Proof. intros N H H'. apply (dget_in k) in H, H'; try assumption. congruence. Qed.
Lemma keys_entry {A} k (d : dict A) : In k (keys d) -> exists v, In (k, v) d.
Proof. intros H. apply in_map_iff in H as ([k' v] & <- & H). exists v. exact H. Qed.
Lemma entry_keys {A} k (v : A) d : In (k, v) d -> In k (keys d).
Proof. intros H. apply in_map_iff. exists (k, v). auto. Qed.

(** ** submitting jobs *)
Section S.
Context {P : Type}.
Lemma submit_nodup cls (ms : list (spec P)) : forall d d', NoDup (keys d) -> submit P cls ms d = Some d' -> NoDup (keys d').
Proof.
  induction ms as [|m r IH]; cbn; intros d d' N H; [inversion H; subst; exact N|].
  destruct (cls (sname P m)) as [c|]; [|discriminate]. eapply IH; [|exact H]. apply dset_nodup, N.
Qed.
Lemma submit_entry cls (ms : list (spec P)) : forall d d' n j, submit P cls ms d = Some d' -> In (n, j) d' ->
  In (n, j) d \/ exists m, In m ms /\ sname P m = n /\ cls n = Some (fst j) /\ snd j = sparams P m.
Proof.
  induction ms as [|m r IH]; cbn; intros d d' n j H I; [inversion H; subst; auto|].
  destruct (cls (sname P m)) as [c|] eqn:E; [|discriminate].
  destruct (IH _ _ _ _ H I) as [K|(m' & K1 & K2)].
  - apply dset_in in K as [[-> ->]|K]; [right; exists m; cbn; auto|auto].
  - right; exists m'; auto.
Qed.
Lemma submit_distinct cls (ms : list (spec P)) : forall d, NoDup (map (sname P) ms) ->
  (forall m, In m ms -> ~ In (sname P m) (keys d)) -> (forall m, In m ms -> cls (sname P m) <> None) ->
  submit P cls ms d = Some (d ++ map (fun m => (sname P m, (match cls (sname P m) with Some c => c | None => EmptyString end, sparams P m))) ms).
Proof.
  induction ms as [|m r IH]; intros d N D C; cbn; [rewrite app_nil_r; reflexivity|].
  inversion N as [|? ? Hm Hr]; subst. destruct (cls (sname P m)) as [c|] eqn:E; [|exfalso; apply (C m); cbn; auto].
  rewrite dset_new by (apply D; cbn; auto). rewrite IH.
  - rewrite <- app_assoc. reflexivity.
  - exact Hr.
  - intros m' Hm' K. unfold keys in K. rewrite map_app, in_app_iff in K. destruct K as [K|[K|[]]].
    + apply (D m'); [right; exact Hm'|exact K].
    + cbn in K. apply Hm. rewrite K. apply in_map, Hm'.
  - intros m' Hm'. apply C; right; exact Hm'.
Qed.
Lemma submit_app cls (ms1 ms2 : list (spec P)) d :
  submit P cls (ms1 ++ ms2) d = match submit P cls ms1 d with None => None | Some d' => submit P cls ms2 d' end.
Proof.
  revert d; induction ms1 as [|m r IH]; intros d; [reflexivity|]. cbn.
  destruct (cls (sname P m)); [apply IH|reflexivity].
Qed.
End S.

(** ** weights *)
Lemma eps_pos : (0 < eps)%Q. Proof. reflexivity. Qed.
Lemma qeq_false x : ~ (x == 0)%Q -> Qeq_bool x 0 = false.
Proof. intros H. destruct (Qeq_bool x 0) eqn:E; [|reflexivity]. apply Qeq_bool_iff in E. contradiction. Qed.
Lemma qsum_pos_list l : l <> [] -> (forall x, In x l -> 0 < x)%Q -> (0 < qsum l)%Q.
Proof.
  destruct l as [|x t]; [contradiction|]. intros _ H. cbn.
  pose proof (H x (or_introl eq_refl)). assert (0 <= qsum t)%Q.
  { apply qsum_nonneg. intros y Hy. apply Qlt_le_weak, H. right; exact Hy. } lra.
Qed.

Lemma weights_formula errors : errors <> [] -> (forall n e, In (n, e) errors -> 0 <= e)%Q ->
  let s := qsum (map (fun kv => 1 / (snd kv + eps))%Q errors) in
  (0 < s)%Q /\ weights_of errors = Some (map (fun kv => (fst kv, 1 / (snd kv + eps) / s)%Q) errors).
Proof.
  intros Hne H s.
  assert (Hpos : forall n e, In (n, e) errors -> (0 < e + eps)%Q).
  { intros n e I. specialize (H n e I). pose proof eps_pos. lra. }
  assert (E : dmap (fun e => if Qeq_bool (e + eps) 0 then None else Some (1 / (e + eps))%Q) errors
              = Some (map (fun kv => (fst kv, 1 / (snd kv + eps)))%Q errors)).
  { clear s Hne H. induction errors as [|[k e] r IH]; [reflexivity|]. cbn.
    rewrite qeq_false; [|pose proof (Hpos k e (or_introl eq_refl)); lra].
    rewrite IH; [reflexivity|]. intros n e' I. apply (Hpos n e'). right; exact I. }
  assert (Hs : (0 < s)%Q).
  { apply qsum_pos_list; [destruct errors; [contradiction|discriminate]|].
    intros x Hx. apply in_map_iff in Hx as ([k e] & <- & I). cbn. apply Qlt_shift_div_l; [eapply Hpos; exact I|]. lra. }
  split; [exact Hs|]. unfold weights_of. rewrite E. unfold values. rewrite map_map. cbn [snd]. fold s.
  cbv zeta. rewrite (qeq_false s) by lra. rewrite dmap_pure, map_map. reflexivity.
Qed.

Lemma qsum_div {A} (f : A -> Q) s l : (qsum (map (fun x => f x / s) l) == qsum (map f l) / s)%Q.
Proof. induction l as [|x t IH]; cbn; [unfold Qdiv; ring|]. rewrite IH. unfold Qdiv. ring. Qed.

(** ** rows *)
Lemma rows_nth cols r i : rows cols = Some r -> i < List.length r ->
  nth i r [] = map (fun c => nth i c None) cols.
Proof.
  destruct cols as [|c0 cs]; [discriminate|]. intros H. unfold rows in H. set (cols := c0 :: cs) in *.
  inversion H; subst; clear H. intros L. rewrite map_length, seq_length in L.
  set (g := fun j => map (fun c => nth j c None) cols).
  rewrite (nth_indep _ [] (g 0)) by (rewrite map_length, seq_length; exact L).
  rewrite map_nth, seq_nth by exact L. reflexivity.
Qed.
Lemma rows_length cols r n : rows cols = Some r -> (forall c, In c cols -> List.length c = n) -> List.length r = n.
Proof.
  destruct cols as [|c0 cs]; [discriminate|]. intros H L. unfold rows in H. set (cols := c0 :: cs) in *.
  inversion H; subst; clear H. rewrite map_length, seq_length.
  assert (G : forall l : list (list oQ), l <> [] -> (forall c, In c l -> List.length c = n) ->
              fold_right Nat.max 0 (map (@List.length oQ) l) = n).
  { induction l as [|c t IH]; [contradiction|]. intros _ Hl. cbn. rewrite (Hl c) by (left; reflexivity).
    destruct t as [|c' t']; [cbn; lia|]. rewrite IH; [lia|discriminate|]. intros; apply Hl; right; assumption. }
  apply (G cols); [discriminate|exact L].
Qed.
Lemma numbers_non_nan l : BacktestModel.non_nan l = numbers l.
Proof. induction l as [|[x|] t IH]; cbn; [reflexivity| |]; rewrite <- ?IH; reflexivity. Qed.

Lemma row_median_spec r : match row_median r with
  | Some v => numbers r <> [] /\ median_of (numbers r) v
  | None => numbers r = [] end.
Proof.
  unfold row_median, MetricsModel.nanmedian. rewrite numbers_non_nan. destruct (numbers r) as [|x t] eqn:E; [reflexivity|].
  split; [discriminate|]. apply qmedian_spec.
Qed.

Lemma row_dot_spec wt f : forall (r : list oQ) (w : list Q) (ns : list string),
  Forall2 (fun n c => exists x, c = Some x /\ (x == f n)%Q) ns r -> Forall2 (fun n a => (a == wt n)%Q) ns w ->
  exists v, row_dot r w = Some v /\ (v == combination ns wt f)%Q.
Proof.
  induction r as [|c r IH]; intros w ns H1 H2.
  - inversion H1; subst. inversion H2; subst. exists 0%Q. split; [reflexivity|unfold combination; cbn; ring].
  - inversion H1 as [|n ? ns' ? (x & -> & E) H3]; subst. inversion H2 as [|? a ? w' E' H4]; subst.
    destruct (IH _ _ H3 H4) as (v & Ev & Vv). exists (x * a + v)%Q. split; [cbn; rewrite Ev; reflexivity|].
    unfold combination in *. cbn. rewrite Vv, E, E'. ring.
Qed.
(** a convex combination lies between bounds of its values *)
Lemma combination_between ns wt f lo hi : normalised ns wt -> (forall n, In n ns -> lo <= f n <= hi)%Q ->
  (lo <= combination ns wt f <= hi)%Q.
Proof.
  intros [Hp Hs] H. unfold combination. split.
  - setoid_replace lo with (lo * qsum (map wt ns))%Q by (rewrite Hs; ring).
    rewrite <- qsum_scale. apply qsum_le. intros n Hn. specialize (Hp n Hn). specialize (H n Hn). nra.
  - setoid_replace hi with (hi * qsum (map wt ns))%Q by (rewrite Hs; ring).
    rewrite <- qsum_scale. apply qsum_le. intros n Hn. specialize (Hp n Hn). specialize (H n Hn). nra.
Qed.
Lemma combination_le ns wt f g : (forall n, In n ns -> 0 < wt n)%Q -> (forall n, In n ns -> f n <= g n)%Q ->
  (combination ns wt f <= combination ns wt g)%Q.
Proof. intros Hp H. apply qsum_le. intros n Hn. specialize (Hp n Hn). specialize (H n Hn). nra. Qed.

(** ** dates *)
Lemma iterate_length f n : forall d, List.length (iterate f d n) = n.
Proof. induction n as [|n IH]; intros d; cbn; [reflexivity|]. rewrite IH; reflexivity. Qed.
Lemma steps_after_comm f j : forall d, steps_after f j (f d) = f (steps_after f j d).
Proof. induction j as [|j IH]; intros d; cbn; [reflexivity|]. rewrite IH. reflexivity. Qed.
Lemma iterate_nth f n : forall d j, j < n -> nth j (iterate f d n) 0%Z = steps_after f j d.
Proof.
  induction n as [|n IH]; intros d j H; [lia|]. destruct j as [|j]; cbn; [reflexivity|].
  rewrite IH by lia. apply steps_after_comm.
Qed.
Lemma steps_after_lt f j d : (forall z, z < f z)%Z -> (d <= steps_after f j d)%Z.
Proof. intros H. induction j as [|j IH]; cbn; [lia|]. specialize (H (steps_after f j d)). lia. Qed.
Lemma iterate_above f n : (forall z, z < f z)%Z -> forall d x, In x (iterate f d n) -> (d <= x)%Z.
Proof.
  intros H. induction n as [|n IH]; intros d x; cbn; [intros []|]. intros [->|I]; [lia|].
  specialize (IH _ _ I). specialize (H d). lia.
Qed.
Lemma filter_id {A} (p : A -> bool) l : (forall x, In x l -> p x = true) -> filter p l = l.
Proof.
  induction l as [|x t IH]; intros H; [reflexivity|]. cbn. rewrite (H x) by (left; reflexivity).
  rewrite IH; [reflexivity|]. intros; apply H; right; assumption.
Qed.
Lemma future_on o last steps : (forall z, z < next o z)%Z -> roll o last = last ->
  future last steps (Some o) = Some (iterate (next o) (next o last) steps).
Proof.
  intros Hn Hr. unfold future, date_range. rewrite Hr. cbn. rewrite Z.eqb_refl. cbn.
  rewrite filter_id; [reflexivity|]. intros x Hx. apply negb_true_iff, Z.eqb_neq.
  apply iterate_above in Hx; [|exact Hn]. specialize (Hn last). lia.
Qed.
Lemma future_off o last steps : (forall z, z < next o z)%Z -> (last < roll o last)%Z ->
  future last steps (Some o) = Some (iterate (next o) (roll o last) (S steps)).
Proof.
  intros Hn Hr. unfold future, date_range. cbn [option_map].
  rewrite filter_id; [reflexivity|]. intros x Hx. apply negb_true_iff, Z.eqb_neq.
  apply iterate_above in Hx; [|exact Hn]. lia.
Qed.
Lemma table_nth {A} d (v : list A) t : table d v = Some t -> List.length d = List.length v /\ t = combine d v.
Proof. unfold table. destruct (List.length d =? List.length v) eqn:E; [|discriminate]. apply Nat.eqb_eq in E. intros H; inversion H; auto. Qed.
