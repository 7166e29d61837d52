(** C233 (downsampling), C234 (the classes returned), C235 (the error report), C236 (standardising) of the meta-learners —
    specification, proofs and theorems. *)
From Coq Require Import List Bool Arith ZArith QArith Reals Lia Lqa Lra Permutation Sorted.
From Verif Require Import Common MetricsModel MedianSpec MedianProofs EnsembleAggProps MetaSelectModel.
Import ListNotations.
Open Scope nat_scope.

(** ** Specification *)
(** sampling without replacement *)
Definition sampler (draw : list nat -> nat -> list nat) : Prop :=
  forall l n, n <= length l -> NoDup l -> NoDup (draw l n) /\ incl (draw l n) l /\ length (draw l n) = n.
Definition occurrences (l : list nat) (y : nat) : nat := count_occ Nat.eq_dec l y.
(** [p] is the probability of class [c] *)
Definition prob_of {C} (classes : list C) (prob : list Q) (c : C) (p : Q) : Prop := exists j, nth_error classes j = Some c /\ nth_error prob j = Some p.
(** argsort(-prob), whatever it does with equal probabilities *)
Definition argsorted (prob : list Q) (order : list nat) : Prop :=
  Permutation order (seq 0 (length prob)) /\ forall a b, a < b < length order -> (nth (nth b order 0%nat) prob 0 <= nth (nth a order 0%nat) prob 0)%Q.

(** ** C233 *)
Lemma firsts_in ys : forall seen y, In y (firsts seen ys) <-> In y ys /\ ~ In y seen.
Proof.
  induction ys as [|z ys IH]; intros seen y; [cbn; tauto |]. cbn [firsts]. destruct (existsb (Nat.eqb z) seen) eqn:E.
  - apply existsb_exists in E as (u & I & U). apply Nat.eqb_eq in U. subst u. rewrite IH. cbn. split; [tauto | intros [[->|A] B]; [contradiction | tauto]].
  - assert (N : ~ In z seen) by (intros I; assert (existsb (Nat.eqb z) seen = true) by (apply existsb_exists; exists z; split; [exact I | apply Nat.eqb_refl]); congruence).
    cbn [In]. rewrite IH. cbn [In]. destruct (Nat.eq_dec z y) as [->|D]; [tauto | tauto].
Qed.
Lemma firsts_nodup ys : forall seen, NoDup (firsts seen ys).
Proof.
  induction ys as [|z ys IH]; intros seen; [constructor |]. cbn [firsts]. destruct (existsb (Nat.eqb z) seen); [apply IH |]. constructor; [| apply IH].
  rewrite firsts_in. cbn. tauto.
Qed.
Lemma rows_of_len_gen y : forall ys k full, (forall i, i < length ys -> nth (k + i) full 0 = nth i ys 0) -> length (filter (fun i => nth i full 0 =? y) (seq k (length ys))) = occurrences ys y.
Proof.
  induction ys as [|z ys IH]; intros k full H; [reflexivity |]. cbn [length seq filter]. unfold occurrences. cbn [count_occ].
  assert (H0 : nth k full 0 = z) by (specialize (H 0 ltac:(cbn; lia)); rewrite Nat.add_0_r in H; exact H). rewrite H0.
  assert (H1 : forall i, i < length ys -> nth (S k + i) full 0 = nth i ys 0) by (intros i I; specialize (H (S i) ltac:(cbn; lia)); rewrite Nat.add_succ_r in H; exact H).
  destruct (Nat.eqb_spec z y) as [->|D].
  - destruct (Nat.eq_dec y y) as [_|D]; [| congruence]. cbn [length]. f_equal. apply IH. exact H1.
  - destruct (Nat.eq_dec z y); [congruence |]. apply IH. exact H1.
Qed.
Lemma rows_of_len ys y : length (rows_of ys y) = occurrences ys y.
Proof. apply rows_of_len_gen. intros; reflexivity. Qed.
Lemma rows_of_in ys y i : In i (rows_of ys y) <-> i < length ys /\ nth i ys 0 = y.
Proof. unfold rows_of. rewrite filter_In, in_seq, Nat.eqb_eq. split; intros [A B]; split; lia || exact B. Qed.
Lemma rows_of_nodup ys y : NoDup (rows_of ys y).
Proof. apply NoDup_filter, seq_NoDup. Qed.
Lemma fold_min_spec l : forall n, (fold_left Nat.min l n <= n /\ forall x, In x l -> fold_left Nat.min l n <= x) /\ In (fold_left Nat.min l n) (n :: l).
Proof.
  induction l as [|x l IH]; intros n; [cbn; split; [split; [lia | intros ? []] | left; reflexivity] |]. cbn [fold_left]. destruct (IH (Nat.min n x)) as [[A B] C]. split.
  - split; [lia |]. intros u [<-|I]; [lia | apply B; exact I].
  - destruct C as [C|C]; [| right; right; exact C]. destruct (Nat.min_spec n x) as [[_ E]|[_ E]]; [left | right; left]; rewrite <- C, E; reflexivity.
Qed.
Lemma min_count_spec ys : ys <> [] -> (forall y, In y ys -> min_count ys <= occurrences ys y) /\ exists y, In y ys /\ occurrences ys y = min_count ys.
Proof.
  intros N. unfold min_count. destruct (map (fun y => length (rows_of ys y)) (firsts [] ys)) as [|n r] eqn:E.
  - exfalso. apply map_eq_nil in E. destruct ys as [|y ys]; [congruence |]. assert (I : In y (firsts [] (y :: ys))) by (apply firsts_in; cbn; tauto). rewrite E in I. destruct I.
  - destruct (fold_min_spec r n) as [[A B] C]. split.
    + intros y I. rewrite <- rows_of_len. assert (J : In (length (rows_of ys y)) (n :: r)) by (rewrite <- E; apply (in_map (fun y => length (rows_of ys y))); apply firsts_in; cbn; tauto).
      destruct J as [<-|J]; [exact A | apply B; exact J].
    + rewrite <- E in C. apply in_map_iff in C as (y & Ey & I). exists y. split; [apply firsts_in in I; apply I | rewrite <- rows_of_len; exact Ey].
Qed.
Section Down.
Context {H X : Type}.
Variable draw : list nat -> nat -> list nat.
Variables (h0 : H) (x0 : X).
Lemma drawn_part ys y : sampler draw -> In y ys -> NoDup (draw (rows_of ys y) (min_count ys)) /\ incl (draw (rows_of ys y) (min_count ys)) (rows_of ys y) /\ length (draw (rows_of ys y) (min_count ys)) = min_count ys.
Proof.
  intros S I. apply S; [| apply rows_of_nodup]. rewrite rows_of_len. apply min_count_spec; [intros E; subst; destruct I | exact I].
Qed.
Lemma drawn_keys ys keys : sampler draw -> NoDup keys -> incl keys ys ->
  let d := flat_map (fun y => draw (rows_of ys y) (min_count ys)) keys in
  NoDup d /\ (forall i, In i d -> i < length ys /\ In (nth i ys 0) keys) /\ forall y, occurrences (map (fun i => nth i ys 0) d) y = if in_dec Nat.eq_dec y keys then min_count ys else 0.
Proof.
  intros S. induction keys as [|k keys IH]; intros ND IN; cbv zeta; [split; [constructor | split; [intros ? [] | intros y; reflexivity]] |].
  inversion ND as [|? ? N1 N2]; subst. destruct (IH N2 ltac:(intros y I; apply IN; right; exact I)) as (A & B & C). cbn [flat_map].
  destruct (drawn_part ys k S (IN k (or_introl eq_refl))) as (D & E & F).
  assert (V : forall i, In i (draw (rows_of ys k) (min_count ys)) -> i < length ys /\ nth i ys 0 = k) by (intros i I; apply rows_of_in, E; exact I).
  split; [| split].
  - assert (AP : forall (l1 l2 : list nat), NoDup l1 -> NoDup l2 -> (forall x, In x l1 -> ~ In x l2) -> NoDup (l1 ++ l2)).
    { clear. induction l1 as [|x l1 IH]; intros l2 P Q0 R0; [exact Q0 |]. cbn. inversion P; subst. constructor; [rewrite in_app_iff; intros [G|G]; [contradiction | exact (R0 x (or_introl eq_refl) G)] |]. apply IH; [assumption | exact Q0 | intros y G; apply R0; right; exact G]. }
    apply AP; [exact D | exact A |]. intros i I J. apply V in I as [_ I]. apply B in J as [_ J]. rewrite I in J. contradiction.
  - intros i I. apply in_app_iff in I as [I|I]; [apply V in I as [I1 I2]; split; [exact I1 | left; symmetry; exact I2] | apply B in I as [I1 I2]; split; [exact I1 | right; exact I2]].
  - intros y. unfold occurrences in *. rewrite map_app, count_occ_app, C.
    assert (M : map (fun i => nth i ys 0) (draw (rows_of ys k) (min_count ys)) = repeat k (min_count ys)).
    { rewrite <- F at 2. clear F. revert V. generalize (draw (rows_of ys k) (min_count ys)). clear. intros l V. induction l as [|i l IH]; [reflexivity |]. cbn [map length repeat]. f_equal; [apply V; left; reflexivity | apply IH; intros; apply V; right; assumption]. }
    rewrite M. destruct (Nat.eq_dec k y) as [->|Dk].
    + rewrite count_occ_repeat_eq by reflexivity. destruct (in_dec Nat.eq_dec y keys); [contradiction |]. destruct (in_dec Nat.eq_dec y (y :: keys)) as [_|G]; [lia | exfalso; apply G; left; reflexivity].
    + rewrite count_occ_repeat_neq by congruence. destruct (in_dec Nat.eq_dec y keys) as [G|G], (in_dec Nat.eq_dec y (k :: keys)) as [G'|G']; try reflexivity; exfalso; [apply G'; right; exact G | destruct G' as [->|G']; [congruence | contradiction]].
Qed.
(** C233: the downsampled data consist of rows of the data, each at most once, features, parameters and label together; every
    label occurs as often as the rarest one did *)
Theorem C233_balanced hs xs ys : sampler draw -> ys <> [] ->
  exists idx m, resample draw h0 x0 hs xs ys = (map (fun i => nth i hs h0) idx, map (fun i => nth i xs x0) idx, map (fun i => nth i ys 0) idx) /\
  NoDup idx /\ (forall i, In i idx -> i < length ys) /\
  (forall y, In y ys -> m <= occurrences ys y) /\ (exists y, In y ys /\ occurrences ys y = m) /\
  forall y, In y ys -> occurrences (map (fun i => nth i ys 0) idx) y = m.
Proof.
  intros S N. exists (drawn draw ys), (min_count ys). split; [reflexivity |].
  destruct (drawn_keys ys (firsts [] ys) S (firsts_nodup ys [])) as (A & B & C); [intros y I; apply firsts_in in I; apply I |].
  split; [exact A |]. split; [intros i I; apply B; exact I |]. destruct (min_count_spec ys N) as [M1 M2]. split; [exact M1 |]. split; [exact M2 |].
  intros y I. unfold drawn. rewrite C. destruct (in_dec Nat.eq_dec y (firsts [] ys)) as [_|G]; [reflexivity |]. exfalso. apply G, firsts_in. cbn. tauto.
Qed.
End Down.
Example C233_case : sampler (fun l n => firstn n l) /\
  resample (fun l n => firstn n l) 0 0 [10;11;12;13;14;15] [20;21;22;23;24;25] [7;8;7;7;8;9] = ([10;11;15], [20;21;25], [7;8;9]).
Proof.
  split; [| reflexivity]. intros l n L ND. split; [| split].
  - rewrite <- (firstn_skipn n l) in ND. revert ND. generalize (firstn n l) (skipn n l). clear. intros a b. induction a as [|x a IH]; intros ND; [constructor |]. cbn in ND. inversion ND; subst. constructor; [intros I; apply H1, in_app_iff; left; exact I | apply IH; exact H2].
  - intros x I. rewrite <- (firstn_skipn n l). apply in_app_iff. left. exact I.
  - rewrite firstn_length. lia.
Qed.

(** ** C234 *)
Lemma nodup_firstn {A} n (l : list A) : NoDup l -> NoDup (firstn n l).
Proof.
  intros ND. rewrite <- (firstn_skipn n l) in ND. revert ND. generalize (firstn n l) (skipn n l). clear. intros a b. induction a as [|x a IH]; intros ND; [constructor |]. cbn in ND. inversion ND; subst. constructor; [intros I; apply H1, in_app_iff; left; exact I | apply IH; exact H2].
Qed.
Lemma nth_firstn {A} n (l : list A) k d : k < n -> nth k (firstn n l) d = nth k l d.
Proof. revert l k. induction n as [|n IH]; intros l k L; [lia |]. destruct l as [|x l]; [reflexivity |]. destruct k as [|k]; [reflexivity |]. cbn. apply IH. lia. Qed.
Section Top.
Context {C : Type}.
Variables (classes : list C) (c0 : C) (prob : list Q) (order : list nat).
Hypothesis distinct : NoDup classes.
Hypothesis lens : length classes = length prob.
Hypothesis sorted : argsorted prob order.
Lemma order_len : length order = length classes.
Proof. destruct sorted as [P _]. rewrite (Permutation_length P), seq_length. symmetry. exact lens. Qed.
Lemma order_lt a : a < length order -> nth a order 0 < length classes.
Proof. intros L. destruct sorted as [P _]. pose proof (Permutation_in _ P (nth_In order 0 L)) as I. apply in_seq in I. lia. Qed.
Lemma order_nodup : NoDup order.
Proof. destruct sorted as [P _]. apply (Permutation_NoDup (Permutation_sym P)). apply seq_NoDup. Qed.
Lemma prob_unique c p q j : prob_of classes prob c p -> nth_error classes j = Some c -> q = nth j prob 0%Q -> p = q.
Proof.
  intros (i & Ec & Ep) Ej ->. assert (i = j); [| subst; symmetry; apply nth_error_nth; exact Ep].
  apply (proj1 (NoDup_nth_error classes) distinct); [apply nth_error_Some; congruence | congruence].
Qed.
Lemma ordered_nth a : a < length order -> nth_error (map (fun i => nth i classes c0) order) a = Some (nth (nth a order 0) classes c0).
Proof. intros L. rewrite nth_error_map, (nth_error_nth' order 0 L). reflexivity. Qed.
(** C234: the [n_top] classes returned are different classes, in order of their probability, and no other class is more probable *)
Theorem C234_top n : (1 <= n)%Z ->
  let r := top classes c0 order n in
  length r = Nat.min (Z.to_nat n) (length classes) /\ NoDup r /\ incl r classes /\
  (forall a b c c' p p', a < b -> nth_error r a = Some c -> nth_error r b = Some c' -> prob_of classes prob c p -> prob_of classes prob c' p' -> (p' <= p)%Q) /\
  (forall c c' p p', In c r -> ~ In c' r -> prob_of classes prob c p -> prob_of classes prob c' p' -> (p' <= p)%Q).
Proof.
  intros N. cbv zeta. unfold top. destruct (Z.ltb_spec n 0) as [|_]; [lia |]. set (k := Z.to_nat n). assert (K : 1 <= k) by lia.
  set (o := map (fun i => nth i classes c0) order).
  assert (Lo : length o = length classes) by (unfold o; rewrite map_length; apply order_len).
  assert (NDo : NoDup o).
  { apply NoDup_nth_error. intros a b La E. assert (Lb : b < length o) by (apply nth_error_Some; rewrite <- E; apply nth_error_Some; exact La).
    unfold o in *. rewrite map_length in La, Lb. rewrite (ordered_nth a La), (ordered_nth b Lb) in E. injection E as E.
    assert (E' : nth a order 0 = nth b order 0) by (apply (proj1 (NoDup_nth classes c0) distinct); [apply order_lt; exact La | apply order_lt; exact Lb | exact E]).
    apply (proj1 (NoDup_nth order 0) order_nodup); assumption. }
  assert (ORD : forall a b c c' p p', a < b -> nth_error o a = Some c -> nth_error o b = Some c' -> prob_of classes prob c p -> prob_of classes prob c' p' -> (p' <= p)%Q).
  { intros a b c c' p p' L Ea Eb Pc Pc'. assert (Lb : b < length order) by (rewrite <- (map_length (fun i => nth i classes c0) order); apply nth_error_Some; fold o; congruence).
    unfold o in *. rewrite ordered_nth in Ea by lia. rewrite ordered_nth in Eb by exact Lb. injection Ea as Ea. injection Eb as Eb.
    rewrite (prob_unique c p _ (nth a order 0) Pc ltac:(rewrite <- Ea; apply nth_error_nth'; apply order_lt; lia) eq_refl), (prob_unique c' p' _ (nth b order 0) Pc' ltac:(rewrite <- Eb; apply nth_error_nth'; apply order_lt; lia) eq_refl).
    apply sorted. lia. }
  split; [rewrite firstn_length, Lo; reflexivity |]. split; [apply nodup_firstn; exact NDo |].
  assert (NE : forall a c, nth_error (firstn k o) a = Some c -> a < k /\ nth_error o a = Some c).
  { intros a c E. assert (La : a < length (firstn k o)) by (apply nth_error_Some; congruence). rewrite firstn_length in La. split; [lia |]. rewrite <- (firstn_skipn k o), nth_error_app1 by (rewrite firstn_length; lia). exact E. }
  split; [| split].
  - intros c I. apply In_nth_error in I as [a Ea]. apply NE in Ea as [_ Ea]. unfold o in Ea. assert (La : a < length order) by (rewrite <- (map_length (fun i => nth i classes c0) order); apply nth_error_Some; congruence). rewrite ordered_nth in Ea by exact La. injection Ea as <-. apply nth_In. apply order_lt. exact La.
  - intros a b c c' p p' L Ea Eb. apply NE in Ea as [_ Ea]. apply NE in Eb as [_ Eb]. eapply ORD; eassumption.
  - intros c c' p p' I NI Pc Pc'. apply In_nth_error in I as [a Ea]. apply NE in Ea as [La Ea].
    destruct Pc' as (j & Ej & Ep). assert (Lj : j < length classes) by (apply nth_error_Some; congruence).
    assert (Ij : In j order) by (destruct sorted as [P _]; apply (Permutation_in _ (Permutation_sym P)); apply in_seq; lia).
    apply (In_nth _ _ 0) in Ij as (b & Lb & Eb).
    assert (Eo : nth_error o b = Some c') by (unfold o; rewrite ordered_nth by exact Lb; rewrite Eb; f_equal; apply nth_error_nth; exact Ej).
    assert (Kb : k <= b). { destruct (Nat.le_gt_cases k b) as [G|G]; [exact G |]. exfalso. apply NI. apply (nth_error_In _ b). rewrite <- (firstn_skipn k o), nth_error_app1 in Eo; [exact Eo | rewrite firstn_length, Lo; pose proof order_len; lia]. }
    apply (ORD a b c c' p p'); [lia | exact Ea | exact Eo | exact Pc | exists j; split; assumption].
Qed.
End Top.

Lemma mean_between l lo hi : l <> [] -> (forall x, In x l -> lo <= x <= hi)%Q -> (lo <= mean l <= hi)%Q.
Proof.
  intros N H. assert (S : (inject_Z (Z.of_nat (length l)) * lo <= qsum l <= inject_Z (Z.of_nat (length l)) * hi)%Q).
  { clear N. induction l as [|x l IH]; [change (inject_Z (Z.of_nat (length (@nil Q)))) with 0%Q; cbn [qsum]; lra |]. cbn [qsum length]. destruct (IH ltac:(intros; apply H; right; assumption)) as [A B]. pose proof (H x (or_introl eq_refl)).
    rewrite Nat2Z.inj_succ. unfold Z.succ. rewrite inject_Z_plus. change (inject_Z 1) with 1%Q. split; nra. }
  unfold mean. assert (P : (0 < inject_Z (Z.of_nat (length l)))%Q) by (change 0%Q with (inject_Z 0); rewrite <- Zlt_Qlt; destruct l; [congruence | cbn [length]; lia]).
  split; [apply Qle_shift_div_l | apply Qle_shift_div_r]; try exact P; lra.
Qed.
Lemma mean_nonneg l : (forall x, In x l -> 0 <= x)%Q -> (0 <= mean l)%Q.
Proof.
  intros H. destruct l as [|x l]; [vm_compute; discriminate |]. unfold mean. apply Qle_shift_div_l; [change 0%Q with (inject_Z 0); rewrite <- Zlt_Qlt; cbn [length]; lia |]. rewrite Qmult_0_l. apply qsum_nonneg. exact H.
Qed.
Lemma chunk_len n rep idx : length (chunk n rep idx) = rep.
Proof. revert idx. induction rep as [|r IH]; intros idx; [reflexivity |]. cbn. f_equal. apply IH. Qed.
Lemma b2q_range b : (0 <= b2q b <= 1)%Q.
Proof. destruct b; cbn; lra. Qed.
(** C234: the fuzzy prediction names the most probable class, and the second one exactly if the bootstrap value, which lies
    between 0 and 1, is not below the level; it is 0 if every tree finds the first class at least as probable *)
Theorem C234_fuzzy {C} (classes : list C) c0 prob order trees sig idx labels probs p : argsorted prob order -> 2 <= length prob ->
  fuzzy classes c0 order prob trees sig idx = (labels, probs, p) ->
  (0 <= p <= 1)%Q /\
  (labels = map (fun i => nth i classes c0) (firstn (if Qle_bool sig p then 2 else 1) order) /\ probs = map (fun i => nth i prob 0%Q) (firstn (if Qle_bool sig p then 2 else 1) order)) /\
  (forall x, In x prob -> (x <= nth 0 probs 0)%Q) /\
  ((forall t, In t trees -> (nth (nth 1 order 0%nat) t 0 <= nth (nth 0 order 0%nat) t 0)%Q) -> (p == 0)%Q /\ ((0 < sig)%Q -> length labels = 1)).
Proof.
  intros [P S] L2 E. unfold fuzzy in E. cbv zeta in E. rewrite !nth_firstn in E by lia. set (bp := bootstrap _ _ 200 idx) in E. apply pair_equal_spec in E as [E Ep]. apply pair_equal_spec in E as [El Er]. subst labels probs p.
  assert (Lo : length order = length prob) by (rewrite (Permutation_length P); apply seq_length).
  assert (R01 : (0 <= bp <= 1)%Q).
  { unfold bp, bootstrap. cbv zeta. apply mean_between.
    - intros E. apply (f_equal (@length Q)) in E. rewrite !map_length, chunk_len in E. cbn in E. lia.
    - intros x I. apply in_map_iff in I as (b & <- & _). apply b2q_range. }
  split; [exact R01 |]. split.
  - assert (F : (if Qle_bool sig bp then firstn 2 order else firstn 1 (firstn 2 order)) = firstn (if Qle_bool sig bp then 2 else 1) order).
    { destruct (Qle_bool sig bp); [reflexivity |]. rewrite firstn_firstn. reflexivity. }
    rewrite F. split; reflexivity.
  - split.
    + intros x I. assert (H0 : nth 0 (map (fun i => nth i prob 0%Q) (if Qle_bool sig bp then firstn 2 order else firstn 1 (firstn 2 order))) 0%Q = nth (nth 0 order 0) prob 0%Q).
      { destruct order as [|a [|b o]]; cbn [length] in Lo; try lia. destruct (Qle_bool sig bp); reflexivity. }
      rewrite H0. apply (In_nth _ _ 0%Q) in I as (j & Lj & <-). assert (Ij : In j order) by (apply (Permutation_in _ (Permutation_sym P)); apply in_seq; lia).
      apply (In_nth _ _ 0) in Ij as (b & Lb & <-). destruct b as [|b]; [lra |]. apply S. lia.
    + intros T. assert (Z : (bp == 0)%Q).
      { unfold bp, bootstrap. cbv zeta. set (diff := map _ (combine _ _)).
        assert (D : forall i, (0 <= nth i diff 0)%Q).
        { intros i. destruct (Nat.lt_ge_cases i (length diff)) as [G|G]; [| rewrite nth_overflow by exact G; lra]. pose proof (nth_In diff 0%Q G) as I. revert I. generalize (nth i diff 0%Q). intros x I. unfold diff in I.
          apply in_map_iff in I as ([a b] & <- & I). cbn [fst snd]. clear -T I. induction trees as [|t trees IH]; [destruct I |]. cbn [map combine] in I. destruct I as [I|I]; [injection I as <- <-; pose proof (T t (or_introl eq_refl)); lra | apply IH; [intros; apply T; right; assumption | exact I]]. }
        assert (M : forall c, (0 <= mean (map (fun i => nth i diff 0%Q) c))%Q) by (intros c; apply mean_nonneg; intros x I; apply in_map_iff in I as (i & <- & _); apply D).
        assert (B : forall x, In x (map (fun b => b2q (negb (Qle_bool 0 b))) (map (fun c => mean (map (fun i => nth i diff 0%Q) c)) (chunk (length diff) 200 idx))) -> (0 <= x <= 0)%Q).
        { intros x I. apply in_map_iff in I as (b & <- & I). apply in_map_iff in I as (c & <- & _). rewrite (proj2 (Qle_bool_iff 0 _) (M c)). cbn. lra. }
        assert (N0 : map (fun b => b2q (negb (Qle_bool 0 b))) (map (fun c => mean (map (fun i => nth i diff 0%Q) c)) (chunk (length diff) 200 idx)) <> []) by (intros E; apply (f_equal (@length Q)) in E; rewrite !map_length, chunk_len in E; cbn in E; lia).
        pose proof (mean_between _ 0%Q 0%Q N0 B). lra. }
      split; [exact Z |]. intros Hs. destruct (Qle_bool sig bp) eqn:E; [apply Qle_bool_iff in E; lra |]. rewrite map_length. destruct order as [|a [|b o]]; cbn [length] in Lo; try lia. reflexivity.
Qed.
Example C234_case : argsorted [2#10; 5#10; 3#10] [1;2;0] /\ top [7;8;9] 0 [1;2;0] 2 = [8;9].
Proof.
  split; [| reflexivity]. split; [cbn; apply (Permutation_trans (perm_skip 1 (perm_swap 0 2 []))); apply perm_swap |].
  intros a b [L1 L2]. cbn in L2. destruct a as [|[|[|]]], b as [|[|[|]]]; try lia; vm_compute; discriminate.
Qed.
Example C234_fuzzy_case : fst (fuzzy [7;8;9] 0 [1;2;0] [2#10; 5#10; 3#10] [[0; 6#10; 4#10]%Q; [4#10; 4#10; 2#10]%Q] (2#10) (repeat 0 400)) = ([8], [5#10]%Q).
Proof. vm_compute. reflexivity. Qed.

(** ** C235 *)
Section Report.
Variable Row : Type.
Variable errs : Row -> nat -> Q.
(** C235: if for every row the predicted model has the least error, then the learner's error is not above that of any fixed model,
    for means and for medians *)
Theorem C235_oracle median rows predicted label : length predicted = length rows ->
  (forall r c, In (r, c) (combine rows predicted) -> (errs r c <= errs r label)%Q) ->
  (meta_error Row errs median rows predicted <= label_error Row errs median rows label)%Q.
Proof.
  intros L H. unfold meta_error, label_error.
  assert (F : Forall2 Qle (map (fun rc => errs (fst rc) (snd rc)) (combine rows predicted)) (map (fun r => errs r label) rows)).
  { revert predicted L H. induction rows as [|r rows IH]; intros [|c predicted] L H; try discriminate L; [constructor |]. cbn [combine map fst snd]. constructor; [apply H; left; reflexivity |]. apply IH; [injection L; auto | intros; apply H; right; assumption]. }
  assert (LL : length (map (fun rc => errs (fst rc) (snd rc)) (combine rows predicted)) = length (map (fun r => errs r label) rows)) by (rewrite !map_length, combine_length; lia).
  unfold em. destruct median.
  - eapply median_mono; [exact F | apply qmedian_spec | apply qmedian_spec].
  - unfold mean. rewrite LL. assert (Q0 : (qsum (map (fun rc => errs (fst rc) (snd rc)) (combine rows predicted)) <= qsum (map (fun r => errs r label) rows))%Q) by (clear LL; induction F; cbn [qsum]; lra).
    destruct (length (map (fun r => errs r label) rows)) as [|n]; [unfold Qdiv; change (/ inject_Z (Z.of_nat 0))%Q with 0%Q; lra |].
    unfold Qdiv. apply Qmult_le_compat_r; [exact Q0 |]. apply Qinv_le_0_compat. change 0%Q with (inject_Z 0). rewrite <- Zle_Qle. lia.
Qed.
(** and if the learner always predicts the same model its error is that model's *)
Theorem C235_constant median rows label : meta_error Row errs median rows (repeat label (length rows)) = label_error Row errs median rows label.
Proof.
  unfold meta_error, label_error. f_equal. induction rows as [|r rows IH]; [reflexivity |]. cbn [length repeat combine map fst snd]. f_equal. exact IH.
Qed.
End Report.
Example C235_case : let errs := fun (r c : nat) => nth c (nth r [[1;5;3]%Q;[4;2;9]%Q;[7;8;6]%Q] []) 0%Q in
  (meta_error nat errs false [0;1;2]%nat [0;1;2]%nat == 3 /\ label_error nat errs false [0;1;2]%nat 0%nat == 4 /\ meta_error nat errs true [0;1;2]%nat [0;1;2]%nat == 2)%Q.
Proof. cbv zeta. split; [| split]; vm_compute; reflexivity. Qed.

(** ** C236 *)
Open Scope R_scope.
Lemma rtotal_map_standard m s l : s <> 0 -> rtotal (map (standard m s) l) = (rtotal l - INR (length l) * m) / s.
Proof.
  intros S. induction l as [|x l IH]; [cbn; field; exact S |]. change (rtotal (map (standard m s) (x :: l))) with (standard m s x + rtotal (map (standard m s) l)). rewrite IH. unfold standard.
  change (rtotal (x :: l)) with (x + rtotal l). change (length (x :: l)) with (Datatypes.S (length l)). rewrite S_INR. field. exact S.
Qed.
Lemma rmean_standard m s l : s <> 0 -> l <> [] -> rmean (map (standard m s) l) = (rmean l - m) / s.
Proof.
  intros S N. unfold rmean. rewrite rtotal_map_standard by exact S. rewrite map_length. field. split; try exact S; apply not_0_INR; destruct l; [congruence | discriminate].
Qed.
Lemma rtotal_scale k (f : R -> R) l : rtotal (map (fun x => k * f x) l) = k * rtotal (map f l).
Proof. induction l as [|x l IH]; cbn; [ring |]. unfold rtotal in IH. rewrite IH. ring. Qed.
Lemma rvar_standard m s l : s <> 0 -> l <> [] -> rvar (map (standard m s) l) = rvar l / (s * s).
Proof.
  intros S N. unfold rvar. rewrite (rmean_standard m s l S N). rewrite map_map. set (mu := rmean l).
  assert (E : map (fun x => (standard m s x - (mu - m) / s) * (standard m s x - (mu - m) / s)) l = map (fun x => / (s * s) * ((x - mu) * (x - mu))) l).
  { apply map_ext. intros x. unfold standard. field. exact S. }
  rewrite E. unfold rmean. rewrite rtotal_scale, !map_length. field. split; try exact S; apply not_0_INR; destruct l; [congruence | discriminate].
Qed.
Lemma rstd_pos l : rstd l <> 0.
Proof. unfold rstd. cbv zeta. destruct (Req_EM_T _ 0); [apply R1_neq_R0 | assumption]. Qed.
Lemma rtotal_nonneg l : (forall x, In x l -> 0 <= x) -> 0 <= rtotal l.
Proof. induction l as [|x l IH]; intros H; [cbn; Lra.lra |]. change (rtotal (x :: l)) with (x + rtotal l). pose proof (H x (or_introl eq_refl)). pose proof (IH ltac:(intros; apply H; right; assumption)). Lra.lra. Qed.
Lemma rvar_nonneg l : 0 <= rvar l.
Proof.
  unfold rvar, rmean at 1. destruct l as [|x l]; [cbn; unfold Rdiv; rewrite Rmult_0_l; Lra.lra |]. rewrite map_length. apply Rmult_le_pos; [| left; apply Rinv_0_lt_compat, lt_0_INR; cbn; lia].
  apply rtotal_nonneg. intros y I. apply in_map_iff in I as (z & <- & _). apply Rle_0_sqr.
Qed.
Lemma rtotal_zero l : (forall x, In x l -> 0 <= x) -> rtotal l = 0 -> forall x, In x l -> x = 0.
Proof.
  induction l as [|y l IH]; intros H E x I; [destruct I |]. change (rtotal (y :: l)) with (y + rtotal l) in E. pose proof (H y (or_introl eq_refl)). pose proof (rtotal_nonneg l ltac:(intros; apply H; right; assumption)).
  destruct I as [<-|I]; [Lra.lra |]. apply IH; [intros; apply H; right; assumption | Lra.lra | exact I].
Qed.
Lemma rvar_zero l : rvar l = 0 -> forall x, In x l -> x = rmean l.
Proof.
  intros E x I. unfold rvar in E. unfold rmean at 1 in E. rewrite map_length in E. assert (N : INR (length l) <> 0) by (apply not_0_INR; destruct l; [destruct I | discriminate]).
  assert (T : rtotal (map (fun x => (x - rmean l) * (x - rmean l)) l) = 0) by (apply (Rmult_eq_reg_r (/ INR (length l))); [unfold Rdiv in E; rewrite E; ring | apply Rinv_neq_0_compat; exact N]).
  pose proof (rtotal_zero _ ltac:(intros y J; apply in_map_iff in J as (z & <- & _); apply Rle_0_sqr) T ((x - rmean l) * (x - rmean l)) ltac:(apply (in_map (fun x => (x - rmean l) * (x - rmean l))); exact I)) as Z.
  apply Rmult_integral in Z as [Z|Z]; Lra.lra.
Qed.
Lemma rstd_sq l : rvar l <> 0 -> rstd l * rstd l = rvar l.
Proof.
  intros N. unfold rstd. cbv zeta. destruct (Req_EM_T (sqrt (rvar l)) 0) as [E|E].
  - exfalso. apply N. apply sqrt_eq_0; [apply rvar_nonneg | exact E].
  - apply sqrt_sqrt, rvar_nonneg.
Qed.
Lemma standard_col l : l <> [] -> rmean (map (standard (rmean l) (rstd l)) l) = 0 /\
  (rvar (map (standard (rmean l) (rstd l)) l) = 1 \/ forall x, In x (map (standard (rmean l) (rstd l)) l) -> x = 0).
Proof.
  intros N. split; [rewrite (rmean_standard _ _ _ (rstd_pos l) N); unfold Rdiv; ring |]. destruct (Req_EM_T (rvar l) 0) as [E|E].
  - right. intros x I. apply in_map_iff in I as (y & <- & I). rewrite (rvar_zero l E y I). unfold standard, Rdiv. ring.
  - left. rewrite (rvar_standard _ _ _ (rstd_pos l) N), (rstd_sq l E). field. exact E.
Qed.
(** C236: after [preprocess] a feature has mean 0 and variance 1 (or is 0 throughout, if it was constant) *)
Theorem C236_standard cells : cells <> [] -> let c := col (preprocess_p (organized cells)) in
  length c = length cells /\ rmean c = 0 /\ (rvar c = 1 \/ forall x, In x c -> x = 0).
Proof.
  intros N. cbv zeta. cbn [preprocess_p organized col x_mean x_std]. split; [rewrite !map_length; reflexivity |]. apply standard_col. intros E. apply map_eq_nil in E. contradiction.
Qed.
Theorem C236_standard_down cells rows : rows <> [] -> let c := col (preprocess_s (Some rows) true (organized cells)) in
  length c = length rows /\ rmean c = 0 /\ (rvar c = 1 \/ forall x, In x c -> x = 0).
Proof.
  intros N. cbv zeta. cbn [preprocess_s organized col x_mean x_std]. split; [rewrite !map_length; reflexivity |]. apply standard_col. intros E. apply map_eq_nil in E. contradiction.
Qed.
(** features of a new series are treated as those of the training series were: preprocessed never or once, with or without
    downsampling; for pred_by_feature of the model selection only features that are not NaN *)
Theorem C236_same_partial cells i : (i < length cells)%nat ->
  let x := nth i cells None in
  (let l := organized cells in nth i (col l) 0 = seen_p l x /\ nth i (col l) 0 = seen_s l x) /\
  (let l := preprocess_p (organized cells) in nth i (col l) 0 = seen_p l x) /\
  (let l := preprocess_s None true (organized cells) in nth i (col l) 0 = seen_fuzzy l x /\ (x <> None -> nth i (col l) 0 = seen_s l x)) /\
  (forall rows k, (k < length rows)%nat -> nth k rows 0%nat = i -> let l := preprocess_s (Some rows) true (organized cells) in
     nth k (col l) 0 = seen_fuzzy l x /\ (x <> None -> nth k (col l) 0 = seen_s l x)).
Proof.
  intros L. cbv zeta.
  assert (F : nth i (map fill cells) 0 = fill (nth i cells None)) by (rewrite (nth_indep _ 0 (fill None)) by (rewrite map_length; exact L); apply map_nth).
  assert (St : forall m s (l : list R) k, (k < length l)%nat -> nth k (map (standard m s) l) 0 = standard m s (nth k l 0)) by (intros m s l k K; rewrite (nth_indep _ 0 (standard m s 0)) by (rewrite map_length; exact K); apply map_nth).
  split; [| split; [| split]].
  - cbn [organized col seen_p seen_s flag]. rewrite F. split; reflexivity.
  - cbn [preprocess_p organized col seen_p flag x_mean x_std]. rewrite St by (rewrite map_length; exact L). rewrite F. reflexivity.
  - cbn [preprocess_s organized col seen_fuzzy seen_s flag x_mean x_std]. rewrite St by (rewrite map_length; exact L). rewrite F. split; [reflexivity |]. destruct (nth i cells None); [reflexivity | congruence].
  - intros rows k K <-. cbn [preprocess_s organized col seen_fuzzy seen_s flag x_mean x_std].
    rewrite St by (rewrite map_length; exact K). rewrite (nth_indep (map (fun i => nth i (map fill cells) 0) rows) 0 (nth 0 (map fill cells) 0)) by (rewrite map_length; exact K). rewrite (map_nth (fun i => nth i (map fill cells) 0) rows 0%nat k). rewrite F.
    split; [reflexivity |]. destruct (nth (nth k rows 0%nat) cells None); [reflexivity | congruence].
Qed.
(** preprocess called a second time standardises again, with the old mean and deviation: the mean is then -m/s *)
Theorem C236_twice_refuted cells : cells <> [] -> let l := organized cells in
  rmean (col (preprocess_p (preprocess_p l))) = - x_mean l / x_std l /\
  rmean (col (preprocess_s None true (preprocess_s None true l))) = - x_mean l / x_std l /\ x_std l <> 0.
Proof.
  intros N. cbv zeta. cbn [preprocess_p preprocess_s organized col x_mean x_std]. set (c := map fill cells). assert (Nc : c <> []) by (intros E; apply map_eq_nil in E; contradiction).
  assert (H : rmean (map (standard (rmean c) (rstd c)) (map (standard (rmean c) (rstd c)) c)) = - rmean c / rstd c).
  { rewrite (rmean_standard _ _ _ (rstd_pos c)); [| intros E; apply map_eq_nil in E; contradiction]. rewrite (proj1 (standard_col c Nc)). unfold Rdiv. ring. }
  split; [exact H |]. split; [exact H |]. apply rstd_pos.
Qed.
(** a NaN feature: the training rows hold (0 - mean) / deviation, pred_fuzzy gives the classifier the same, pred_by_feature 0 *)
Theorem C236_nan_refuted cells i : (i < length cells)%nat -> nth i cells None = None -> let l := preprocess_s None true (organized cells) in
  nth i (col l) 0 = - x_mean l / x_std l /\ seen_fuzzy l None = - x_mean l / x_std l /\ seen_s l None = 0 /\ x_mean l = rmean (map fill cells).
Proof.
  intros L E. cbv zeta. destruct (C236_same_partial cells i L) as (_ & _ & [A _] & _). cbv zeta in A. rewrite A, E.
  assert (H : seen_fuzzy (preprocess_s None true (organized cells)) None = - x_mean (preprocess_s None true (organized cells)) / x_std (preprocess_s None true (organized cells))).
  { cbn [preprocess_s organized seen_fuzzy flag x_mean x_std fill]. unfold standard, Rdiv. ring. }
  split; [exact H |]. split; [exact H |]. split; reflexivity.
Qed.
(** downsampling after standardising: new series are no longer standardised as the training rows were *)
Theorem C236_down_refuted cells v : cells <> [] -> rvar (map fill cells) <> 0 ->
  let l := preprocess_s (Some (seq 0 (length cells))) false (preprocess_s None true (organized cells)) in
  col l = map (standard (rmean (map fill cells)) (rstd (map fill cells))) (map fill cells) /\ seen_s l (Some v) = v.
Proof.
  intros N V. cbv zeta. set (c := map fill cells) in *. assert (Nc : c <> []) by (intros E; apply map_eq_nil in E; contradiction).
  cbn [preprocess_s organized col flag x_mean x_std seen_s]. fold c. set (d := map (standard (rmean c) (rstd c)) c).
  assert (I : map (fun i => nth i d 0) (seq 0 (length cells)) = d).
  { assert (Ld : length d = length cells) by (unfold d, c; rewrite !map_length; reflexivity). rewrite <- Ld. clear. induction d as [|x d IH]; [reflexivity |]. cbn [length seq map nth]. f_equal. rewrite <- seq_shift, map_map. exact IH. }
  rewrite I. split; [reflexivity |]. destruct (standard_col c Nc) as [M _]. fold d in M. rewrite M. cbn [fill].
  assert (V1 : rvar d = 1) by (unfold d; rewrite (rvar_standard _ _ _ (rstd_pos c) Nc), (rstd_sq c V); field; exact V).
  assert (S1 : rstd d = 1) by (unfold rstd; cbv zeta; rewrite V1, sqrt_1; destruct (Req_EM_T 1 0); [Lra.lra | reflexivity]).
  rewrite S1. change (standard 0 1 v = v). unfold standard. field.
Qed.
Example C236_case : let l := preprocess_p (organized [Some 1; Some 3]) in col l = [-1; 1] /\ seen_p l (Some 5) = 3 /\ seen_p l None = -2.
Proof.
  assert (M : rmean [1; 3] = 2) by (unfold rmean, rtotal; cbn [fold_right length INR]; Lra.lra).
  assert (V : rvar [1; 3] = 1) by (unfold rvar; rewrite M; unfold rmean, rtotal; cbn [map fold_right length INR]; Lra.lra).
  assert (S1 : rstd [1; 3] = 1) by (unfold rstd; cbv zeta; rewrite V, sqrt_1; destruct (Req_EM_T 1 0); [Lra.lra | reflexivity]).
  cbv zeta. cbn [preprocess_p organized col x_mean x_std flag seen_p map fill]. rewrite M, S1. unfold standard. split; [f_equal; [Lra.lra | f_equal; Lra.lra] | split; Lra.lra].
Qed.

Print Assumptions C233_balanced.
Print Assumptions C234_top.
Print Assumptions C234_fuzzy.
Print Assumptions C235_oracle.
Print Assumptions C235_constant.
Print Assumptions C236_standard.
Print Assumptions C236_standard_down.
Print Assumptions C236_same_partial.
Print Assumptions C236_twice_refuted.
Print Assumptions C236_nan_refuted.
Print Assumptions C236_down_refuted.
