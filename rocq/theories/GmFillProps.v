(** C203: filling the holes of a series for the global model — the specification, proofs and theorems. *)
From Coq Require Import List Bool Arith ZArith QArith Lia Sorted.
From Verif Require Import GmFillModel GmFillProofs.
Import ListNotations.
Open Scope nat_scope.

(** ** Specification *)
Definition first_time (ts : list row) : Z := fst (hd (0%Z, None) ts).
Definition last_time (ts : list row) : Z := fst (last ts (0%Z, None)).
(** the times are distinct, ascending and whole steps from the first one *)
Definition regular (freq : Z) (ts : list row) : Prop :=
  StronglySorted Z.lt (map fst ts) /\ forall r, In r ts -> exists k : nat, fst r = (first_time ts + Z.of_nat k * freq)%Z.
(** there is a value at time t *)
Definition observed (ts : list row) (t : Z) : Prop := exists v, In (t, Some v) ts.

(** ** Proofs *)
Lemma sorted_lt (l : list Z) : StronglySorted Z.lt l -> forall i j, i < j < length l -> (nth i l 0 < nth j l 0)%Z.
Proof.
  induction 1 as [|x l SS IH F]; intros i j H; [cbn in H; lia |].
  destruct j as [|j]; [lia |]. cbn [length] in H. destruct i as [|i]; cbn [nth].
  - rewrite Forall_forall in F. apply F. apply nth_In. lia.
  - apply IH. lia.
Qed.
Lemma nth_map_fst (ts : list row) i : i < length ts -> nth i (map fst ts) 0%Z = fst (nth i ts (0%Z, None)).
Proof. intros _. change 0%Z with (fst (0%Z, @None Q)) at 1. apply map_nth. Qed.
Lemma last_nth {A} (l : list A) d : last l d = nth (length l - 1) l d.
Proof. induction l as [|x [|y l] IH]; cbn in *; auto. rewrite IH, Nat.sub_0_r. reflexivity. Qed.
Lemma filter_find (ts : list row) g : NoDup (map fst ts) ->
  filter (fun r => Z.eqb (fst r) g) ts = match find (fun r => Z.eqb (fst r) g) ts with Some r => [r] | None => [] end.
Proof.
  induction ts as [|r ts IH]; cbn; intros ND; [reflexivity |]. inversion ND as [|? ? N1 N2]; subst.
  destruct (Z.eqb (fst r) g) eqn:E; [| auto]. apply Z.eqb_eq in E.
  f_equal. rewrite IH by assumption. match goal with |- context [find ?f ts] => destruct (find f ts) as [r'|] eqn:F end; [| reflexivity].
  apply find_some in F. destruct F as [F1 F2]. apply Z.eqb_eq in F2. exfalso. apply N1. rewrite E, <- F2. apply in_map. exact F1.
Qed.
Lemma sorted_nodup (l : list Z) : StronglySorted Z.lt l -> NoDup l.
Proof.
  induction 1 as [|x l SS IH F]; constructor; auto. intros I. rewrite Forall_forall in F. specialize (F x I). lia.
Qed.

Section Fill.
Variables (freq : Z) (ts : list row).
Hypothesis Hf : (0 < freq)%Z.
Hypothesis R : regular freq ts.
Hypothesis NE : ts <> [].
Local Notation t i := (fst (nth i ts (0%Z, None))).
Lemma t_first : t 0 = first_time ts.
Proof. unfold first_time. destruct ts; reflexivity. Qed.
Lemma t_last : t (length ts - 1) = last_time ts.
Proof. unfold last_time. rewrite last_nth. reflexivity. Qed.
Lemma t_grid i : i < length ts -> exists k : nat, t i = (first_time ts + Z.of_nat k * freq)%Z.
Proof. intros H. destruct R as [_ G]. apply G. apply nth_In. exact H. Qed.
Lemma t_lt i j : i < j < length ts -> (t i < t j)%Z.
Proof.
  intros H. destruct R as [SS _]. rewrite <- !nth_map_fst by lia. apply sorted_lt; [exact SS | rewrite map_length; lia].
Qed.
Lemma t_step i : S i < length ts -> (t i + freq <= t (S i))%Z.
Proof.
  intros H. pose proof (t_lt i (S i) ltac:(lia)) as L.
  destruct (t_grid i ltac:(lia)) as [k1 E1]. destruct (t_grid (S i) ltac:(lia)) as [k2 E2]. rewrite E1, E2 in L |- *.
  assert (K : (Z.of_nat k1 < Z.of_nat k2)%Z) by nia. nia.
Qed.
Lemma t_gap i d : i + d < length ts -> (t i + Z.of_nat d * freq <= t (i + d))%Z.
Proof.
  induction d as [|d IH]; intros H; [rewrite Nat.add_0_r; lia |].
  specialize (IH ltac:(lia)). pose proof (t_step (i + d) ltac:(lia)). replace (i + S d) with (S (i + d)) by lia. lia.
Qed.
Lemma len_pos : 1 <= length ts. Proof. destruct ts; [contradiction | cbn; lia]. Qed.
Lemma t_le_last i : i < length ts -> (t i <= last_time ts)%Z.
Proof.
  intros H. rewrite <- t_last. pose proof (t_gap i (length ts - 1 - i) ltac:(lia)) as G. replace (i + (length ts - 1 - i)) with (length ts - 1) in G by lia. nia.
Qed.
(** a series that is as long as its span has no holes *)
Lemma complete : (Z.of_nat (length ts - 1) * freq = last_time ts - first_time ts)%Z -> forall i, i < length ts -> t i = (first_time ts + Z.of_nat i * freq)%Z.
Proof.
  intros E i Hi. pose proof (t_gap 0 i ltac:(lia)) as G1. rewrite t_first in G1. cbn [plus] in G1.
  pose proof (t_gap i (length ts - 1 - i) ltac:(lia)) as G2. replace (i + (length ts - 1 - i)) with (length ts - 1) in G2 by lia.
  rewrite t_last in G2. rewrite Nat2Z.inj_sub in G2 by lia. nia.
Qed.
Local Notation a := (first_time ts).
Local Notation N := (Z.to_nat ((last_time ts - first_time ts) / freq + 1)).
Definition value g := match find (fun r => Z.eqb (fst r) g) ts with Some r => snd r | None => None end.
Local Notation all := (merge_left (date_range (first_time ts) (last_time ts) freq) ts).
Lemma all_rows : all = map (fun k => (a + Z.of_nat k * freq, value (a + Z.of_nat k * freq))%Z) (seq 0 N).
Proof.
  unfold merge_left, date_range. generalize (seq 0 N). induction l as [|k l IH]; [reflexivity |].
  cbn [map flat_map]. rewrite IH.
  destruct R as [SS _]. rewrite filter_find by (apply sorted_nodup; exact SS). unfold value at 2.
  match goal with |- context [find ?f ts] => destruct (find f ts) as [r|] eqn:F end; [| reflexivity].
  apply find_some in F. destruct F as [_ F]. apply Z.eqb_eq in F. destruct r as [g v]. cbn in *. subst g. reflexivity.
Qed.
Lemma all_len : length all = N. Proof. rewrite all_rows, map_length, seq_length. reflexivity. Qed.
Lemma all_nth p x : nth_error all p = Some x -> p < N /\ x = (a + Z.of_nat p * freq, value (a + Z.of_nat p * freq))%Z.
Proof.
  intros H. assert (LP : p < N) by (rewrite <- all_len; apply nth_error_Some; congruence). split; [exact LP |].
  rewrite all_rows in H. rewrite nth_error_map in H.
  assert (S1 : nth_error (seq 0 N) p = Some p).
  { rewrite (nth_error_nth' _ 0) by (rewrite seq_length; exact LP). rewrite seq_nth by exact LP. reflexivity. }
  rewrite S1 in H. cbn in H. congruence.
Qed.
Lemma all_at p : p < N -> nth_error all p = Some (a + Z.of_nat p * freq, value (a + Z.of_nat p * freq))%Z.
Proof.
  intros H. destruct (nth_error all p) as [x|] eqn:E; [destruct (all_nth _ _ E) as [_ ->]; reflexivity |].
  apply nth_error_None in E. rewrite all_len in E. lia.
Qed.
Lemma value_in g v : In (g, Some v) ts -> value g = Some v.
Proof.
  intros H. unfold value. destruct R as [SS _]. apply sorted_nodup in SS. revert SS H. clear. induction ts as [|r l IH]; intros SS H; [contradiction |].
  cbn in *. inversion SS; subst. destruct H as [->|H]; [cbn; rewrite Z.eqb_refl; reflexivity |].
  destruct (Z.eqb (fst r) g) eqn:E; [| auto]. apply Z.eqb_eq in E. exfalso. apply H2. rewrite E. change g with (fst (g, Some v)). apply in_map. exact H.
Qed.
Lemma in_value g v : value g = Some v -> In (g, Some v) ts.
Proof.
  unfold value. match goal with |- context [find ?f ts] => destruct (find f ts) as [r|] eqn:F end; [| discriminate]. apply find_some in F. destruct F as [F1 F2]. apply Z.eqb_eq in F2.
  destruct r as [g' v']. cbn in *. intros ->. subst g'. exact F1.
Qed.
Lemma index_of g v : In (g, v) ts -> exists k, k < N /\ g = (a + Z.of_nat k * freq)%Z.
Proof.
  intros H. destruct (In_nth _ _ (0%Z, None) H) as [i [Hi E]].
  destruct (t_grid i Hi) as [k K]. rewrite E in K. cbn in K. exists k. split; [| exact K].
  pose proof (t_le_last i Hi) as L. rewrite E in L. cbn in L. subst g. 
  assert (Z.of_nat k <= (last_time ts - a) / freq)%Z by (apply Z.div_le_lower_bound; lia). lia.
Qed.
Local Notation mask s := (get_filters (map is_na all) s).
Lemma mask_len s : 1 <= s -> length (mask s) = length all.
Proof. intros H. unfold get_filters. rewrite filters_len by (auto; rewrite map_length; auto). apply map_length. Qed.
Lemma na_nth j : nth j (map is_na all) false = true -> j < N /\ value (a + Z.of_nat j * freq)%Z = None.
Proof.
  intros H. destruct (Nat.lt_ge_cases j N) as [L|L].
  - split; [exact L |]. rewrite (nth_indep _ false (is_na (0%Z, None))) in H by (rewrite map_length, all_len; exact L).
    rewrite map_nth in H. rewrite (nth_error_nth _ _ _ (all_at j L)) in H. unfold is_na in H. cbn [snd] in H. destruct (value _); congruence.
  - rewrite nth_overflow in H by (rewrite map_length, all_len; exact L). discriminate.
Qed.
Lemma mask_true s k : 1 <= s -> (forall b, b <= k < b + s -> b + s <= N -> exists j, b <= j < b + s /\ value (a + Z.of_nat j * freq)%Z <> None) -> nth k (mask s) true = true.
Proof.
  intros Hs H. destruct (nth k (mask s) true) eqn:E; [reflexivity |].
  destruct (filters_dropped s Hs (length (map is_na all)) (map is_na all) k ltac:(lia) E) as [b [B1 [B2 B3]]].
  rewrite map_length, all_len in B2. destruct (H b B1 B2) as [j [J1 J2]]. exfalso. apply J2. apply na_nth. apply B3. exact J1.
Qed.
Lemma fill_cases s out : fill_missing ts s freq = Some out ->
  (out = ts /\ (s = 1 \/ (Z.of_nat (length ts - 1) * freq = last_time ts - first_time ts)%Z)) \/
  (s <> 1 /\ (Z.of_nat (length ts - 1) * freq <> last_time ts - first_time ts)%Z /\ out = keep (mask s) all).
Proof.
  assert (LL : forall d, last ts d = last ts (0%Z, None)) by (intros d; rewrite !last_nth; apply nth_indep; pose proof len_pos; lia).
  unfold first_time, last_time, fill_missing in *. destruct ts as [|[a0 v0] l] eqn:ET; [contradiction |].
  rewrite LL. cbn [hd fst]. destruct (Z.eqb _ _) eqn:E.
  - apply Z.eqb_eq in E. cbn [orb]. intros H. injection H as <-. auto.
  - apply Z.eqb_neq in E. cbn [orb]. destruct (s =? 1) eqn:E1; intros H; injection H as <-.
    + apply Nat.eqb_eq in E1. auto.
    + apply Nat.eqb_neq in E1. auto.
Qed.
End Fill.

Lemma fill_nonempty ts s freq out i x : fill_missing ts s freq = Some out -> nth_error out i = Some x -> ts <> [].
Proof. intros F H ->. cbn in F. destruct (s =? 1); [| discriminate]. injection F as <-. destruct i; discriminate. Qed.

(** ** Theorems *)
(** the row at position i lies a number of steps congruent to i modulo the seasonality after the first one: every row keeps its season *)
Theorem C203_phase ts s freq out i t v :
  (0 < freq)%Z -> 1 <= s -> regular freq ts -> fill_missing ts s freq = Some out -> nth_error out i = Some (t, v) ->
  exists k : nat, t = (first_time ts + Z.of_nat k * freq)%Z /\ k mod s = i mod s.
Proof.
  intros Hf Hs R F H. pose proof (fill_nonempty _ _ _ _ _ _ F H) as NE.
  destruct (fill_cases freq ts R NE s out F) as [[-> C]|[S1 [_ ->]]].
  - assert (Hi : i < length ts) by (apply nth_error_Some; congruence).
    pose proof (nth_error_nth _ _ (0%Z, None) H) as NN. destruct C as [->|C].
    + destruct (t_grid freq ts R i Hi) as [k K]. rewrite NN in K. exists k. split; [exact K | rewrite !Nat.mod_1_r; reflexivity].
    + pose proof (complete freq ts Hf R NE C i Hi) as K. rewrite NN in K. exists i. auto.
  - assert (ML := mask_len freq ts s Hs).
    destruct (keep_nth _ _ _ _ ML H) as [p [P1 [P2 P3]]].
    destruct (all_nth freq ts R p _ P1) as [P4 P5]. injection P5 as E1 E2. exists p. split; [exact E1 |].
    rewrite <- P3. symmetry. apply filters_phase; auto; rewrite ?map_length; auto. rewrite all_len by assumption. exact P4.
Qed.
(** consecutive rows are one step apart, or one step and whole seasons *)
Theorem C203_gap ts s freq out i t v t' v' :
  (0 < freq)%Z -> 1 <= s -> regular freq ts -> fill_missing ts s freq = Some out ->
  nth_error out i = Some (t, v) -> nth_error out (S i) = Some (t', v') ->
  exists k : nat, (t' - t = freq + Z.of_nat (k * s) * freq)%Z.
Proof.
  intros Hf Hs R F H H'. pose proof (fill_nonempty _ _ _ _ _ _ F H) as NE.
  assert (LT : (t < t')%Z).
  { destruct (fill_cases freq ts R NE s out F) as [[-> C]|[S1 [_ ->]]].
    - assert (Hi : S i < length ts) by (apply nth_error_Some; congruence).
      pose proof (t_lt freq ts R i (S i) ltac:(lia)) as L.
      rewrite (nth_error_nth _ _ _ H), (nth_error_nth _ _ _ H') in L. exact L.
    - assert (ML := mask_len freq ts s Hs).
      destruct (keep_nth _ _ _ _ ML H) as [p [P1 [P2 P3]]]. destruct (keep_nth _ _ _ _ ML H') as [q [Q1 [Q2 Q3]]].
      destruct (all_nth freq ts R p _ P1) as [_ P5]. injection P5 as E1 E2.
      destruct (all_nth freq ts R q _ Q1) as [_ Q5]. injection Q5 as E3 E4.
      assert (p < q); [| nia]. destruct (Nat.lt_ge_cases p q) as [|G]; [assumption |]. exfalso.
      pose proof (kept_mono (get_filters (map is_na (merge_left (date_range (first_time ts) (last_time ts) freq) ts)) s) q p G). lia. }
  destruct (C203_phase ts s freq out i t v Hf Hs R F H) as [k [E K]].
  destruct (C203_phase ts s freq out (S i) t' v' Hf Hs R F H') as [k' [E' K']].
  assert (KK : k < k') by nia.
  assert (M : (k' - (k + 1)) mod s = 0).
  { assert (P : k' mod s = (k + 1) mod s).
    { rewrite K', <- (Nat.add_1_r i), (Nat.add_mod i), <- K, <- Nat.add_mod by lia. reflexivity. }
    pose proof (Nat.div_mod k' s ltac:(lia)) as D1. pose proof (Nat.div_mod (k + 1) s ltac:(lia)) as D2. rewrite P in D1.
    assert (DD : k' - (k + 1) = (k' / s - (k + 1) / s) * s) by nia. rewrite DD. apply Nat.mod_mul. lia. }
  exists ((k' - (k + 1)) / s). pose proof (Nat.div_mod (k' - (k + 1)) s ltac:(lia)) as D. rewrite M in D.
  replace ((k' - (k + 1)) / s * s) with (k' - (k + 1)) by lia. rewrite Nat2Z.inj_sub by lia. rewrite E, E'. lia.
Qed.
(** no observation is lost, none is made up *)
Theorem C203_values ts s freq out t v :
  (0 < freq)%Z -> 1 <= s -> regular freq ts -> fill_missing ts s freq = Some out -> (In (t, Some v) out <-> In (t, Some v) ts).
Proof.
  intros Hf Hs R F. destruct ts as [|r0 l0] eqn:ET.
  - cbn in F. destruct (s =? 1); [| discriminate]. injection F as <-. reflexivity.
  - rewrite <- ET in *. assert (NE : ts <> []) by (rewrite ET; discriminate).
    destruct (fill_cases freq ts R NE s out F) as [[-> C]|[S1 [_ ->]]]; [reflexivity |].
    split; intros H.
    + apply in_keep in H. apply In_nth_error in H. destruct H as [p P]. destruct (all_nth freq ts R p _ P) as [_ E].
      injection E as E1 E2. apply in_value. rewrite E1. congruence.
    + destruct (index_of freq ts Hf R t (Some v) H) as [k [K E]].
      pose proof (value_in freq ts R t v H) as V.
      assert (P := all_at freq ts R k K). rewrite <- E, V in P.
      eapply nth_error_In. apply keep_nth_at; [apply mask_len; lia | exact P |].
      apply mask_true; auto. intros b B _. exists k. split; [exact B |]. rewrite <- E, V. discriminate.
Qed.
(** a time of the grid is in the result unless it lies in a hole of a whole season or more *)
Theorem C203_filled ts s freq out k :
  (0 < freq)%Z -> 1 < s -> regular freq ts -> ts <> [] -> fill_missing ts s freq = Some out ->
  (first_time ts + Z.of_nat k * freq <= last_time ts)%Z ->
  (forall b : nat, b <= k < b + s -> exists j : nat, b <= j < b + s /\ observed ts (first_time ts + Z.of_nat j * freq)) ->
  In (first_time ts + Z.of_nat k * freq)%Z (map fst out).
Proof.
  intros Hf Hs R NE F L O.
  destruct (fill_cases freq ts R NE s out F) as [[-> C]|[S1 [_ ->]]].
  - destruct C as [->|C]; [lia |]. assert (LP : 1 <= length ts) by (destruct ts; [contradiction | cbn; lia]).
    assert (KL : (Z.of_nat k <= Z.of_nat (length ts - 1))%Z) by nia. assert (Hk : k < length ts) by lia.
    rewrite <- (complete freq ts Hf R NE C k Hk). apply in_map. apply nth_In. exact Hk.
  - assert (K : k < Z.to_nat ((last_time ts - first_time ts) / freq + 1)).
    { assert (Z.of_nat k <= (last_time ts - first_time ts) / freq)%Z by (apply Z.div_le_lower_bound; lia). lia. }
    match goal with |- In ?g _ => change g with (fst (g, value ts g)) end.
    apply in_map. eapply nth_error_In. apply keep_nth_at; [apply mask_len; lia | apply all_at; [assumption | exact K] |].
    apply mask_true; [assumption | lia |]. intros b B _. destruct (O b B) as [j [J [v V]]]. exists j. split; [exact J |].
    rewrite (value_in freq ts R _ v V). discriminate.
Qed.
(** and no hole of a whole season is left in a series that had to be filled *)
Theorem C203_no_long_hole ts s freq out i :
  (0 < freq)%Z -> 1 < s -> regular freq ts -> fill_missing ts s freq = Some out -> (Z.of_nat (length ts - 1) * freq <> last_time ts - first_time ts)%Z ->
  i + s <= length out -> exists j t v, i <= j < i + s /\ nth_error out j = Some (t, Some v).
Proof.
  intros Hf Hs R F NC L.
  assert (NE : ts <> []) by (intros ->; cbn in F; destruct (s =? 1); [injection F as <-; cbn in L; lia | discriminate]).
  destruct (fill_cases freq ts R NE s out F) as [[-> [C|C]]|[S1 [_ E]]]; [lia | contradiction |].
  set (all := merge_left _ ts) in E. set (m := get_filters (map is_na all) s) in E.
  pose proof (filters_runs s ltac:(lia) (length (map is_na all)) (map is_na all) i ltac:(lia)) as RL. fold m in RL.
  change (filters_from (length (map is_na all)) (map is_na all) s) with m in RL. rewrite keep_map, <- E in RL.
  assert (G : forall (n : nat) (l : list row) (k : nat), run_length (skipn k (map is_na l)) < n -> k + n <= length l -> exists j t v, k <= j < k + n /\ nth_error l j = Some (t, Some v)).
  { clear. intros n l. revert n. induction l as [|[t v] l IH]; intros n k H1 H2; [cbn in *; destruct k; cbn in *; lia |].
    destruct k as [|k].
    - destruct v as [v|]; [exists 0, t, v; cbn; split; [lia | reflexivity] |].
      cbn in H1, H2. destruct (IH (n - 1) 0 ltac:(cbn; lia) ltac:(lia)) as [j [t' [v' [J1 J2]]]]. exists (S j), t', v'. split; [lia | exact J2].
    - cbn [skipn map length] in *. destruct (IH n k H1 ltac:(lia)) as [j [t' [v' [J1 J2]]]]. exists (S j), t', v'. split; [lia | exact J2]. }
  apply G; assumption.
Qed.

(** 2, 3 and 9, 10 days after day 0, weekly season of 3: the hole of five loses one season of three *)
Definition holey : list row := [(0, Some 1%Q); (2, Some 3%Q); (3, Some 4%Q); (9, Some 5%Q); (10, None)]%Z.
Example C203_case : regular 1 holey /\ fill_missing holey 3 1 = Some [(0, Some 1%Q); (1, None); (2, Some 3%Q); (3, Some 4%Q); (4, None); (5, None); (9, Some 5%Q); (10, None)]%Z.
Proof.
  split; [| reflexivity]. split.
  - cbn. repeat (constructor; [| repeat constructor; lia]). constructor.
  - intros r H. unfold first_time. cbn in *. destruct H as [<-|[<-|[<-|[<-|[<-|[]]]]]]; cbn; [exists 0|exists 2|exists 3|exists 9|exists 10]; reflexivity.
Qed.
(** an observation that is not a whole number of steps after the first one is silently dropped *)
Theorem C203_off_grid_refuted : exists ts s freq out t v,
  (0 < freq)%Z /\ 1 <= s /\ StronglySorted Z.lt (map fst ts) /\ fill_missing ts s freq = Some out /\ In (t, Some v) ts /\ ~ In (t, Some v) out.
Proof.
  exists [(0, Some 1%Q); (3, Some 2%Q); (4, Some 3%Q); (8, Some 4%Q)]%Z, 2, 2%Z, [(0, Some 1%Q); (2, None); (4, Some 3%Q); (6, None); (8, Some 4%Q)]%Z, 3%Z, 2%Q.
  split; [lia |]. split; [lia |]. split; [cbn; repeat (constructor; [| repeat constructor; lia]); constructor |].
  split; [reflexivity |]. split; [cbn; auto |]. cbn. intros H. repeat (destruct H as [H|H]; [discriminate |]). exact H.
Qed.
(** a repeated time hides a hole: the series is returned as it is and the rows after the hole are out of phase *)
Theorem C203_repeated_refuted : exists ts s freq out i t v,
  (0 < freq)%Z /\ 1 <= s /\ StronglySorted Z.le (map fst ts) /\ (forall r, In r ts -> exists k : nat, fst r = (first_time ts + Z.of_nat k * freq)%Z) /\
  fill_missing ts s freq = Some out /\ nth_error out i = Some (t, v) /\ forall k : nat, t = (first_time ts + Z.of_nat k * freq)%Z -> k mod s <> i mod s.
Proof.
  exists [(0, Some 1%Q); (1, Some 2%Q); (1, Some 2%Q); (3, Some 4%Q)]%Z, 7, 1%Z, [(0, Some 1%Q); (1, Some 2%Q); (1, Some 2%Q); (3, Some 4%Q)]%Z, 2, 1%Z, (Some 2%Q).
  split; [lia |]. split; [lia |]. split; [cbn; repeat (constructor; [| repeat constructor; lia]); constructor |]. split.
  - intros r H. unfold first_time. cbn in *. destruct H as [<-|[<-|[<-|[<-|[]]]]]; cbn; [exists 0|exists 1|exists 1|exists 3]; reflexivity.
  - split; [reflexivity |]. split; [reflexivity |]. intros k E. unfold first_time in E. cbn in E. assert (k = 1) by lia. subst k. cbn. lia.
Qed.

Print Assumptions C203_phase.
Print Assumptions C203_gap.
Print Assumptions C203_values.
Print Assumptions C203_filled.
Print Assumptions C203_no_long_hole.
Print Assumptions C203_off_grid_refuted.
Print Assumptions C203_repeated_refuted.
