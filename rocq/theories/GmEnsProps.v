(** C222 (forecasts of an ensemble), C223 (which series its models are trained on), C224 (backtests of global models on many
    series), C225 (expanding windows), C226 (seasonal decomposition) — specification, proofs and theorems. *)
From Coq Require Import List Bool Arith ZArith QArith Qround Lia Lqa Permutation.
From Verif Require Import Common MetricsModel MedianSpec MedianProofs GmLossModel GmLossProofs GmFillModel GmFillProofs GmSplitProps GmFcstModel GmFcstProps GmEnsModel.
Import ListNotations.
Open Scope nat_scope.

(** ** Specification *)
(** the forecasts of a model: [w] windows of [fw] values for each of [nq] quantiles *)
Definition shaped (fw nq w : nat) (m : list (list Q)) : Prop := length m = w /\ rows_of fw nq m.
(** what the models say about place c of window j *)
Definition opinions (members : list (list (list Q))) (j c : nat) : list Q := map (fun m => nth c (nth j m []) 0%Q) members.

(** ** Proofs: means and medians *)
Lemma qsum_between lo hi l : (forall x, In x l -> lo <= x <= hi)%Q -> (inject_Z (Z.of_nat (length l)) * lo <= qsum l <= inject_Z (Z.of_nat (length l)) * hi)%Q.
Proof.
  induction l as [|x l IH]; intros H; [change (inject_Z (Z.of_nat (length (@nil Q)))) with 0%Q; cbn [qsum]; lra |]. cbn [qsum length]. destruct (IH ltac:(intros; apply H; right; assumption)) as [A B]. pose proof (H x (or_introl eq_refl)) as C.
  rewrite Nat2Z.inj_succ. unfold Z.succ. rewrite inject_Z_plus. change (inject_Z 1) with 1%Q. split; nra.
Qed.
Lemma qsort_nth_in l k : k < length l -> In (nth k (qsort l) 0%Q) l.
Proof.
  intros H. apply (Permutation_in _ (Permutation_sym (qsort_perm l))). apply nth_In. rewrite <- (Permutation_length (qsort_perm l)). exact H.
Qed.
Lemma pooled_between e l lo hi : l <> [] -> (forall x, In x l -> lo <= x <= hi)%Q -> (lo <= pooled e l <= hi)%Q.
Proof.
  intros N H. assert (L : 1 <= length l) by (destruct l; [congruence | cbn; lia]). destruct e; cbn [pooled].
  - unfold qmedian. cbv zeta. pose proof (Nat.div_le_upper_bound (length l - 1) 2 (length l - 1) ltac:(lia) ltac:(lia)). pose proof (Nat.div_lt (length l) 2 ltac:(lia) ltac:(lia)).
    pose proof (H _ (qsort_nth_in l ((length l - 1) / 2) ltac:(lia))) as A. pose proof (H _ (qsort_nth_in l (length l / 2) ltac:(lia))) as B.
    split; [apply Qle_shift_div_l | apply Qle_shift_div_r]; lra.
  - pose proof (qsum_between lo hi l H) as [A B]. assert (P : (0 < inject_Z (Z.of_nat (length l)))%Q) by (change 0%Q with (inject_Z 0); rewrite <- Zlt_Qlt; lia).
    split; [apply Qle_shift_div_l | apply Qle_shift_div_r]; try exact P; lra.
Qed.
Lemma qsum_perm' l l' : Permutation l l' -> (qsum l == qsum l')%Q.
Proof. induction 1; cbn [qsum]; lra. Qed.
Lemma pooled_perm e l l' : Permutation l l' -> (pooled e l == pooled e l')%Q.
Proof.
  intros P. destruct e; cbn [pooled]; [apply qmedian_perm; exact P |]. rewrite (Permutation_length P), (qsum_perm' _ _ P). reflexivity.
Qed.
Lemma combine_len e members : length (combine e members) = length (hd [] members).
Proof. unfold combine. rewrite map_length, seq_length. reflexivity. Qed.
Lemma combine_nth e members j : j < length (hd [] members) -> nth j (combine e members) [] =
  map (fun c => pooled e (opinions members j c)) (seq 0 (length (nth j (hd [] members) []))).
Proof.
  intros H. unfold combine. rewrite (seq_map_nth (fun j => map (fun c => pooled e (map (fun m => GmFcstModel.cell (nth j m []) c) members)) (seq 0 (length (nth j (hd [] members) [])))) _ j []) by exact H. reflexivity.
Qed.
Section Members.
Variables (e : ensemble) (fw nq w : nat) (members : list (list (list Q))).
Hypothesis NE : members <> [].
Hypothesis SH : forall m, In m members -> shaped fw nq w m.
Lemma hd_shaped : shaped fw nq w (hd [] members).
Proof. destruct members; [congruence | apply SH; left; reflexivity]. Qed.
Lemma combine_shaped : shaped fw nq w (combine e members).
Proof.
  destruct hd_shaped as [L R]. split; [rewrite combine_len; exact L |]. intros r I. apply (In_nth _ _ []) in I. destruct I as [j [Hj <-]]. rewrite combine_len in Hj.
  rewrite combine_nth by exact Hj. rewrite map_length, seq_length. apply R. apply nth_In. exact Hj.
Qed.
Lemma combine_cell j c : j < w -> c < nq * fw -> nth c (nth j (combine e members) []) 0%Q = pooled e (opinions members j c).
Proof.
  intros Hj Hc. destruct hd_shaped as [L R]. rewrite combine_nth by lia. assert (Q : length (nth j (hd [] members) []) = nq * fw) by (apply R, nth_In; lia).
  rewrite Q. apply (seq_map_nth (fun c => pooled e (opinions members j c))). exact Hc.
Qed.
End Members.

(** ** C222: forecasts of an ensemble *)
(** every value is the mean or the median of the values of the models at this place: it lies between the least and the greatest *)
Theorem C222_combined e fw nq w members : members <> [] -> (forall m, In m members -> shaped fw nq w m) ->
  shaped fw nq w (combine e members) /\ forall j c, j < w -> c < nq * fw ->
    let v := nth c (nth j (combine e members) []) 0%Q in
    match e with Median => median_of (opinions members j c) v | Mean => (v * inject_Z (Z.of_nat (length members)) == qsum (opinions members j c))%Q end /\
    forall lo hi, (forall m, In m members -> lo <= nth c (nth j m []) 0 <= hi)%Q -> (lo <= v <= hi)%Q.
Proof.
  intros NE SH. split; [apply combine_shaped; assumption |]. intros j c Hj Hc. cbv zeta. rewrite (combine_cell e fw nq w members NE SH j c Hj Hc).
  assert (NO : opinions members j c <> []) by (unfold opinions; destruct members; [congruence | discriminate]). split.
  - destruct e; cbn [pooled]; [apply qmedian_spec |]. unfold opinions. rewrite map_length. field. change 0%Q with (inject_Z 0). rewrite inject_Z_injective. destruct members; [congruence | cbn; lia].
  - intros lo hi H. apply pooled_between; [exact NO |]. intros x I. unfold opinions in I. apply in_map_iff in I. destruct I as [m [<- I]]. apply H. exact I.
Qed.
(** the order of the models does not matter *)
Theorem C222_order e fw nq w members members' : members <> [] -> (forall m, In m members -> shaped fw nq w m) -> Permutation members members' ->
  forall j c, j < w -> c < nq * fw -> (nth c (nth j (combine e members) []) 0 == nth c (nth j (combine e members') []) 0)%Q.
Proof.
  intros NE SH P j c Hj Hc. assert (NE' : members' <> []) by (intros ->; apply Permutation_sym, Permutation_nil in P; congruence).
  assert (SH' : forall m, In m members' -> shaped fw nq w m) by (intros m I; apply SH; eapply Permutation_in; [apply Permutation_sym; exact P | exact I]).
  rewrite (combine_cell e fw nq w _ NE SH), (combine_cell e fw nq w _ NE' SH') by assumption. apply pooled_perm. unfold opinions. apply Permutation_map. exact P.
Qed.
(** the frame has one row per step, at the times after the series, in order *)
Theorem C222_frame e fw nq steps last freq members : 1 <= fw -> 1 <= nq -> members <> [] -> (forall m, In m members -> shaped fw nq (step_num steps fw) m) ->
  exists out, combine_frame e fw nq steps last freq members = Some out /\ length out = steps /\
    forall t d, t < steps -> fst (nth t out d) = (last + Z.of_nat (S t) * freq)%Z /\ length (snd (nth t out d)) = nq /\
      forall j, j < nq -> nth j (snd (nth t out d)) 0%Q = pooled e (opinions members (t / fw) (j * fw + t mod fw)).
Proof.
  intros Hf Hq NE SH. destruct (combine_shaped e fw nq _ members NE SH) as [L R]. destruct (C217_frame fw nq steps (last + freq)%Z freq _ Hf Hq R L) as [out [E [LO H]]].
  exists out. split; [exact E |]. split; [exact LO |]. intros t d Ht. destruct (H t d Ht) as [A [B C]]. split; [rewrite A; lia |]. split; [exact B |]. intros j Hj.
  specialize (C j Hj). unfold GmFcstModel.cell in C. rewrite C. pose proof (step_num_bounds steps fw Hf). pose proof (Nat.div_mod t fw ltac:(lia)). pose proof (Nat.mod_upper_bound t fw ltac:(lia)).
  apply (combine_cell e fw nq (step_num steps fw) members NE SH); [| nia]. apply Nat.div_lt_upper_bound; nia.
Qed.
Example C222_case : combine_frame Median 2 1 3 10%Z 5%Z [[[1; 2]; [3; 4]]; [[5; 6]; [9; 1]]; [[2; 2]; [4; 4]]]%Q = Some [(15%Z, [(2 + 2) / 2]); (20%Z, [(2 + 2) / 2]); (25%Z, [(4 + 4) / 2])]%Q.
Proof. vm_compute. reflexivity. Qed.

(** ** C223: which series the models are trained on *)
Lemma pick_perm {V} (data : list (nat * V)) : NoDup (map fst data) -> forall ks, Permutation ks (map fst data) -> exists l, pick data ks = Some l /\ Permutation l data /\ map fst l = ks.
Proof.
  intros ND ks P. assert (K : forall ks, incl ks (map fst data) -> exists l, pick data ks = Some l /\ map fst l = ks /\ incl l data).
  { induction ks0 as [|k ks0 IH]; intros I; [exists []; repeat split; intros x [] |]. destruct (IH ltac:(intros x Hx; apply I; right; exact Hx)) as [l [E [M IN]]].
    assert (Ik := I k (or_introl eq_refl)). apply in_map_iff in Ik. destruct Ik as [[k' v] [Q Iv]]. cbn in Q. subst k'. cbn [pick]. rewrite (lookup_in data k v ND Iv), E.
    exists ((k, v) :: l). cbn. rewrite M. repeat split. intros x [<-|Hx]; auto. }
  destruct (K ks ltac:(intros x Hx; eapply Permutation_in; [exact P | exact Hx])) as [l [E [M IN]]]. exists l. split; [exact E |]. split; [| exact M].
  apply NoDup_Permutation_bis; [apply (NoDup_map_inv fst); rewrite M; eapply Permutation_NoDup; [apply Permutation_sym; exact P | exact ND] | | exact IN].
  rewrite <- (map_length fst l), M, (Permutation_length P), map_length. lia.
Qed.
Lemma pick_app {V} (data : list (nat * V)) a b l : pick data (a ++ b) = Some l -> exists x y, pick data a = Some x /\ pick data b = Some y /\ l = x ++ y.
Proof.
  revert l. induction a as [|k a IH]; intros l; cbn [app pick]; [intros E; exists [], l; auto |]. destruct (lookup data k) as [v|]; [| discriminate].
  destruct (pick data (a ++ b)) as [r|]; [| discriminate]. intros Q. injection Q as <-. destruct (IH r eq_refl) as [x [y [E1 [E2 ->]]]]. rewrite E1. exists ((k, v) :: x), y. auto.
Qed.
Lemma pick_keys {V} (data : list (nat * V)) ks l : pick data ks = Some l -> map fst l = ks.
Proof. revert l. induction ks as [|k ks IH]; intros l; cbn [pick]; [intros Q; injection Q as <-; reflexivity |]. destruct (lookup data k); [| discriminate]. destruct (pick data ks); [| discriminate]. intros Q. injection Q as <-. cbn. rewrite (IH _ eq_refl). reflexivity. Qed.
(** the held out and the other series together are the data, each once; at least one series is held out if test_size is positive *)
Theorem C223_held_out {V} (q : Q) keys (data : list (nat * V)) : NoDup (map fst data) -> Permutation keys (map fst data) -> (0 <= q <= 1)%Q -> data <> [] ->
  exists test train, hold_out q keys data = Some (test, train) /\ Permutation (test ++ train) data /\
    ((0 < q)%Q -> test <> [] /\ (length test = Nat.max 1 (Z.to_nat (Qfloor (inject_Z (Z.of_nat (length data)) * q)))) ) /\
    ((q == 0)%Q -> test = []) /\ ((q < 1)%Q -> 2 <= length data -> train <> []).
Proof.
  intros ND P [Q0 Q1] NE. unfold hold_out. rewrite (proj2 (Qle_bool_iff 0 q) Q0), (proj2 (Qle_bool_iff q 1) Q1). cbn [negb orb]. destruct (Qle_bool q 0) eqn:E.
  - apply Qle_bool_iff in E. exists [], data. split; [reflexivity |]. split; [apply Permutation_refl |]. split; [intros; exfalso; lra |]. split; [reflexivity |]. intros _ _. exact NE.
  - assert (QP : (0 < q)%Q) by (apply Qnot_le_lt; intros C; apply Qle_bool_iff in C; congruence). set (n := length data). set (m := Nat.max 1 _).
    assert (Hn : 1 <= n) by (unfold n; destruct data; [congruence | cbn; lia]). assert (FN : (0 <= Qfloor (inject_Z (Z.of_nat n) * q) <= Z.of_nat n)%Z).
    { split.
      - change 0%Z with (Qfloor 0). apply Qfloor_resp_le. assert ((0 <= inject_Z (Z.of_nat n))%Q) by (change 0%Q with (inject_Z 0); rewrite <- Zle_Qle; lia). nra.
      - rewrite <- (Qfloor_Z (Z.of_nat n)) at 2. apply Qfloor_resp_le. assert ((0 <= inject_Z (Z.of_nat n))%Q) by (change 0%Q with (inject_Z 0); rewrite <- Zle_Qle; lia). nra. }
    assert (Hm : m <= n) by (unfold m; lia). assert (M1 : 1 <= m) by (unfold m; lia). destruct (n <? m) eqn:L; [apply Nat.ltb_lt in L; lia |].
    destruct (pick_perm data ND keys P) as [l [El [Pl Ml]]]. rewrite <- (firstn_skipn m keys) in El. destruct (pick_app _ _ _ _ El) as [a [b [Ea [Eb ->]]]]. rewrite Ea, Eb.
    assert (LK : length keys = n) by (rewrite (Permutation_length P); apply map_length). assert (LA : length a = m) by (rewrite <- (map_length fst a), (pick_keys _ _ _ Ea), firstn_length; lia).
    assert (LB : length b = n - m) by (rewrite <- (map_length fst b), (pick_keys _ _ _ Eb), skipn_length; lia).
    exists a, b. split; [reflexivity |]. split; [exact Pl |]. split; [intros _; split; [intros ->; change (0 = m) in LA; lia | exact LA] |]. split; [intros C; exfalso; lra |].
    intros Q1' N2 ->. change (0 = n - m) in LB. fold n in N2. assert ((Qfloor (inject_Z (Z.of_nat n) * q) < Z.of_nat n)%Z); [| unfold m in LB; lia].
    rewrite Zlt_Qlt. eapply Qle_lt_trans; [apply Qfloor_le |]. assert ((0 < inject_Z (Z.of_nat n))%Q) by (change 0%Q with (inject_Z 0); rewrite <- Zlt_Qlt; lia). nra.
Qed.
(** test_size = 1 is accepted and leaves nothing to train on, and so does a single series *)
Theorem C223_all_held_out_refuted {V} keys (data : list (nat * V)) : NoDup (map fst data) -> Permutation keys (map fst data) -> data <> [] ->
  (exists test, hold_out 1 keys data = Some (test, [])) /\ forall q, (0 < q <= 1)%Q -> length data = 1 -> exists test, hold_out q keys data = Some (test, []).
Proof.
  intros ND P NE. split.
  - destruct (C223_held_out 1 keys data ND P ltac:(lra) NE) as [a [b [E [Pm [A [_ _]]]]]]. exists a. rewrite E. destruct (A ltac:(lra)) as [_ LA]. apply Permutation_length in Pm. rewrite app_length in Pm.
    assert (F : Qfloor (inject_Z (Z.of_nat (length data)) * 1) = Z.of_nat (length data)) by (rewrite <- (Qfloor_Z (Z.of_nat (length data))) at 2; apply Qfloor_comp; ring). rewrite F, Nat2Z.id in LA.
    destruct b; [reflexivity | cbn in Pm; lia].
  - intros q Hq L1. destruct (C223_held_out q keys data ND P ltac:(lra) NE) as [a [b [E [Pm [A _]]]]]. exists a. rewrite E. destruct (A ltac:(lra)) as [_ LA]. apply Permutation_length in Pm. rewrite app_length in Pm.
    destruct b; [reflexivity | cbn in Pm; lia].
Qed.
(** both ways of training give model i the same part, and every part goes to as many models *)
Lemma sequential_nth {V} (parts : list (list (nat * V) * option (list (nat * V)))) r i : i < r * length parts -> nth_error (sequential r parts) i = Some (nth_error parts (i mod length parts)).
Proof.
  revert i. induction r as [|r IH]; intros i H; [cbn in H; lia |]. cbn [sequential]. destruct (Nat.lt_ge_cases i (length parts)) as [L|L].
  - rewrite nth_error_app1 by (rewrite map_length; exact L). rewrite Nat.mod_small by exact L. rewrite nth_error_map. destruct (nth_error parts i) eqn:E; [reflexivity | apply nth_error_None in E; lia].
  - rewrite nth_error_app2 by (rewrite map_length; exact L). rewrite map_length, IH by (cbn in H; lia). do 2 f_equal.
    replace i with ((i - length parts) + 1 * length parts) at 2 by lia. rewrite Nat.mod_add by lia. reflexivity.
Qed.
Lemma sequential_len {V} (parts : list (list (nat * V) * option (list (nat * V)))) r : length (sequential r parts) = r * length parts.
Proof. induction r as [|r IH]; [reflexivity |]. cbn [sequential]. rewrite app_length, map_length, IH. reflexivity. Qed.
Lemma all_some_len {A} (l : list (option A)) r : all_some l = Some r -> length r = length l.
Proof. revert r. induction l as [|[x|] l IH]; intros r; cbn [all_some]; [intros Q; injection Q as <-; reflexivity | | discriminate]. destruct (all_some l); [| discriminate]. intros Q. injection Q as <-. cbn. rewrite (IH _ eq_refl). reflexivity. Qed.
Lemma split_len {V} splits overlap (train : list (nat * V)) valid parts : split splits overlap train valid = Some parts -> length parts = splits /\ 1 <= splits.
Proof.
  unfold split. destruct (splits =? 1) eqn:E1; [apply Nat.eqb_eq in E1; subst; intros H; apply all_some_len in H; cbn in H; lia |].
  destruct (splits =? 0) eqn:E0; [discriminate |]. apply Nat.eqb_neq in E0. cbn [orb]. destruct (_ / _ =? 0); [discriminate |]. intros H. apply all_some_len in H. rewrite map_length, seq_length in H. lia.
Qed.
Lemma nth_ext_error {A} (l l' : list A) : (forall i, nth_error l i = nth_error l' i) -> l = l'.
Proof.
  revert l'. induction l as [|x l IH]; intros [|y l'] H; [reflexivity | specialize (H 0); discriminate | specialize (H 0); discriminate |].
  f_equal; [specialize (H 0); cbn in H; congruence | apply IH; intros i; exact (H (S i))].
Qed.
Theorem C223_parts {V} splits overlap (train : list (nat * V)) valid parts replicate : split splits overlap train valid = Some parts ->
  sequential replicate parts = parallel splits replicate parts /\ length (sequential replicate parts) = replicate * splits /\
  forall i, i < replicate * splits -> exists part, nth_error (sequential replicate parts) i = Some (Some part) /\ nth_error parts (i mod splits) = Some part.
Proof.
  intros H. destruct (split_len _ _ _ _ _ H) as [L S1]. assert (X : forall i, i < replicate * splits -> exists part, nth_error (sequential replicate parts) i = Some (Some part) /\ nth_error parts (i mod splits) = Some part).
  { intros i Hi. rewrite sequential_nth by (rewrite L; exact Hi). rewrite L. pose proof (Nat.mod_upper_bound i splits ltac:(lia)). destruct (nth_error parts (i mod splits)) eqn:E; [eauto | apply nth_error_None in E; lia]. }
  split; [| split; [rewrite sequential_len, L; reflexivity | exact X]].
  apply nth_ext_error. intros i. unfold parallel. rewrite nth_error_map. destruct (Nat.lt_ge_cases i (replicate * splits)) as [HB|HB].
  - destruct (X i HB) as [part [E1 E2]]. rewrite E1. rewrite (nth_error_nth' (seq 0 (replicate * splits)) 0) by (rewrite seq_length; exact HB). rewrite seq_nth by exact HB. cbn. rewrite E2. reflexivity.
  - rewrite (proj2 (nth_error_None (sequential replicate parts) i)) by (rewrite sequential_len, L; exact HB). rewrite (proj2 (nth_error_None (seq 0 (replicate * splits)) i)) by (rewrite seq_length; exact HB). reflexivity.
Qed.
(** no model sees a held out series *)
Lemma pick_incl {V} (data : list (nat * V)) ks l : pick data ks = Some l -> incl (map fst l) ks.
Proof. intros H. rewrite (pick_keys _ _ _ H). apply incl_refl. Qed.
Lemma keep_in {A} mk (l : list A) x : In x (keep mk l) -> In x l.
Proof. revert l. induction mk as [|c mk IH]; intros [|y l]; [intros [] | intros [] | destruct c; intros [] |]. destruct c; cbn [keep]; [intros [<-|H]; [left; reflexivity |] | intros H]; right; apply IH; exact H. Qed.
Lemma all_some_in {A} (l : list (option A)) r x : all_some l = Some r -> In x r -> In (Some x) l.
Proof. revert r. induction l as [|[y|] l IH]; intros r; cbn [all_some]; [intros Q; injection Q as <-; intros [] | | discriminate]. destruct (all_some l); [| discriminate]. intros Q. injection Q as <-. intros [<-|H]; [left; reflexivity | right; eauto]. Qed.
Lemma split_keys {V} splits overlap (train : list (nat * V)) valid parts part : split splits overlap train valid = Some parts -> In part parts -> incl (map fst (fst part)) (map fst train).
Proof.
  assert (PB : forall ks, incl ks (map fst train) -> pick_both train valid ks = Some part -> incl (map fst (fst part)) (map fst train)).
  { intros ks I. unfold pick_both. destruct (pick train ks) as [a|] eqn:E; [| discriminate]. destruct (pick_valid valid ks); [| discriminate]. intros Q. injection Q as <-. cbn. intros x Hx. apply I. apply (pick_incl _ _ _ E). exact Hx. }
  unfold split. destruct (splits =? 1).
  - intros H I. apply (all_some_in _ _ _ H) in I. destruct I as [I|[]]. eapply PB; [apply incl_refl | exact I].
  - destruct (_ || _); [discriminate |]. intros H I. apply (all_some_in _ _ _ H) in I. apply in_map_iff in I. destruct I as [i [I _]]. eapply PB; [| exact I]. intros x Hx. eapply keep_in; exact Hx.
Qed.
Lemma perm_disjoint {V} (a b data : list (nat * V)) : NoDup (map fst data) -> Permutation (a ++ b) data -> forall k, In k (map fst a) -> ~ In k (map fst b).
Proof.
  intros ND P k A B. assert (N : NoDup (map fst a ++ map fst b)) by (rewrite <- map_app; eapply Permutation_NoDup; [apply Permutation_map, Permutation_sym; exact P | exact ND]).
  clear - N A B. induction (map fst a) as [|x l IH]; [destruct A |]. cbn in N. inversion N as [|? ? N1 N2]. subst. destruct A as [<-|A]; [apply N1, in_or_app; right; exact B | auto].
Qed.
Theorem C223_unseen p freq q keys data test train tr va splits overlap parts replicate i part : NoDup (map fst data) -> Permutation keys (map fst data) -> (0 <= q <= 1)%Q -> data <> [] ->
  hold_out q keys data = Some (test, train) -> forall vs, preprocess p Train vs freq train = Some (tr, va) ->
  split splits overlap tr (if vs then Some va else None) = Some parts -> nth_error (sequential replicate parts) i = Some (Some part) ->
  forall k, In k (map fst test) -> ~ In k (map fst (fst part)).
Proof.
  intros ND P Hq NE HO vs PR SP SQ k KT KP. destruct (C223_held_out q keys data ND P Hq NE) as [a [b [E [Pm _]]]]. rewrite HO in E. injection E as <- <-.
  apply (perm_disjoint test train data ND Pm k KT). apply nth_error_In in SQ. assert (IP : In part parts).
  { clear - SQ. induction replicate as [|r IH]; [destruct SQ |]. cbn [sequential] in SQ. apply in_app_or in SQ. destruct SQ as [SQ|SQ]; [apply in_map_iff in SQ; destruct SQ as [x [Q I]]; injection Q as <-; exact I | auto]. }
  apply (split_keys _ _ _ _ _ _ SP IP) in KP. destruct (C205_keys p Train vs freq train tr va k PR) as [A _]. apply A. exact KP.
Qed.
Example C223_case : exists test train parts, hold_out (1 # 4) [3; 0; 2; 1; 4] (numbered 5) = Some (test, train) /\ map fst test = [3] /\ map fst train = [0; 2; 1; 4] /\
  split 2 false train None = Some parts /\ map (fun o => match o with Some d => map fst (fst d) | None => [] end) (sequential 2 parts) = [[0; 2]; [1; 4]; [0; 2]; [1; 4]].
Proof. do 3 eexists. split; [vm_compute; reflexivity |]. split; [reflexivity |]. split; [reflexivity |]. split; [vm_compute; reflexivity |]. reflexivity. Qed.

(** ** C224: backtesting on many series *)
Lemma filter_twice {A} (f g : A -> bool) l : filter f (filter g l) = filter (fun x => g x && f x) l.
Proof. induction l as [|x l IH]; [reflexivity |]. cbn. destruct (g x); cbn; [destruct (f x); cbn; rewrite IH; reflexivity | exact IH]. Qed.
Lemma filter_len_le {A} (f g : A -> bool) l : (forall x, f x = true -> g x = true) -> length (filter f l) <= length (filter g l).
Proof. intros H. induction l as [|x l IH]; [cbn; lia |]. cbn. destruct (f x) eqn:E; [rewrite (H x E); cbn; lia | destruct (g x); cbn; lia]. Qed.
Lemma filter_split_len {A} (f : A -> bool) l : length l = length (filter f l) + length (filter (fun x => negb (f x)) l).
Proof. induction l as [|x l IH]; [reflexivity |]. cbn. destruct (f x); cbn; lia. Qed.
Lemma cut_spec p m bt data out : filter_data p m bt data = Some out ->
  let before ts := filter (fun r : Z * option Q => fst r <? bt)%Z ts in
  let after ts := filter (fun r : Z * option Q => (bt <=? fst r) && (fst r <=? bt + look_ahead p))%Z ts in
  let enough ts := match m with Train => min_train p <= length (before ts) /\ bt_fcst p <= length (after ts) | Test => min_test p <= length (before ts) end in
  (0 <= bt_freq p)%Z -> 1 <= bt_input p ->
  forall k tr va, In (k, (tr, va)) out <-> exists ts, In (k, ts) data /\ enough ts /\ tr = before ts /\ va = after ts.
Proof.
  intros H before after enough HF HI k tr va. assert (LA : (0 <= look_ahead p)%Z) by (unfold look_ahead; nia).
  assert (B : forall ts : list (Z * option Q), filter (fun r => fst r <? bt)%Z (filter (fun r => fst r <=? bt + look_ahead p)%Z ts) = before ts).
  { intros ts. rewrite filter_twice. unfold before. apply filter_ext. intros r. destruct (fst r <? bt)%Z eqn:E; [| apply andb_false_r]. apply Z.ltb_lt in E. rewrite (proj2 (Z.leb_le _ _)) by lia. reflexivity. }
  assert (Af : forall ts : list (Z * option Q), filter (fun r => bt <=? fst r)%Z (filter (fun r => fst r <=? bt + look_ahead p)%Z ts) = after ts).
  { intros ts. rewrite filter_twice. unfold after. apply filter_ext. intros r. apply andb_comm. }
  assert (LN : forall ts : list (Z * option Q), length (filter (fun r => fst r <=? bt + look_ahead p)%Z ts) = length (before ts) + length (after ts)).
  { intros ts. rewrite <- B, <- Af. rewrite (filter_split_len (fun r => fst r <? bt)%Z). f_equal. f_equal. apply filter_ext. intros r. rewrite Z.leb_antisym. reflexivity. }
  assert (C1 : forall ts, cut1 p m bt ts = Some (tr, va) <-> enough ts /\ tr = before ts /\ va = after ts).
  { intros ts. unfold cut1. cbv zeta. rewrite LN, B, Af. assert (NZ : enough ts -> 0 < length ts).
    { intros EN. assert (length (before ts) <= length ts) by (unfold before; rewrite (filter_split_len (fun r : Z * option Q => fst r <? bt)%Z ts); lia). unfold enough in EN. destruct m; unfold min_train, min_test in EN; lia. }
    destruct m; unfold enough in *;
      (destruct (0 <? length ts) eqn:E0; [| apply Nat.ltb_ge in E0; split; [discriminate | intros [EN _]; specialize (NZ EN); lia]]);
      match goal with |- (if ?b then _ else _) = _ <-> _ => destruct b eqn:E1 end;
      try (match goal with |- (if ?b then _ else _) = _ <-> _ => destruct b eqn:E2 end);
      rewrite ?andb_true_iff, ?andb_false_iff, ?Nat.leb_le, ?Nat.leb_gt in *;
      (split; [intros Q; try discriminate; injection Q as <- <-; (split; [lia | split; reflexivity]) | intros [EN [-> ->]]; try reflexivity; exfalso; lia]). }
  assert (OUT : out = flat_map (fun kt => match cut1 p m bt (snd kt) with Some c => [(fst kt, c)] | None => [] end) data) by (unfold filter_data in H; destruct (flat_map _ data); [discriminate | injection H as <-; reflexivity]).
  rewrite OUT. rewrite in_flat_map. split.
  - intros [[k' ts] [I J]]. cbn [fst snd] in J. destruct (cut1 p m bt ts) as [c|] eqn:E; [| destruct J]. destruct J as [J|[]]. injection J as -> ->. exists ts. split; [exact I |]. apply C1. exact E.
  - intros [ts [I EN]]. exists (k, ts). split; [exact I |]. cbn [fst snd]. rewrite (proj2 (C1 ts) EN). left. reflexivity.
Qed.
(** a series is used if and only if it has enough values before the time and, for training, between the time and the look ahead;
    then it is trained on with what lies before the time and compared with what lies from the time to the look ahead *)
Theorem C224_cut p m bt data out : filter_data p m bt data = Some out ->
  let before ts := filter (fun r : Z * option Q => fst r <? bt)%Z ts in
  let after ts := filter (fun r : Z * option Q => (bt <=? fst r) && (fst r <=? bt + bt_freq p * Z.of_nat (bt_valid_steps p * bt_fcst p) * 3))%Z ts in
  let enough ts := match m with Train => bt_input p + bt_fcst p + bt_steps p * bt_length p <= length (before ts) /\ bt_fcst p <= length (after ts) | Test => bt_warm p * bt_length p + bt_input p <= length (before ts) end in
  (0 <= bt_freq p)%Z -> 1 <= bt_input p ->
  forall k tr va, In (k, (tr, va)) out <-> exists ts, In (k, ts) data /\ enough ts /\ tr = before ts /\ va = after ts.
Proof. exact (cut_spec p m bt data out). Qed.
(** an integer test_size leaves test and training series; the default of 0.1 leaves no test series if there are fewer than 10, and then
    the backtest raises *)
Theorem C224_size_partial n z c : test_count n (SizeInt z) = Some c -> 1 <= c < n.
Proof. cbn. destruct ((0 <? z)%Z && (z <? Z.of_nat n)%Z) eqn:E; [| discriminate]. apply andb_true_iff in E. destruct E as [A B]. apply Z.ltb_lt in A, B. intros Q. injection Q as <-. lia. Qed.
Theorem C224_size_refuted n splits replicate overlap keys p bt data seen : 1 <= n < 10 ->
  test_count n (SizeFloat (1 # 10)) = Some 0 /\ run_keys splits replicate overlap 0 keys p bt data seen = None.
Proof.
  intros H. split.
  - cbn [test_count]. change (negb (Qle_bool (1 # 10) 0) && negb (Qle_bool 1 (1 # 10))) with true. cbv iota. f_equal. assert (C : n = 1 \/ n = 2 \/ n = 3 \/ n = 4 \/ n = 5 \/ n = 6 \/ n = 7 \/ n = 8 \/ n = 9) by lia.
    repeat (destruct C as [->|C]; [reflexivity |]). subst n. reflexivity.
  - unfold run_keys. cbn [firstn skipn pick]. destruct (pick data keys) as [tr|]; [| reflexivity]. cbn. destruct (filter_data p Train bt tr); reflexivity.
Qed.
(** what the evaluation reports: for every test series, window and model one row, and one for the median of the models *)
Lemma series_row fw k fcsts valid r : In r (rows_of_series fw k fcsts valid) <-> idx r = k /\ window r < step_num (length valid) fw /\
  actual r = firstn fw (skipn (window r * fw) (valid ++ repeat None (step_num (length valid) fw * fw - length valid))) /\
  match model r with
  | Some i => i < length fcsts /\ predicted r = nth (window r) (nth i fcsts []) []
  | None => predicted r = map (fun c => qmedian (map (fun m => GmFcstModel.cell (nth (window r) m []) c) fcsts)) (seq 0 (length (nth (window r) (hd [] fcsts) [])))
  end.
Proof.
  unfold rows_of_series. rewrite in_flat_map. split.
  - intros [j [J I]]. apply in_seq in J. apply in_app_or in I. destruct I as [I|[<-|[]]].
    + apply in_map_iff in I. destruct I as [i [<- I]]. apply in_seq in I. cbn [idx window actual model predicted]. repeat split; lia.
    + cbn [idx window actual model predicted]. repeat split; lia.
  - intros [A [B [C D]]]. exists (window r). split; [apply in_seq; lia |]. apply in_or_app. destruct r as [k' j m pr ac]. cbn [idx window actual model predicted] in *. subst k'. destruct m as [i|].
    + left. destruct D as [D1 ->]. subst ac. apply in_map_iff. exists i. split; [reflexivity | apply in_seq; lia].
    + right. left. subst. reflexivity.
Qed.
Lemma fold_max_ge l x : In x l -> x <= fold_right Nat.max 0 l.
Proof. induction l as [|y l IH]; [intros [] |]. cbn. intros [->|H]; [lia | specialize (IH H); lia]. Qed.
Theorem C224_rows fw nq models predict tests : 1 <= fw -> 1 <= models ->
  let steps := fold_right Nat.max 0 (map (fun kt : nat * (list (Z * option Q) * list (Z * option Q)) => length (snd (snd kt))) tests) in
  (forall i ts, i < models -> shaped fw nq (step_num steps fw) (predict i ts steps)) ->
  forall k tr va, In (k, (tr, va)) tests -> forall t v, nth_error (map snd va) t = Some v ->
    (forall i, i < models -> exists r, In r (evaluate fw models predict tests) /\ idx r = k /\ window r = t / fw /\ model r = Some i /\
       nth_error (actual r) (t mod fw) = Some v /\ forall j, nth (j * fw + t mod fw) (predicted r) 0%Q = nth (j * fw + t mod fw) (nth (t / fw) (predict i tr steps) []) 0%Q) /\
    (exists r, In r (evaluate fw models predict tests) /\ idx r = k /\ window r = t / fw /\ model r = None /\ nth_error (actual r) (t mod fw) = Some v /\
       forall j, j < nq -> median_of (map (fun i => nth (j * fw + t mod fw) (nth (t / fw) (predict i tr steps) []) 0%Q) (seq 0 models)) (nth (j * fw + t mod fw) (predicted r) 0%Q)).
Proof.
  intros Hf Hm steps SH k tr va I t v V. set (valid := map snd va) in *. assert (Ht : t < length valid) by (apply nth_error_Some; congruence).
  pose proof (step_num_bounds (length valid) fw Hf) as SB. pose proof (Nat.div_mod t fw ltac:(lia)) as DM. pose proof (Nat.mod_upper_bound t fw ltac:(lia)) as MB.
  assert (KB : t / fw < step_num (length valid) fw) by (apply Nat.div_lt_upper_bound; nia).
  set (act := firstn fw (skipn (t / fw * fw) (valid ++ repeat None (step_num (length valid) fw * fw - length valid)))).
  assert (AC : nth_error act (t mod fw) = Some v).
  { unfold act. assert (Bd : t mod fw < length (firstn fw (skipn (t / fw * fw) (valid ++ repeat None (step_num (length valid) fw * fw - length valid))))) by (rewrite firstn_length, skipn_length, app_length, repeat_length; nia).
    rewrite (nth_error_nth' _ None Bd). rewrite firstn_nth by exact MB. rewrite skipn_nth. replace (t / fw * fw + t mod fw) with t by lia. rewrite app_nth1 by exact Ht. f_equal. apply nth_error_nth. exact V. }
  set (fcsts := map (fun i => predict i tr steps) (seq 0 models)). assert (LF : length fcsts = models) by (unfold fcsts; rewrite map_length, seq_length; reflexivity).
  assert (INR : forall r, In r (rows_of_series fw k fcsts valid) -> In r (evaluate fw models predict tests)).
  { intros r R. unfold evaluate. apply in_flat_map. exists (k, (tr, va)). split; [exact I | exact R]. }
  split.
  - intros i Hi. exists {| idx := k; window := t / fw; model := Some i; predicted := nth (t / fw) (nth i fcsts []) []; actual := act |}. cbn [idx window model predicted actual].
    split; [apply INR, series_row; cbn [idx window model predicted actual]; repeat split; lia |]. repeat split; [exact AC |]. intros j. unfold fcsts. rewrite (seq_map_nth (fun i => predict i tr steps) models i []) by exact Hi. reflexivity.
  - eexists {| idx := k; window := t / fw; model := None; predicted := _; actual := act |}. cbn [idx window model predicted actual].
    split; [apply INR, series_row; cbn [idx window model predicted actual]; repeat split; exact KB |]. repeat split; [exact AC |]. intros j Hj.
    assert (HD : hd [] fcsts = predict 0 tr steps) by (unfold fcsts; destruct models; [lia | reflexivity]). destruct (SH 0 tr ltac:(lia)) as [L0 R0].
    assert (SM : step_num (length valid) fw <= step_num steps fw).
    { pose proof (step_num_bounds steps fw Hf). assert (length valid <= steps) by (unfold valid; rewrite map_length; apply fold_max_ge; apply in_map_iff; exists (k, (tr, va)); split; [reflexivity | exact I]). nia. }
    assert (LR : length (nth (t / fw) (hd [] fcsts) []) = nq * fw) by (rewrite HD; apply R0, nth_In; lia). rewrite LR.
    rewrite (seq_map_nth (fun c => qmedian (map (fun m => GmFcstModel.cell (nth (t / fw) m []) c) fcsts)) (nq * fw) _ 0%Q) by nia. unfold fcsts. rewrite map_map. apply qmedian_spec.
Qed.
(** in the first run no model has seen a test series *)
Lemma zip_with_in {A B C} (f : A -> B -> C) l l' x : In x (zip_with f l l') -> exists a b, In a l /\ In b l' /\ x = f a b.
Proof. revert l'. induction l as [|a l IH]; intros [|b l']; cbn [zip_with]; try contradiction. intros [<-|H]; [exists a, b; cbn; auto |]. destruct (IH _ H) as [a' [b' [? [? ->]]]]. exists a', b'. cbn. auto. Qed.
Lemma filter_data_keys p m bt data out : filter_data p m bt data = Some out -> incl (map fst out) (map fst data).
Proof.
  unfold filter_data. intros H k I. assert (E : out = flat_map (fun kt => match cut1 p m bt (snd kt) with Some c => [(fst kt, c)] | None => [] end) data) by (destruct (flat_map _ data); [discriminate | injection H as <-; reflexivity]).
  rewrite E in I. apply in_map_iff in I. destruct I as [[k' c] [<- I]]. apply in_flat_map in I. destruct I as [[k2 ts] [I J]]. cbn [fst snd] in J. destruct (cut1 p m bt ts); [| destruct J]. destruct J as [J|[]]. injection J as <- _. apply in_map_iff. exists (k2, ts). auto.
Qed.
Theorem C224_unseen_partial splits replicate overlap count keys p bt data seen' tests : NoDup (map fst data) -> Permutation keys (map fst data) ->
  run_keys splits replicate overlap count keys p bt data (repeat [] (replicate * splits)) = Some (seen', tests) ->
  tests <> [] /\ forall s k, In s seen' -> In k tests -> ~ In k s.
Proof.
  intros ND P. unfold run_keys. destruct (pick data (firstn count keys)) as [te|] eqn:E1; [| discriminate]. destruct (pick data (skipn count keys)) as [tr|] eqn:E2; [| discriminate].
  destruct (filter_data p Train bt tr) as [ftr|] eqn:E3; [| discriminate]. destruct (filter_data p Test bt te) as [fte|] eqn:E4; [| discriminate].
  destruct (split splits overlap _ _) as [parts|] eqn:E5; [| discriminate]. intros Q. injection Q as <- <-. split; [unfold filter_data in E4; destruct (flat_map _ te); [discriminate | injection E4 as <-; discriminate] |].
  intros s k IS IK KS. apply zip_with_in in IS. destruct IS as [a [b [Ia [Ib ->]]]]. apply repeat_spec in Ia. subst a. destruct b as [d|]; [| destruct KS]. cbn [app] in KS.
  assert (IP : In d parts).
  { clear - Ib. induction replicate as [|r IH]; [destruct Ib |]. cbn [sequential] in Ib. apply in_app_or in Ib. destruct Ib as [Ib|Ib]; [apply in_map_iff in Ib; destruct Ib as [x [Q I]]; injection Q as <-; exact I | auto]. }
  apply (split_keys _ _ _ _ _ _ E5 IP) in KS. rewrite map_map in KS. cbn [fst] in KS. apply (filter_data_keys _ _ _ _ _ E3) in KS. apply (filter_data_keys _ _ _ _ _ E4) in IK.
  apply (pick_keys) in E1, E2. rewrite E1 in IK. rewrite E2 in KS. assert (NK : NoDup (firstn count keys ++ skipn count keys)) by (rewrite firstn_skipn; eapply Permutation_NoDup; [apply Permutation_sym; exact P | exact ND]).
  clear - NK IK KS. induction (firstn count keys) as [|x l IH]; [destruct IK |]. cbn in NK. inversion NK as [|? ? N1 N2]. subst. destruct IK as [<-|IK]; [apply N1, in_or_app; right; exact KS | auto].
Qed.
(** in a second run of the same tester they may have: the models go on from their weights *)
Definition little : btlens := {| bt_input := 1; bt_fcst := 1; bt_steps := 0; bt_length := 1; bt_warm := 0; bt_valid_steps := 1; bt_freq := 1 |}.
Definition flat5 : list (Z * option Q) := map (fun k => (Z.of_nat k, Some 1%Q)) (seq 0 5).
Theorem C224_second_run_refuted : exists keys keys' seen tests seen' tests', let data := map (fun k => (k, flat5)) (seq 0 3) in
  Permutation keys (map fst data) /\ Permutation keys' (map fst data) /\
  run_keys 1 1 true 1 keys little 3 data [[]] = Some (seen, tests) /\ run_keys 1 1 true 1 keys' little 3 data seen = Some (seen', tests') /\
  exists s k, In s seen' /\ In k tests' /\ In k s.
Proof.
  exists [0; 1; 2], [1; 0; 2]. do 4 eexists. cbv zeta. split; [apply Permutation_refl |]. split; [apply perm_swap |]. split; [vm_compute; reflexivity |]. split; [vm_compute; reflexivity |].
  exists [1; 2; 0; 2], 1. cbn. auto.
Qed.
Example C224_case : exists out, filter_data little Test 3 [(7, flat5); (8, firstn 2 flat5)] = Some out /\ map (fun kc => (fst kc, length (fst (snd kc)), length (snd (snd kc)))) out = [(7, 3, 2); (8, 2, 0)] /\
  map (fun r => (idx r, window r, model r)) (evaluate 1 2 (fun i _ n => repeat [inject_Z (Z.of_nat i)] n) out) =
    [(7, 0, Some 0); (7, 0, Some 1); (7, 0, None); (7, 1, Some 0); (7, 1, Some 1); (7, 1, None)].
Proof. eexists. split; [vm_compute; reflexivity |]. split; vm_compute; reflexivity. Qed.

(** ** C225: expanding windows: forecasts are compared with the values of the same step, the missing values left out *)
Lemma flat_map_shift {B} (g : nat -> list B) l : flat_map g (map S l) = flat_map (fun x => g (S x)) l.
Proof. induction l as [|x l IH]; [reflexivity |]. cbn. rewrite IH. reflexivity. Qed.
Lemma keep_known (truth : list (option Q)) : forall f, length truth <= length f ->
  zip_with pair (known truth) (keep (map (fun o => match o with Some _ => true | None => false end) truth) (firstn (length truth) f)) =
  flat_map (fun t => match nth t truth None with Some v => [(v, nth t f 0%Q)] | None => [] end) (seq 0 (length truth)) /\
  length (keep (map (fun o : option Q => match o with Some _ => true | None => false end) truth) (firstn (length truth) f)) = length (known truth).
Proof.
  induction truth as [|o truth IH]; intros [|y f] H; [split; reflexivity | split; reflexivity | cbn in H; lia |]. destruct (IH f ltac:(cbn in H; lia)) as [A B]. cbn [length seq flat_map map known firstn]. rewrite <- seq_shift.
  rewrite flat_map_shift. unfold known in *. cbn [flat_map nth]. destruct o as [v|]; cbn [keep app zip_with length].
  - rewrite A, B. split; reflexivity.
  - rewrite A, B. split; reflexivity.
Qed.
Theorem C225_aligned train truth fcst a b c : length truth <= length fcst -> fold_result train truth fcst = (a, b, c) ->
  zip_with pair b c = flat_map (fun t => match nth t truth None with Some v => [(v, nth t fcst 0%Q)] | None => [] end) (seq 0 (length truth)) /\ length b = length c /\
  (forall v, In v a <-> In (Some v) train) /\ forall v, In v b <-> In (Some v) truth.
Proof.
  intros H E. unfold fold_result in E. injection E as <- <- <-. destruct (keep_known truth fcst H) as [A B]. split; [exact A |]. split; [symmetry; exact B |].
  assert (K : forall l (v : Q), In v (known l) <-> In (Some v) l).
  { intros l v. unfold known. rewrite in_flat_map. split; [intros [[x|] [I J]]; [destruct J as [->|[]]; exact I | destruct J] | intros I; exists (Some v); split; [exact I | left; reflexivity]]. }
  split; intros v; apply K.
Qed.
Example C225_case : fold_result [Some 1%Q; None] [None; Some 5%Q; Some 6%Q] [7; 8; 9; 10]%Q = ([1], [5; 6], [8; 9])%Q.
Proof. reflexivity. Qed.

(** ** C226: global models on series with a season *)
Lemma tiled_nth rep l i : 1 <= length l -> i < rep * length l -> nth i (tiled rep l) 0%Q = nth (i mod length l) l 0%Q.
Proof.
  intros L. revert i. induction rep as [|r IH]; intros i H; [cbn in H; lia |]. cbn [tiled]. destruct (Nat.lt_ge_cases i (length l)) as [B|B].
  - rewrite app_nth1 by exact B. rewrite Nat.mod_small by exact B. reflexivity.
  - rewrite app_nth2 by exact B. rewrite IH by (cbn in H; lia). f_equal. replace i with ((i - length l) + 1 * length l) at 2 by lia. rewrite Nat.mod_add by lia. reflexivity.
Qed.
Lemma tiled_len rep l : length (tiled rep l) = rep * length l.
Proof. induction rep as [|r IH]; [reflexivity |]. cbn [tiled]. rewrite app_length, IH. reflexivity. Qed.
(** the season is carried on from its last period *)
Theorem C226_season period steps seasonal : 1 <= period <= length seasonal ->
  length (season_ahead period steps seasonal) = steps /\
  forall t, t < steps -> nth t (season_ahead period steps seasonal) 0%Q = nth (length seasonal - period + t mod period) seasonal 0%Q.
Proof.
  intros H. assert (LP : length (last_period period seasonal) = period) by (unfold last_period; rewrite skipn_length; lia). pose proof (Nat.div_mod steps period ltac:(lia)). pose proof (Nat.mod_upper_bound steps period ltac:(lia)).
  assert (B : steps <= (1 + steps / period) * period) by nia. unfold season_ahead. split; [rewrite firstn_length, tiled_len, LP; lia |]. intros t Ht. rewrite firstn_nth by exact Ht. rewrite tiled_nth by (rewrite LP; lia). rewrite LP. unfold last_period. rewrite skipn_nth. reflexivity.
Qed.
(** if the season repeats, the decomposition finds it and the global model forecasts what is left, the forecasts are right *)
Theorem C226_exact d f period steps (decompose : list Q -> list Q * list Q) (gm : list Q -> list Q) (base season : nat -> Q) ts future : 1 <= period -> period <= length ts ->
  length future = steps -> (forall t : nat, (season (t + period)%nat == season t)%Q) -> (forall t, d = Multiplicative -> ~ (season t == 0)%Q) ->
  (forall t, t < length ts -> (nth t ts 0 == reseason d (base t) (season t))%Q) ->
  (forall t, t < steps -> (nth t future 0 == reseason d (base (length ts + t)%nat) (season (length ts + t)%nat))%Q) ->
  (let (trend, seasonal) := decompose ts in length seasonal = length ts /\ length trend = length ts /\ forall t, t < length ts -> (nth t seasonal 0 == season t)%Q /\ (nth t trend 0 == base t)%Q) ->
  f <> Original ->
  (forall x, length x = length ts -> (forall t, t < length ts -> (nth t x 0 == base t)%Q) -> length (gm x) = steps /\ forall t, t < steps -> (nth t (gm x) 0 == base (length ts + t)%nat)%Q) ->
  exists out, std_predict d f period steps decompose gm ts = Some out /\ length out = steps /\ forall t, t < steps -> (nth t out 0 == nth t future 0)%Q.
Proof.
  intros H1 HP LF PER NZ TS FU DE FO GM. unfold std_predict. destruct (decompose ts) as [trend seasonal]. destruct DE as [LS [LT DE]].
  assert (FI : length (fitted d f ts seasonal trend) = length ts /\ forall t, t < length ts -> (nth t (fitted d f ts seasonal trend) 0 == base t)%Q).
  { destruct f; cbn [fitted]; [split; [exact LT | intros t Ht; apply (DE t Ht)] | congruence |]. split; [rewrite zip_len; lia |]. intros t Ht. rewrite (zip_nth (deseason d) ts seasonal t 0%Q 0%Q 0%Q) by lia.
    destruct (DE t Ht) as [S _]. pose proof (TS t Ht) as T. destruct d; cbn [deseason reseason] in *; rewrite S, T; [ring |]. field. apply NZ. reflexivity. }
  destruct (GM _ (proj1 FI) (proj2 FI)) as [LG G]. destruct (C226_season period steps seasonal ltac:(lia)) as [LA A]. unfold with_season. rewrite LG, LA, Nat.eqb_refl. eexists. split; [reflexivity |]. split; [rewrite zip_len; lia |].
  intros t Ht. rewrite (zip_nth (reseason d) _ _ t 0%Q 0%Q 0%Q) by lia. rewrite (FU t Ht). rewrite A by exact Ht.
  assert (SE : (nth (length seasonal - period + t mod period) seasonal 0 == season (length ts + t)%nat)%Q).
  { pose proof (Nat.mod_upper_bound t period ltac:(lia)). destruct (DE (length seasonal - period + t mod period) ltac:(lia)) as [-> _]. rewrite LS. pose proof (Nat.div_mod t period ltac:(lia)) as DM.
    replace (length ts + t) with (length ts - period + t mod period + (S (t / period)) * period) by nia. generalize (length ts - period + t mod period) as a. generalize (S (t / period)) as k. clear - PER. intros k a. induction k as [|k IH]; [rewrite Nat.add_0_r; reflexivity |].
    replace (a + S k * period) with (a + k * period + period) by lia. rewrite PER. exact IH. }
  destruct d; cbn [reseason]; rewrite SE, (G t Ht); reflexivity.
Qed.
(** with fit_original the season is added to forecasts that have it already *)
Theorem C226_original_refuted d period steps decompose gm ts : 1 <= period -> period <= length ts -> length (snd (decompose ts)) = length ts -> length (gm ts) = steps ->
  exists out, std_predict d Original period steps decompose gm ts = Some out /\
    forall t, t < steps -> nth t out 0%Q = reseason d (nth t (gm ts) 0%Q) (nth (length ts - period + t mod period) (snd (decompose ts)) 0%Q) /\
      (d = Additive -> ~ (nth (length ts - period + t mod period) (snd (decompose ts)) 0 == 0)%Q -> ~ (nth t out 0 == nth t (gm ts) 0)%Q).
Proof.
  intros H1 HP LS LG. unfold std_predict. destruct (decompose ts) as [trend seasonal]. cbn [snd] in *. cbn [fitted]. destruct (C226_season period steps seasonal ltac:(lia)) as [LA A]. unfold with_season. rewrite LG, LA, Nat.eqb_refl. eexists. split; [reflexivity |].
  intros t Ht. rewrite (zip_nth (reseason d) _ _ t 0%Q 0%Q 0%Q) by lia. rewrite A by exact Ht. rewrite LS. split; [reflexivity |]. intros -> NZ C. apply NZ. cbn [reseason] in C. lra.
Qed.
(** a series shorter than the period may raise *)
Theorem C226_short_refuted : exists d f period steps decompose gm ts, 1 <= period /\ 1 <= length ts /\ length (gm ts) = steps /\ std_predict d f period steps decompose gm ts = None.
Proof. exists Additive, Original, 7, 5, (fun ts => (ts, ts)), (fun _ => [0; 0; 0; 0; 0]%Q), [1; 2]%Q. cbn. repeat split; lia. Qed.
Example C226_case : option_map (map Qred) (std_predict Additive Deseasoned 2 3 (fun _ => ([1; 2; 3; 4], [1; -1; 1; -1])%Q) (fun _ => [5; 6; 7])%Q [2; 1; 4; 3]%Q) = Some [6; 5; 8]%Q.
Proof. vm_compute. reflexivity. Qed.

Print Assumptions C222_combined.
Print Assumptions C222_order.
Print Assumptions C222_frame.
Print Assumptions C223_held_out.
Print Assumptions C223_all_held_out_refuted.
Print Assumptions C223_parts.
Print Assumptions C223_unseen.
Print Assumptions C224_cut.
Print Assumptions C224_size_partial.
Print Assumptions C224_size_refuted.
Print Assumptions C224_rows.
Print Assumptions C224_unseen_partial.
Print Assumptions C224_second_run_refuted.
Print Assumptions C225_aligned.
Print Assumptions C226_season.
Print Assumptions C226_exact.
Print Assumptions C226_original_refuted.
Print Assumptions C226_short_refuted.
