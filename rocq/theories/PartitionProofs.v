From Verif Require Import Common PySlice BacktestModel BacktestSpec BacktestProofs.
From Coq Require Import Sorted.
Open Scope Z_scope.

(** * Generic backtester *)
Lemma get_fold_errors_some es rs k folds : get_fold_errors es rs = Some (k, folds) ->
  folds = map (fun r => match r with Some (_, s) => s | None => repeat es k end) rs /\
  exists n s, In (Some (n, s)) rs /\ length s = k.
Proof.
  unfold get_fold_errors. match goal with |- context [filter ?f rs] => set (F := f) end.
  destruct (filter F rs) as [|[[n s]|] l] eqn:E; try discriminate.
  intros H; injection H as <- <-. split; [reflexivity|].
  assert (Hin : In (Some (n, s)) (Some (n, s) :: l)) by (left; auto). rewrite <- E in Hin.
  apply filter_In in Hin. exists n, s. tauto.
Qed.

Lemma get_fold_errors_none es rs : get_fold_errors es rs = None <-> (forall r, In r rs -> r = None).
Proof.
  unfold get_fold_errors. match goal with |- context [filter ?f rs] => set (F := f) end.
  destruct (filter F rs) as [|r l] eqn:E.
  - split; [intros _|auto]. intros [o|] Hin; [|reflexivity].
    assert (H : In (Some o) []) by (rewrite <- E; apply filter_In; auto). destruct H.
  - assert (Hin : In r (r :: l)) by (left; auto). rewrite <- E in Hin. apply filter_In in Hin.
    destruct r as [[n s]|]; [|destruct Hin; discriminate]. split; [discriminate|].
    intros H. specialize (H _ (proj1 Hin)). discriminate.
Qed.

Lemma summarize_folds es w rs folds summary : summarize es w rs = Some (folds, summary) ->
  length folds = length rs /\
  exists k, length summary = k /\ (exists n s, In (Some (n, s)) rs /\ length s = k) /\
  forall i, (i < length rs)%nat ->
    nth i folds [] = match nth i rs None with Some (_, s) => s | None => repeat es k end.
Proof.
  unfold summarize. destruct (get_fold_errors es rs) as [[k fs]|] eqn:E; [|discriminate].
  apply get_fold_errors_some in E. destruct E as [-> Hex].
  destruct (fold_weights w rs); [|discriminate].
  match goal with |- context [if ?b then _ else _] => destruct b; [|discriminate] end.
  intros H; injection H as <- <-. rewrite !map_length, seq_length. split; [reflexivity|].
  exists k. split; [reflexivity|]. split; [exact Hex|].
  intros i Hi. set (f := fun r : outcome => match r with Some (_, s) => s | None => repeat es k end).
  rewrite nth_indep with (d' := f None) by (rewrite map_length; auto).
  rewrite (map_nth f). reflexivity.
Qed.

Lemma summarize_all_failed es w rs : (forall r, In r rs -> r = None) -> summarize es w rs = None.
Proof. intros H. unfold summarize. rewrite (proj2 (get_fold_errors_none es rs) H). reflexivity. Qed.

Lemma nanmean_spec l : is_nan_mean (nanmean l) l.
Proof.
  unfold is_nan_mean, nanmean. change (non_nan l) with (valid_values l).
  destruct (valid_values l) as [|v t]; [reflexivity|]. split; [discriminate|].
  field. intros H. rewrite <- (inject_Z_injective 0) in H || idtac.
  unfold Qeq in H; cbn -[Z.of_nat length] in H. rewrite Z.mul_1_r in H. simpl length in H. lia.
Qed.

Definition opt_qeq (a b : option Q) : Prop :=
  match a, b with Some x, Some y => (x == y)%Q | None, None => True | _, _ => False end.

Lemma valid_values_eq l l' : Forall2 opt_qeq l l' ->
  length (valid_values l) = length (valid_values l') /\ (qsum (valid_values l) == qsum (valid_values l'))%Q.
Proof.
  induction 1 as [|a b l l' Hab H IH]; [split; reflexivity|]. destruct IH as [I1 I2].
  destruct a as [x|], b as [y|]; simpl in *; try contradiction; [|tauto].
  split; [lia|]. rewrite Hab, I2. reflexivity.
Qed.

Lemma is_nan_mean_eq s l l' : Forall2 opt_qeq l l' -> is_nan_mean s l -> is_nan_mean s l'.
Proof.
  intros H. apply valid_values_eq in H. destruct H as [Hl Hs]. unfold is_nan_mean.
  destruct s as [m|].
  - intros [Hne He]. split.
    + intros E. rewrite E in Hl. destruct (valid_values l); [congruence|discriminate].
    + rewrite <- Hl, <- Hs. exact He.
  - intros E. rewrite E in Hl. destruct (valid_values l'); [reflexivity|discriminate].
Qed.

Lemma nth_map_seq {A} (g : nat -> A) k m d : (m < k)%nat -> nth m (map g (seq 0 k)) d = g m.
Proof.
  intros H. rewrite nth_indep with (d' := g O) by (rewrite map_length, seq_length; auto).
  rewrite (map_nth g), seq_nth by auto. reflexivity.
Qed.

Lemma fold_map_ok es rs k : (forall n s, In (Some (n, s)) rs -> length s = k) ->
  forallb (fun f => Nat.leb k (length f))
    (map (fun r : outcome => match r with Some (_, s0) => s0 | None => repeat es k end) rs) = true.
Proof.
  intros Hk. apply forallb_forall. intros x Hx. apply in_map_iff in Hx. destruct Hx as [[[n0 s0]|] [<- Hr]].
  - rewrite (Hk n0 s0 Hr). apply Nat.leb_refl.
  - rewrite repeat_length. apply Nat.leb_refl.
Qed.

Lemma unit_weights m (F : list (list score)) : forall n, length F = n ->
  Forall2 opt_qeq (map (fun p => scale (fst p) (nth m (snd p) None)) (combine (repeat 1%Q n) F))
    (map (fun f => nth m f None) F).
Proof.
  induction F as [|f F IH]; intros n <-; simpl; constructor; auto.
  destruct (nth m f None); simpl; [ring|exact I].
Qed.

Lemma summarize_average_total es rs k :
  (exists n s, In (Some (n, s)) rs) -> (forall n s, In (Some (n, s)) rs -> length s = k) ->
  exists folds summary, summarize es false rs = Some (folds, summary) /\
    (forall m, (m < k)%nat -> is_nan_mean (nth m summary None) (map (fun f => nth m f None) folds)).
Proof.
  intros [n [s Hin]] Hk. unfold summarize.
  destruct (get_fold_errors es rs) as [[k' fs]|] eqn:E.
  2:{ exfalso. pose proof (proj1 (get_fold_errors_none es rs) E _ Hin). discriminate. }
  apply get_fold_errors_some in E. destruct E as [-> [n' [s' [Hin' Hl']]]].
  rewrite (Hk n' s' Hin') in Hl'. rewrite <- Hl'. clear k' Hl'.
  unfold fold_weights.
  match goal with |- context[forallb ?f ?l] => replace (forallb f l) with true by (symmetry; apply (fold_map_ok es rs k Hk)) end.
  do 2 eexists. split; [reflexivity|]. intros m Hm.
  rewrite nth_map_seq by exact Hm.
  eapply is_nan_mean_eq; [apply unit_weights; apply map_length|apply nanmean_spec].
Qed.

Lemma summarize_weighted_fails es rs : In None rs -> summarize es true rs = None.
Proof.
  intros H. unfold summarize. destruct (get_fold_errors es rs) as [[k f]|]; [|reflexivity].
  unfold fold_weights. assert (E : lengths rs = None); [|rewrite E; reflexivity].
  induction rs as [|[[n s]|] t IH]; simpl in *; [contradiction| |reflexivity].
  destruct H as [H|H]; [discriminate|]. rewrite (IH H). reflexivity.
Qed.

(** A run of folds that all succeed with the given row counts and numeric score vectors. *)
Definition good (p : nat * list Q) : outcome := Some (fst p, map Some (snd p)).

Lemma lengths_good ps : lengths (map good ps) = Some (map (fun n => inject_Z (Z.of_nat n)) (map fst ps)).
Proof. induction ps as [|[n s] ps IH]; simpl; [reflexivity|]. rewrite IH. reflexivity. Qed.

Lemma good_errors es ps k : ps <> [] -> (forall p, In p ps -> length (snd p) = k) ->
  get_fold_errors es (map good ps) = Some (k, map (fun p => map Some (snd p)) ps).
Proof.
  intros Hne Hk. unfold get_fold_errors.
  match goal with |- context [filter ?f _] => set (F := f) end.
  assert (filter F (map good ps) = map good ps) as ->.
  { clear. induction ps as [|p ps IH]; simpl; [reflexivity|]. rewrite IH. reflexivity. }
  destruct ps as [|p ps]; [congruence|]. cbn [map good].
  rewrite map_length, (Hk p) by (left; auto). f_equal. f_equal. simpl. f_equal.
  rewrite map_map. reflexivity.
Qed.

Lemma nth_map_Some m (l : list Q) : (m < length l)%nat -> nth m (map Some l) None = Some (nth m l 0%Q).
Proof.
  intros H. rewrite nth_indep with (d' := Some 0%Q) by (rewrite map_length; auto).
  apply (map_nth Some).
Qed.

Lemma all_valid (l : list Q) : valid_values (map Some l) = l.
Proof. induction l; simpl; congruence. Qed.

Lemma nat_q_pos n : (0 < n)%nat -> (0 < inject_Z (Z.of_nat n))%Q.
Proof. intros H. unfold Qlt; simpl. lia. Qed.

Lemma weighted_sum T N m ps : ~ (T == 0)%Q ->
  (qsum (map (fun p : nat * list Q => nth m (snd p) 0 * (inject_Z (Z.of_nat (fst p)) / T * N))%Q ps) * T
   == qsum (map (fun p => inject_Z (Z.of_nat (fst p)) * nth m (snd p) 0)%Q ps) * N)%Q.
Proof.
  intros HT. induction ps as [|p ps IH]; simpl; [ring|].
  rewrite Qmult_plus_distr_l, IH. field. exact HT.
Qed.

Lemma summarize_weighted es ps k : ps <> [] ->
  (forall p, In p ps -> length (snd p) = k) -> (0 < qsum (map (fun n => inject_Z (Z.of_nat n)) (map fst ps)))%Q ->
  exists summary, summarize es true (map good ps) = Some (map (fun p => map Some (snd p)) ps, summary) /\
    length summary = k /\
    forall m, (m < k)%nat -> exists v, nth m summary None = Some v /\
      is_weighted_mean v (map fst ps) (map (fun p => nth m (snd p) 0%Q) ps).
Proof.
  intros Hne Hk Hpos. unfold summarize. rewrite (good_errors es ps k Hne Hk).
  unfold fold_weights. rewrite lengths_good, map_length.
  assert (forallb (fun f => Nat.leb k (length f)) (map (fun p : nat * list Q => map (@Some Q) (snd p)) ps) = true) as ->.
  { apply forallb_forall. intros x Hx. apply in_map_iff in Hx. destruct Hx as [p [<- Hp]].
    rewrite map_length, (Hk p Hp). apply Nat.leb_refl. }
  eexists. split; [reflexivity|]. split; [rewrite map_length, seq_length; reflexivity|].
  intros m Hm. rewrite nth_map_seq by exact Hm.
  set (T := qsum (map (fun n => inject_Z (Z.of_nat n)) (map fst ps))) in *.
  set (N := inject_Z (Z.of_nat (length ps))).
  assert (Hc : map (fun p => scale (fst p) (nth m (snd p) None))
      (combine (map (fun x : Q => (x / T * N)%Q) (map (fun n => inject_Z (Z.of_nat n)) (map fst ps)))
               (map (fun p : nat * list Q => map Some (snd p)) ps))
    = map Some (map (fun p : nat * list Q => nth m (snd p) 0 * (inject_Z (Z.of_nat (fst p)) / T * N))%Q ps)).
  { clear Hpos Hne. clearbody T N. induction ps as [|p ps IH]; simpl; [reflexivity|].
    rewrite IH by (intros; apply Hk; right; auto). rewrite nth_map_Some by (rewrite (Hk p) by (left; auto); auto).
    reflexivity. }
  rewrite Hc. unfold nanmean. change non_nan with valid_values. rewrite all_valid.
  assert (HN : (0 < N)%Q). { unfold N. apply nat_q_pos. destruct ps; [congruence|simpl; lia]. }
  match goal with |- context [match ?l with [] => None | _ => _ end] => set (L := l) end.
  assert (HL : length L = length ps) by apply map_length.
  assert (exists v, (match L with [] => None | _ :: _ => Some (qsum L / inject_Z (Z.of_nat (length L)))%Q end) = Some v
     /\ (v == qsum L / N)%Q) as [v [Hv Hv']].
  { destruct L as [|a L']; [destruct ps; [congruence|discriminate]|].
    eexists; split; [reflexivity|]. rewrite HL. reflexivity. }
  exists v. split; [rewrite <- Hv; destruct L; reflexivity|]. unfold is_weighted_mean. fold T. rewrite Hv'.
  assert (HT : ~ (T == 0)%Q) by lra.
  pose proof (weighted_sum T N m ps HT) as HW. fold L in HW.
  assert ((qsum L / N * T == (qsum L * T) / N))%Q as -> by (field; lra).
  rewrite HW.
  assert (map (fun p : nat * Q => (inject_Z (Z.of_nat (fst p)) * snd p)%Q)
     (combine (map fst ps) (map (fun p : nat * list Q => nth m (snd p) 0%Q) ps))
    = map (fun p : nat * list Q => (inject_Z (Z.of_nat (fst p)) * nth m (snd p) 0)%Q) ps) as ->.
  { clear. induction ps as [|p ps IH]; simpl; congruence. }
  field. lra.
Qed.

(** * Data partitions *)
Lemma split_at {A} (data : list A) t :
  py_slice data None (Some t) ++ py_slice data (Some t) (Some (Z.of_nat (length data))) = data.
Proof.
  rewrite <- (py_slice_split data t) at 4. f_equal. unfold py_slice.
  rewrite (norm_idx_in _ (Z.of_nat (length data))) by lia. reflexivity.
Qed.

Lemma simple_partition {A} (data : list A) f tr te : ~ (f == 0)%Q ->
  simple_dp_split data (Some f) None None None = Some (tr, te) -> tr ++ te = data.
Proof.
  intros Hf. unfold simple_dp_split, truthyQ, truthyZ.
  destruct (Qeq_bool f 0) eqn:E; [apply Qeq_bool_eq in E; contradiction|].
  intros H; injection H as <- <-. apply split_at.
Qed.

Lemma simple_partition_size {A} (data : list A) z tr te :
  simple_dp_split data None None (Some z) None = Some (tr, te) -> tr ++ te = data.
Proof.
  unfold simple_dp_split, truthyQ, truthyZ. intros H; injection H as <- <-. apply split_at.
Qed.

Lemma frac_size_bounds n f : 0 <= n -> (0 <= f)%Q -> (f <= 1)%Q ->
  0 <= frac_size n f <= n /\ (inject_Z (frac_size n f) <= inject_Z n * f)%Q /\
  (inject_Z n * f < inject_Z (frac_size n f + 1))%Q.
Proof.
  intros Hn H0 H1. unfold frac_size, Qtrunc.
  assert (Hp : (0 <= inject_Z n * f)%Q).
  { apply Qmult_le_0_compat; [unfold Qle; simpl; lia|auto]. }
  rewrite (proj2 (Qle_bool_iff _ _) Hp).
  assert (Hle : (inject_Z n * f <= inject_Z n)%Q).
  { assert (0 <= inject_Z n)%Q by (unfold Qle; simpl; lia). nra. }
  split; [|split; [apply Qfloor_le|apply Qlt_floor]]. split.
  - change 0 with (Qfloor 0). apply Qfloor_resp_le; auto.
  - rewrite <- (Qfloor_Z n) at 2. apply Qfloor_resp_le; auto.
Qed.

Lemma simple_partition_len {A} (data : list A) f tr te : (0 < f)%Q -> (f <= 1)%Q ->
  simple_dp_split data (Some f) None None None = Some (tr, te) ->
  Z.of_nat (length tr) = frac_size (Z.of_nat (length data)) f.
Proof.
  intros H0 H1. unfold simple_dp_split, truthyQ, truthyZ.
  destruct (Qeq_bool f 0) eqn:E; [apply Qeq_bool_eq in E; lra|].
  intros H; injection H as <- <-.
  destruct (frac_size_bounds (Z.of_nat (length data)) f) as [Hb _]; [lia|lra|auto|].
  unfold py_slice. rewrite norm_idx_in by lia. rewrite firstn_length. simpl skipn. lia.
Qed.

(** Explicit test sizes: a prefix and the rows directly after it. *)
Lemma slices_adjacent {A} (data : list A) a b : 0 <= a -> a <= b ->
  py_slice data None (Some a) ++ py_slice data (Some a) (Some b) = py_slice data None (Some b).
Proof.
  intros Ha Hb. unfold py_slice. set (n := Z.of_nat (length data)).
  assert (Hn : 0 <= n) by lia.
  assert (norm_idx n a <= norm_idx n b) by (unfold norm_idx; destruct (Z.ltb_spec a 0), (Z.ltb_spec b 0); lia).
  pose proof (norm_idx_bounds n a Hn). pose proof (norm_idx_bounds n b Hn).
  set (x := norm_idx n a) in *. set (y := norm_idx n b) in *.
  rewrite !Z.sub_0_r. simpl skipn at 1. simpl skipn at 2.
  replace (Z.to_nat y) with (Z.to_nat x + Z.to_nat (y - x))%nat by lia.
  generalize (Z.to_nat x) (Z.to_nat (y - x)). clear. intros p q. revert data.
  induction p as [|p IH]; intros [|d data]; simpl; rewrite ?firstn_nil; auto. f_equal. apply IH.
Qed.

Lemma simple_partition_test_size {A} (data : list A) tf te_f ts te_s tr te :
  simple_dp_ctor tf te_f ts te_s = true ->
  (forall f, tf = Some f -> 0 < f /\ f <= 1)%Q -> (forall z, ts = Some z -> 0 < z) ->
  (forall f, te_f = Some f -> 0 < f /\ f <= 1)%Q -> (forall z, te_s = Some z -> 0 < z) ->
  simple_dp_split data tf te_f ts te_s = Some (tr, te) ->
  exists rest, tr ++ te ++ rest = data.
Proof.
  intros Hc Htf Hts Hef Hes. unfold simple_dp_split.
  set (n := Z.of_nat (length data)).
  assert (Hpref : forall a b, 0 <= a -> a <= b -> exists rest,
     py_slice data None (Some a) ++ py_slice data (Some a) (Some b) ++ rest = data).
  { intros a b Ha Hb. exists (py_slice data (Some b) None). rewrite app_assoc, slices_adjacent by auto.
    apply py_slice_split. }
  assert (Htr : exists t, match truthyQ tf with Some f => Some (frac_size n f) | None => ts end = Some t /\ 0 <= t).
  { unfold simple_dp_ctor in Hc. destruct tf as [f|], ts as [z|]; simpl in Hc; try discriminate.
    - destruct (Htf f eq_refl) as [Hf0 Hf1]. unfold truthyQ.
      destruct (Qeq_bool f 0) eqn:E; [apply Qeq_bool_eq in E; lra|].
      exists (frac_size n f). split; [reflexivity|]. apply frac_size_bounds; [lia|lra|auto].
    - exists z. split; [reflexivity|]. specialize (Hts z eq_refl). lia. }
  destruct Htr as [t [-> Ht]].
  destruct te_f as [f|]; [|destruct te_s as [z|]]; unfold truthyQ, truthyZ.
  - destruct (Hef f eq_refl) as [Hf0 Hf1].
    destruct (Qeq_bool f 0) eqn:E; [apply Qeq_bool_eq in E; lra|].
    destruct (frac_size_bounds n f ltac:(lia) ltac:(lra) Hf1) as [Hb _].
    intros H; injection H as <- <-. apply Hpref; lia.
  - specialize (Hes z eq_refl). destruct (Z.eqb_spec z 0); [lia|].
    intros H; injection H as <- <-. apply Hpref; lia.
  - intros H; injection H as <- <-. exists []. rewrite app_nil_r. apply split_at.
Qed.

Lemma simple_partition_zero {A} (data : list A) :
  simple_dp_ctor (Some 0%Q) None None None = true /\
  simple_dp_split data (Some 0%Q) None None None = Some (data, data).
Proof.
  split; [reflexivity|]. unfold simple_dp_split. change (truthyQ (Some 0%Q)) with (@None Q). cbn [truthyQ truthyZ]. cbv zeta iota.
  unfold py_slice. rewrite norm_idx_in by lia. rewrite Z.sub_0_r, Nat2Z.id.
  change (skipn (Z.to_nat 0) data) with data. rewrite firstn_all. reflexivity.
Qed.

(** Rolling origin partition. *)
Lemma rolling_dp_folds n ftr fte fwi steps const bs :
  0 <= n -> 2 <= steps -> rolling_dp_ctor ftr fte fwi steps = true ->
  rolling_dp_bounds n ftr fte fwi steps const = Some bs ->
  Z.of_nat (length bs) = steps /\
  exists offs, evenly_spread (n - frac_size n ftr - frac_size n fte - frac_size n fwi) offs /\ length offs = length bs /\
  forall i, (i < length bs)%nat ->
    let b := nth i bs ((0,0),(0,0)) in let o := nth i offs 0 in
    snd (fst b) = o + frac_size n ftr /\ fst (fst b) = (if const then o else 0) /\
    fst (snd b) = snd (fst b) + frac_size n fwi /\ snd (snd b) = fst (snd b) + frac_size n fte /\
    0 <= fst (fst b) /\ fst (fst b) <= snd (fst b) /\ snd (fst b) <= fst (snd b) /\
    fst (snd b) <= snd (snd b) /\ snd (snd b) <= n.
Proof.
  intros Hn Hs Hc. unfold rolling_dp_bounds.
  unfold rolling_dp_ctor in Hc. rewrite !Bool.andb_true_iff in Hc.
  destruct Hc as [[[[[[[H1 H2] H3] H4] H5] H6] H7] _].
  apply Qle_bool_iff in H1, H2, H3, H4, H5, H6, H7.
  destruct (frac_size_bounds n ftr Hn H1 H2) as [B1 [C1 _]].
  destruct (frac_size_bounds n fte Hn H3 H4) as [B2 [C2 _]].
  destruct (frac_size_bounds n fwi Hn H5 H6) as [B3 [C3 _]].
  assert (HL : 0 <= n - frac_size n ftr - frac_size n fte - frac_size n fwi).
  { assert (Hq : (inject_Z (frac_size n ftr + frac_size n fte + frac_size n fwi) <= inject_Z n)%Q).
    { rewrite !inject_Z_plus. assert (0 <= inject_Z n)%Q by (unfold Qle; simpl; lia). nra. }
    rewrite <- Zle_Qle in Hq. lia. }
  destruct (linspace_int _ steps) as [offs|] eqn:E; [|discriminate].
  intros H; injection H as <-.
  destruct (linspace_spread _ _ _ HL Hs E) as [Hlen Hsp].
  rewrite map_length. split; [exact Hlen|]. exists offs. split; [exact Hsp|]. split; [reflexivity|].
  intros i Hi. cbv zeta.
  match goal with |- context [map ?f offs] => set (F := f) end.
  rewrite nth_indep with (d' := F 0) by (rewrite map_length; auto).
  rewrite (map_nth F). pose proof (spread_bounds _ _ _ Hsp Hi) as Hb.
  set (o := nth i offs 0) in *. unfold F. cbn [fst snd].
  destruct const; repeat split; lia.
Qed.

Lemma rolling_dp_content {A} (data : list A) ftr fte fwi steps const folds :
  2 <= steps -> rolling_dp_ctor ftr fte fwi steps = true ->
  rolling_dp_split data ftr fte fwi steps const = Some folds ->
  Z.of_nat (length folds) = steps /\
  forall i, (i < length folds)%nat ->
    exists before gap after,
      data = before ++ fst (nth i folds ([], [])) ++ gap ++ snd (nth i folds ([], [])) ++ after /\
      Z.of_nat (length gap) = frac_size (Z.of_nat (length data)) fwi /\
      Z.of_nat (length (snd (nth i folds ([], [])))) = frac_size (Z.of_nat (length data)) fte /\
      (if const then Z.of_nat (length (fst (nth i folds ([], [])))) = frac_size (Z.of_nat (length data)) ftr
       else before = []).
Proof.
  intros Hs Hc. unfold rolling_dp_split. set (n := Z.of_nat (length data)).
  destruct (rolling_dp_bounds n ftr fte fwi steps const) as [bs|] eqn:E; [|discriminate].
  intros H; injection H as <-. rewrite map_length.
  destruct (rolling_dp_folds n ftr fte fwi steps const bs ltac:(lia) Hs Hc E) as [Hlen [offs [_ [_ Hb]]]].
  split; [exact Hlen|]. intros i Hi. specialize (Hb i Hi). cbv zeta in Hb.
  match goal with |- context [map ?f bs] => set (F := f) end.
  rewrite nth_indep with (d' := F ((0,0),(0,0))) by (rewrite map_length; auto).
  rewrite (map_nth F). destruct (nth i bs ((0,0),(0,0))) as [[a b] [c d]]. unfold F. cbn [fst snd] in *.
  destruct Hb as [H1 [H2 [H3 [H4 [H5 [H6 [H7 [H8 H9]]]]]]]].
  exists (py_slice data None (Some a)), (py_slice data (Some b) (Some c)), (py_slice data (Some d) None).
  split.
  - rewrite !app_assoc. rewrite !slices_adjacent by lia. rewrite py_slice_split. reflexivity.
  - rewrite !py_slice_length by (unfold n in *; lia). split; [lia|]. split; [lia|].
    destruct const; [lia|].
    rewrite H2. unfold py_slice. rewrite norm_idx_in by lia. reflexivity.
Qed.

(** Timestamp partition. *)
Lemma sorted_filter_lt {A} (data : list (Z * A)) v :
  Sorted.StronglySorted (fun a b => fst a <= fst b) data ->
  filter (fun r => v <=? fst r) data = skipn (length (filter (fun t => t <? v) (map fst data))) data.
Proof.
  induction 1 as [|x l Hl IH Hx]; [reflexivity|]. cbn [filter map].
  destruct (Z.leb_spec v (fst x)).
  - destruct (Z.ltb_spec (fst x) v); [lia|].
    assert (filter (fun t => t <? v) (map fst l) = []) as ->.
    { rewrite Forall_forall in Hx. clear - Hx H. induction l as [|y l IHl]; [reflexivity|]. cbn [map filter].
      pose proof (Hx y (or_introl eq_refl)). destruct (Z.ltb_spec (fst y) v); [lia|].
      apply IHl. intros z Hz. apply Hx. right; auto. }
    cbn [length skipn]. f_equal. rewrite Forall_forall in Hx. clear - Hx H. induction l as [|y l IHl]; [reflexivity|].
    cbn [filter]. pose proof (Hx y (or_introl eq_refl)). destruct (Z.leb_spec v (fst y)); [|lia].
    f_equal. apply IHl. intros z Hz. apply Hx. right; auto.
  - destruct (Z.ltb_spec (fst x) v); [|lia]. cbn [length skipn]. exact IH.
Qed.

Lemma sorted_filter_le {A} (data : list (Z * A)) v :
  Sorted.StronglySorted (fun a b => fst a <= fst b) data ->
  filter (fun r => fst r <=? v) data = firstn (length (filter (fun t => t <=? v) (map fst data))) data.
Proof.
  induction 1 as [|x l Hl IH Hx]; [reflexivity|]. cbn [filter map].
  destruct (Z.leb_spec (fst x) v); cbn [length firstn]; [rewrite IH; reflexivity|].
  assert (filter (fun t => t <=? v) (map fst l) = []) as ->.
  { rewrite Forall_forall in Hx. clear - Hx H. induction l as [|y l IHl]; [reflexivity|]. cbn [map filter].
    pose proof (Hx y (or_introl eq_refl)). destruct (Z.leb_spec (fst y) v); [lia|].
    apply IHl. intros z Hz. apply Hx. right; auto. }
  cbn [length firstn]. rewrite Forall_forall in Hx. clear - Hx H. induction l as [|y l IHl]; [reflexivity|].
  cbn [filter]. pose proof (Hx y (or_introl eq_refl)). destruct (Z.leb_spec (fst y) v); [lia|].
  apply IHl. intros z Hz. apply Hx. right; auto.
Qed.

Lemma filter_length_le' {B} (f : B -> bool) l : (length (filter f l) <= length l)%nat.
Proof. induction l as [|x l IH]; simpl; [lia|]. destruct (f x); simpl; lia. Qed.

Lemma filter_filter {B} (f g : B -> bool) l : filter f (filter g l) = filter (fun x => f x && g x) l.
Proof.
  induction l as [|x l IH]; simpl; [reflexivity|]. destruct (g x); simpl; [|rewrite andb_false_r; exact IH].
  rewrite andb_true_r. destruct (f x); rewrite IH; reflexivity.
Qed.

Lemma skipn_sorted {A} (data : list (Z * A)) k :
  Sorted.StronglySorted (fun a b => fst a <= fst b) data ->
  Sorted.StronglySorted (fun a b => fst a <= fst b) (skipn k data).
Proof.
  intros H. revert data H. induction k as [|k IH]; intros data H; [exact H|].
  destruct H; simpl; [constructor|]. apply IH; auto.
Qed.

Lemma timestamp_slice {A} (data : list (Z * A)) lo hi :
  Sorted.StronglySorted (fun a b => fst a <= fst b) data ->
  py_slice data (Some (searchsorted_left (map fst data) lo)) (Some (searchsorted_right (map fst data) hi))
  = filter (fun r => (lo <=? fst r) && (fst r <=? hi)) data.
Proof.
  intros Hs. unfold searchsorted_left, searchsorted_right, py_slice.
  pose proof (filter_length_le' (fun t => t <? lo) (map fst data)) as H1.
  pose proof (filter_length_le' (fun t => t <=? hi) (map fst data)) as H2.
  rewrite map_length in H1, H2. rewrite !norm_idx_in by lia. rewrite Nat2Z.id.
  set (p := length (filter (fun t => t <? lo) (map fst data))) in *.
  set (q := length (filter (fun t => t <=? hi) (map fst data))) in *.
  replace (Z.to_nat (Z.of_nat q - Z.of_nat p)) with (q - p)%nat by lia.
  rewrite <- filter_filter. rewrite (sorted_filter_le data hi Hs). fold q.
  (* filtering a sorted prefix *)
  assert (Hf : forall q, (q <= length data)%nat ->
     filter (fun r => lo <=? fst r) (firstn q data) = firstn (q - p) (skipn p data)).
  2:{ symmetry. apply Hf. exact H2. }
  unfold p. clear - Hs. induction Hs as [|x l Hl IH Hx]; intros q Hq; [cbn [map filter length skipn]; rewrite !firstn_nil; reflexivity|].
  destruct q as [|q]; [reflexivity|]. cbn [firstn filter map]. simpl in Hq.
  destruct (Z.leb_spec lo (fst x)).
  - destruct (Z.ltb_spec (fst x) lo); [lia|].
    assert (E : filter (fun t => t <? lo) (map fst l) = []).
    { rewrite Forall_forall in Hx. clear - Hx H. induction l as [|y l IHl]; [reflexivity|]. cbn [map filter].
      pose proof (Hx y (or_introl eq_refl)). destruct (Z.ltb_spec (fst y) lo); [lia|].
      apply IHl. intros z Hz. apply Hx. right; auto. }
    rewrite E in *. cbn [length skipn]. rewrite Nat.sub_0_r. cbn [firstn]. f_equal.
    rewrite IH by lia. cbn [length skipn]. rewrite Nat.sub_0_r. reflexivity.
  - destruct (Z.ltb_spec (fst x) lo); [|lia]. cbn [length skipn Nat.sub]. apply IH. lia.
Qed.

Definition in_window {A} (lo hi : option Z) (r : Z * A) : bool :=
  (match lo with Some t => t <=? fst r | None => true end) && (match hi with Some t => fst r <=? t | None => true end).

Lemma timestamp_slice_lo {A} (data : list (Z * A)) hi :
  Sorted.StronglySorted (fun a b => fst a <= fst b) data ->
  py_slice data (Some 0) (Some (searchsorted_right (map fst data) hi)) = filter (fun r => fst r <=? hi) data.
Proof.
  intros Hs. unfold searchsorted_right, py_slice.
  pose proof (filter_length_le' (fun t => t <=? hi) (map fst data)) as H2. rewrite map_length in H2.
  rewrite !norm_idx_in by lia. rewrite Z.sub_0_r, Nat2Z.id. simpl skipn. symmetry. apply sorted_filter_le; auto.
Qed.

Lemma timestamp_slice_hi {A} (data : list (Z * A)) lo :
  Sorted.StronglySorted (fun a b => fst a <= fst b) data ->
  py_slice data (Some (searchsorted_left (map fst data) lo)) (Some (Z.of_nat (length data))) = filter (fun r => lo <=? fst r) data.
Proof.
  intros Hs. unfold searchsorted_left, py_slice.
  pose proof (filter_length_le' (fun t => t <? lo) (map fst data)) as H2. rewrite map_length in H2.
  rewrite !norm_idx_in by lia. rewrite Nat2Z.id. rewrite sorted_filter_lt by auto.
  apply firstn_all2. rewrite skipn_length. lia.
Qed.

Lemma timestamp_split_spec {A} (data : list (Z * A)) tstart tend vstart vend :
  Sorted.StronglySorted (fun a b => fst a <= fst b) data ->
  timestamp_split data tstart tend vstart vend
  = (filter (in_window tstart (Some tend)) data, filter (in_window (Some vstart) vend) data).
Proof.
  intros Hs. unfold timestamp_split, in_window. f_equal.
  - destruct tstart as [t|]; [apply timestamp_slice; auto|]. apply timestamp_slice_lo; auto.
  - destruct vend as [t|]; [apply timestamp_slice; auto|]. rewrite timestamp_slice_hi by auto.
    apply filter_ext. intros r. rewrite andb_true_r. reflexivity.
Qed.

(** * From fold bounds to the rows used *)
Lemma create_models_nth forecast data off trs : forall tes rs,
  create_models forecast data off trs tes = Some rs -> length trs = length tes ->
  length rs = length trs /\
  forall i d, (i < length trs)%nat ->
    create_model forecast data off (nth i trs (0, 0)) (nth i tes (0, 0)) = Some (nth i rs d).
Proof.
  induction trs as [|tr trs IH]; intros [|te tes] rs H Hl; try discriminate Hl.
  - injection H as <-. split; [reflexivity|]. simpl; lia.
  - simpl in H. destruct (create_model forecast data off tr te) as [r|] eqn:Er; [|discriminate].
    destruct (create_models forecast data off trs tes) as [rs'|] eqn:E; [|discriminate].
    injection H as <-. injection Hl as Hl. destruct (IH tes rs' E Hl) as [I1 I2].
    split; [simpl; lia|]. intros [|i] d Hi; [exact Er|]. simpl. apply I2. simpl in Hi; lia.
Qed.

Lemma causal_rows forecast data off n_gap test_len tr te r :
  causal_fold (Z.of_nat (length data)) n_gap test_len tr te ->
  create_model forecast data off tr te = Some r ->
  exists before gap after,
    data = before ++ fr_train r ++ gap ++ fr_truth r ++ after /\
    Z.of_nat (length before) = fst tr /\ Z.of_nat (length gap) = n_gap /\
    Z.of_nat (length (fr_truth r)) = test_len /\ Z.of_nat (length (fr_train r)) = snd tr - fst tr.
Proof.
  intros [Ht [Hg [Hg0 [Hl [Hl0 Hn]]]]] H. apply create_model_spec in H.
  destruct H as [_ [_ [_ [_ [-> [-> _]]]]]]. destruct tr as [a b], te as [c d]. cbn [fst snd] in *.
  exists (py_slice data None (Some a)), (py_slice data (Some b) (Some c)), (py_slice data (Some d) None).
  split; [rewrite !app_assoc; rewrite !slices_adjacent by lia; rewrite py_slice_split; reflexivity|].
  rewrite !py_slice_length by lia. split; [|repeat split; lia].
  unfold py_slice. rewrite norm_idx_in by lia. rewrite firstn_length. simpl skipn. lia.
Qed.

Lemma wsum_weighted_mean m rs : (0 < total_length rs)%Q ->
  is_weighted_mean (wsum m (total_length rs) rs) (map (fun r => length (fr_truth r)) rs)
    (map (fun r => m (fr_truth r) (fr_pred r)) rs).
Proof.
  intros Hp. unfold is_weighted_mean. rewrite map_map. fold (total_length rs).
  set (T := total_length rs) in *. clearbody T. unfold wsum.
  induction rs as [|r rs IH]; simpl; [ring|].
  rewrite Qmult_plus_distr_l, IH. field. lra.
Qed.

Lemma first_run_mean forecast methods data off multi sp st :
  run_backtest forecast methods data off multi sp (bt_init (length methods)) = Some st ->
  bt_results st <> [] /\ length (bt_errors st) = length methods /\
  forall i, (i < length methods)%nat ->
    is_weighted_mean (nth i (bt_errors st) 0%Q) (map (fun r => length (fr_truth r)) (bt_results st))
      (map (fun r => nth i methods (fun _ _ => 0%Q) (fr_truth r) (fr_pred r)) (bt_results st)).
Proof.
  intros H. destruct (first_run _ _ _ _ _ _ _ H) as [rs [_ [-> [Hne [Hok [Hl He]]]]]].
  split; [exact Hne|]. split; [exact Hl|]. intros i Hi.
  pose proof (wsum_weighted_mean (nth i methods (fun _ _ => 0%Q)) rs (total_length_pos rs Hne Hok)) as HW.
  unfold is_weighted_mean in *. rewrite (He i Hi). exact HW.
Qed.

(** Rows of every fold of a rolling-origin backtest. *)
Lemma rolling_rows forecast data off a b steps const trs tes rs :
  rolling_splits (Z.of_nat (length data)) a b steps const = Some (trs, tes) ->
  create_models forecast data off trs tes = Some rs ->
  exists train test,
    is_percent_of (Z.of_nat (length data)) a train /\ is_percent_of (Z.of_nat (length data)) b test /\
    length rs = Z.to_nat steps /\
    forall r, In r rs -> exists before after,
      data = before ++ fr_train r ++ fr_truth r ++ after /\ fr_train r <> [] /\
      Z.of_nat (length (fr_truth r)) = test /\
      (if const then Z.of_nat (length (fr_train r)) = train else before = []).
Proof.
  intros Hs Hc. destruct (rolling_folds _ _ _ _ _ _ _ Hs) as [train [test [Ha [Hb [L1 [L2 Hf]]]]]].
  destruct (create_models_nth _ _ _ _ _ _ Hc ltac:(congruence)) as [Lr Hn].
  exists train, test. split; [exact Ha|]. split; [exact Hb|]. split; [congruence|].
  intros r Hr. destruct (In_nth _ _ r Hr) as [i [Hi Hri]].
  rewrite Lr in Hi. specialize (Hn i r Hi). rewrite Hri in Hn.
  rewrite L1 in Hi. destruct (Hf i Hi) as [Hcf [Hconst _]].
  destruct (causal_rows _ _ _ _ _ _ _ _ Hcf Hn) as [before [gap [after [E [Eb [Eg [Et Etr]]]]]]].
  assert (gap = []) as -> by (destruct gap; [reflexivity|simpl in Eg; lia]).
  exists before, after. simpl in E. split; [exact E|].
  split; [destruct Hcf as [Hcf _]; intros Hnil; rewrite Hnil in Etr; simpl in Etr; lia|].
  split; [exact Et|]. destruct const; [lia|].
  destruct before; [reflexivity|]. simpl in Eb. lia.
Qed.
