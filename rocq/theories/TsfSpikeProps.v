(** C287, continued: spikiness. *)
From Coq Require Import Reals Lra.
From Coq Require Import List ZArith Bool Lia.
From Verif Require Import TsfAcfModel TsfShapeModel TsfAcfProps TsfShapeProps.
Import ListNotations.
Open Scope R_scope.

(** ** Specification *)
(** v is the variance of the entries of r other than entry i *)
Definition variance_without (r : list R) (i : nat) (v : R) : Prop :=
  exists m, m * (INR (length r) - 1) = sum r - nth i r 0 /\
    v * (INR (length r) - 1) = sum (map (fun x => (x - m) ^ 2) r) - (nth i r 0 - m) ^ 2.

Lemma without_sum (f : R -> R) : forall r i, (i < length r)%nat -> sum (map f (without i r)) = sum (map f r) - f (nth i r 0).
Proof.
  induction r as [|x r IH]; intros i H; cbn [length] in H; [lia |]. destruct i as [|i]; unfold without in *.
  - cbn [firstn skipn app map nth]. rewrite sum_cons. ring.
  - cbn [firstn skipn app map nth]. rewrite !sum_cons, IH by lia. ring.
Qed.
Lemma without_length (r : list R) i : (i < length r)%nat -> length (without i r) = (length r - 1)%nat.
Proof. intros H. unfold without. rewrite app_length, firstn_length, skipn_length. lia. Qed.
(** squares about any point *)
Lemma about c l : l <> [] -> sum (map (fun v => (v - c) ^ 2) l) = sum (map (fun v => (v - mean l) ^ 2) l) + INR (length l) * (mean l - c) ^ 2.
Proof.
  intros H. assert (G : forall m l, sum (map (fun v => (v - c) ^ 2) l) = sum (map (fun v => (v - m) ^ 2) l) + 2 * (m - c) * (sum l - m * INR (length l)) + INR (length l) * (m - c) ^ 2).
  { clear. intros m l. induction l as [|x l IH]; [cbn; ring |]. cbn [map length]. rewrite !sum_cons, IH, S_INR. ring. }
  rewrite (G (mean l) l), <- (mean_spec l H). ring.
Qed.
Lemma variance_other r i : (2 <= length r)%nat -> (i < length r)%nat ->
  var (without i r) = INR (length r) / (INR (length r) - 1) * var r - INR (length r) / (INR (length r) - 1) ^ 2 * (nth i r 0 - mean r) ^ 2.
Proof.
  intros L H. set (w := without i r). assert (LW : INR (length w) = INR (length r) - 1) by (unfold w; rewrite without_length, minus_INR by lia; reflexivity).
  assert (P : 1 < INR (length r)) by (apply (lt_INR 1); lia).
  assert (NW : w <> []) by (intros E; rewrite E in LW; cbn in LW; lra). assert (NR : r <> []) by (destruct r; [cbn in L; lia | discriminate]).
  pose proof (about (mean r) w NW) as A. unfold w at 1 in A. rewrite (without_sum (fun v => (v - mean r) ^ 2) r i H), <- !var_sum in A.
  pose proof (mean_spec w NW) as M. rewrite <- (map_id w) in M at 3. unfold w at 3 in M. rewrite (without_sum (fun v => v) r i H), map_id, <- (mean_spec r NR), LW in M. rewrite LW in A.
  assert (D : mean w - mean r = - (nth i r 0 - mean r) / (INR (length r) - 1)).
  { apply Rmult_eq_reg_r with (INR (length r) - 1); [| lra]. unfold Rdiv. rewrite Rmult_assoc, Rinv_l by lra. lra. }
  rewrite D in A. set (N := INR (length r)) in *. apply Rmult_eq_reg_r with (N - 1); [| lra].
  assert (E : var w * (N - 1) = var r * N - (nth i r 0 - mean r) ^ 2 - (N - 1) * (- (nth i r 0 - mean r) / (N - 1)) ^ 2) by lra. rewrite E. field. lra.
Qed.
Lemma var_affine a b l : var (affine a b l) = a ^ 2 * var l.
Proof.
  destruct l as [|x l]; [unfold var, mean; cbn; unfold Rdiv; ring |]. rewrite !var_acov. apply affine_acov.
Qed.

(** ** Theorems *)
(** spikiness is the variance of the variances of the residuals with one left out *)
Theorem C287_spikiness : forall r, (2 <= length r)%nat -> exists vs, length vs = length r /\ (forall i, (i < length r)%nat -> variance_without r i (nth i vs 0)) /\
  exists s, spread vs s /\ spikiness r * INR (length r) = s.
Proof.
  intros r L. set (vs := map (fun i => var (without i r)) (seq 0 (length r))). assert (LV : length vs = length r) by (unfold vs; rewrite map_length, seq_length; reflexivity).
  assert (NV : vs <> []) by (destruct vs; [cbn in LV; lia | discriminate]). assert (NR : r <> []) by (destruct r; [cbn in L; lia | discriminate]).
  exists vs. split; [exact LV |]. split.
  - intros i H. assert (E : nth i vs 0 = var (without i r)) by (unfold vs; rewrite (nth_indep _ 0 (var (without 0 r))) by (rewrite map_length, seq_length; exact H); rewrite (map_nth (fun i => var (without i r)) (seq 0 (length r)) 0%nat i), seq_nth by exact H; reflexivity).
    rewrite E. exists (mean (without i r)). assert (LW : INR (length (without i r)) = INR (length r) - 1) by (rewrite without_length, minus_INR by lia; reflexivity).
    assert (NW : without i r <> []) by (intros X; rewrite X in LW; cbn in LW; assert (1 < INR (length r)) by (apply (lt_INR 1); lia); lra).
    rewrite <- LW. split; [rewrite (mean_spec _ NW); pose proof (without_sum (fun v => v) r i H) as X; rewrite !map_id in X; exact X |].
    rewrite var_sum. apply (without_sum (fun v => (v - mean (without i r)) ^ 2)). exact H.
  - exists (sum (map (fun v => (v - mean vs) ^ 2) vs)). split; [exists (mean vs); split; [unfold average; apply mean_spec; exact NV | reflexivity] |].
    unfold spikiness. fold vs. rewrite <- LV. apply var_sum.
Qed.
Lemma spikiness_squares r : (2 <= length r)%nat ->
  spikiness r = (INR (length r) / (INR (length r) - 1) ^ 2) ^ 2 * var (map (fun v => (v - mean r) ^ 2) r).
Proof.
  intros L. unfold spikiness. set (N := INR (length r)).
  assert (E : map (fun i => var (without i r)) (seq 0 (length r)) = affine (- (N / (N - 1) ^ 2)) (N / (N - 1) * var r) (map (fun v => (v - mean r) ^ 2) r)).
  { unfold affine. rewrite map_map. assert (G : map (fun v => - (N / (N - 1) ^ 2) * (v - mean r) ^ 2 + N / (N - 1) * var r) r = map (fun i => - (N / (N - 1) ^ 2) * (nth i r 0 - mean r) ^ 2 + N / (N - 1) * var r) (seq 0 (length r))).
    { generalize (mean r) as m, (var r) as v0. clearbody N. clear. intros m v0. induction r as [|x r IH]; [reflexivity |]. cbn [length seq map nth]. rewrite <- seq_shift, map_map. f_equal. exact IH. }
    rewrite G. apply map_ext_in. intros i I. apply in_seq in I. rewrite variance_other by lia. fold N. ring. }
  rewrite E, var_affine. ring.
Qed.
(** it is 0 exactly when all residuals lie at the same distance from their mean, it does not depend on their level and grows with the fourth power of their unit *)
Theorem C287_spikiness_zero : forall r m, (2 <= length r)%nat -> average r m ->
  0 <= spikiness r /\ (spikiness r = 0 <-> forall x y, In x r -> In y r -> Rabs (x - m) = Rabs (y - m)).
Proof.
  intros r m L A. assert (NR : r <> []) by (destruct r; [cbn in L; lia | discriminate]). rewrite (average_mean r m NR A) in *. clear A m. split; [apply var_nonneg |].
  rewrite (spikiness_squares r L). assert (P : 1 < INR (length r)) by (apply (lt_INR 1); lia). set (N := INR (length r)) in *. set (q := map (fun v => (v - mean r) ^ 2) r).
  assert (Q0 : q <> []) by (unfold q; destruct r; [congruence | discriminate]). assert (K : (N / (N - 1) ^ 2) ^ 2 <> 0) by (apply pow_nonzero; unfold Rdiv; apply Rmult_integral_contrapositive_currified; [lra | apply Rinv_neq_0_compat, pow_nonzero; lra]).
  assert (B : forall a b, a ^ 2 = b ^ 2 <-> Rabs a = Rabs b).
  { intros a b. rewrite <- (pow2_abs a), <- (pow2_abs b). pose proof (Rabs_pos a). pose proof (Rabs_pos b). split; [intros E; apply Rsqr_inj; [assumption | assumption | unfold Rsqr; cbn in E; lra] | congruence]. }
  split.
  - intros E. apply Rmult_integral in E. destruct E as [E|E]; [contradiction |]. apply (var_zero q Q0) in E. intros x y X Y. apply B.
    destruct (In_nth r x 0 X) as (i & Hi & <-). destruct (In_nth r y 0 Y) as (j & Hj & <-). assert (LQ : length q = length r) by apply map_length. specialize (E i j ltac:(lia) ltac:(lia)).
    unfold q in E. rewrite (nth_indep _ 0 ((0 - mean r) ^ 2)) in E by (rewrite map_length; exact Hi). rewrite (nth_indep (map _ r) 0 ((0 - mean r) ^ 2)) in E by (rewrite map_length; exact Hj).
    rewrite !(map_nth (fun v => (v - mean r) ^ 2)) in E. exact E.
  - intros H. replace (var q) with 0; [ring |]. symmetry. apply (var_zero q Q0). intros i j Hi Hj. assert (LQ : length q = length r) by apply map_length. rewrite LQ in Hi, Hj. unfold q.
    rewrite (nth_indep _ 0 ((0 - mean r) ^ 2)) by (rewrite map_length; exact Hi). rewrite (nth_indep (map _ r) 0 ((0 - mean r) ^ 2)) by (rewrite map_length; exact Hj). rewrite !(map_nth (fun v => (v - mean r) ^ 2)).
    apply B, H; apply nth_In; assumption.
Qed.
Theorem C287_spikiness_units : forall r a b, (2 <= length r)%nat -> spikiness (map (fun v => a * v + b) r) = a ^ 4 * spikiness r.
Proof.
  intros r a b L. change (map (fun v => a * v + b) r) with (affine a b r). assert (NR : r <> []) by (destruct r; [cbn in L; lia | discriminate]).
  rewrite !spikiness_squares by (rewrite ?affine_length; exact L). rewrite affine_length, (affine_mean a b r NR).
  assert (E : map (fun v => (v - (a * mean r + b)) ^ 2) (affine a b r) = affine (a ^ 2) 0 (map (fun v => (v - mean r) ^ 2) r)) by (unfold affine; rewrite !map_map; apply map_ext; intros; ring).
  rewrite E, var_affine. ring.
Qed.
(** residuals -1, 1, -1, 1 have no spikes; 0, 0, 0, 4 do *)
Example C287_spikiness_case : spikiness [-1; 1; -1; 1] = 0 /\ 0 < spikiness [0; 0; 0; 4].
Proof.
  split.
  - apply (proj2 (C287_spikiness_zero [-1; 1; -1; 1] 0 ltac:(cbn; lia) ltac:(unfold average; cbn; lra))). intros x y X Y. cbn in X, Y.
    assert (G : forall z, -1 = z \/ 1 = z \/ -1 = z \/ 1 = z \/ False -> Rabs (z - 0) = 1) by (intros z [<-|[<-|[<-|[<-|[]]]]]; unfold Rabs; destruct (Rcase_abs _); lra). rewrite (G x X), (G y Y). reflexivity.
  - destruct (C287_spikiness_zero [0; 0; 0; 4] 1 ltac:(cbn; lia) ltac:(unfold average; cbn; lra)) as [P Z]. destruct (Rle_lt_or_eq_dec _ _ P) as [G|G]; [exact G |]. exfalso.
    symmetry in G. pose proof (proj1 Z G 0 4 ltac:(left; reflexivity) ltac:(cbn; tauto)) as E. unfold Rabs in E. destruct (Rcase_abs _), (Rcase_abs _); lra.
Qed.

Print Assumptions C287_spikiness.
Print Assumptions C287_spikiness_zero.
Print Assumptions C287_spikiness_units.
