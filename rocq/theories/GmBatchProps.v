(** Theorems about the windows of a batch of the global model (C197). *)
From Coq Require Import List Bool Arith ZArith QArith Lia.
From Verif Require Import GmBatchModel.
Import ListNotations.
Open Scope nat_scope.

(** what GMParam checks *)
Definition valid_params (p : params) : Prop :=
  1 <= input_window p /\ 1 <= fcst_window p /\ 1 <= min_training_step_num p /\ 1 <= step_length p /\ 1 <= min_warming_up p
  /\ 1 <= validation_step_num p /\ 1 <= fcst_step_num p /\ 1 <= seasonality p.
(** evenly spaced numbers: n of them from a on *)
Definition spaced (a s n : nat) (l : list nat) : Prop := length l = n /\ forall k, k < n -> nth_error l k = Some (a + k * s).

Lemma arange_spaced a b s : 1 <= s -> spaced a s ((b - a + s - 1) / s) (arange a b s).
Proof.
  intros S. split; [unfold arange; rewrite map_length, seq_length; reflexivity|]. intros k K. unfold arange.
  rewrite (map_nth_error (fun k => a + k * s) k (seq 0 ((b - a + s - 1) / s)) (d := k)); [reflexivity|].
  rewrite (nth_error_nth' _ 0) by (rewrite seq_length; exact K). rewrite seq_nth by exact K. reflexivity.
Qed.
Lemma spaced_in a s n l i : spaced a s n l -> (In i l <-> exists k, k < n /\ i = a + k * s).
Proof.
  intros [Ln N]. split.
  - intros I. apply In_nth_error in I as (k & E). assert (K : k < n) by (rewrite <- Ln; apply nth_error_Some; congruence). exists k. split; [exact K|]. rewrite N in E by exact K. congruence.
  - intros (k & K & ->). apply (nth_error_In l k). apply N. exact K.
Qed.
Lemma ceil_mul q s : 1 <= s -> (q * s + s - 1) / s = q.
Proof. intros S. symmetry. apply (Nat.div_unique _ s q (s - 1)); lia. Qed.
Lemma ceil_succ q s : 1 <= s -> (q * s + 1 + s - 1) / s = q + 1.
Proof. intros S. symmetry. apply (Nat.div_unique _ s (q + 1) 0); lia. Qed.
Lemma ceil_bounds m s : 1 <= s -> m <= (m + s - 1) / s * s < m + s.
Proof. intros S. pose proof (Nat.div_mod (m + s - 1) s ltac:(lia)) as D. pose proof (Nat.mod_upper_bound (m + s - 1) s ltac:(lia)). nia. Qed.

(** C197.  In training the origins are evenly spaced, at least min_training_step_num + 1 of them; the input window before each
    of them and the values to be forecast after it lie in the training part, the last of them up to its end; the training part
    is not longer than the longest series, unless that is too short for the smallest number of steps. *)
Theorem C197_training : forall p lengths valid e r l, valid_params p -> 1 <= e -> r <= step_bound p (list_max lengths) e ->
  train_layout p lengths valid e r = Some l ->
  1 <= encoder_steps l /\ (s2s p = false -> encoder_steps l = 1)
  /\ (exists n, min_training_step_num p < n /\ spaced (input_window p) (step_length p) n (train_indices l))
  /\ (forall i, In i (train_indices l) -> input_window p <= i /\ i + fcst_window p * encoder_steps l <= reduced_length l)
  /\ (exists i, In i (train_indices l) /\ i + fcst_window p * encoder_steps l = reduced_length l)
  /\ (input_window p + min_training_step_num p * step_length p + fcst_window p * encoder_steps l <= list_max lengths -> reduced_length l <= list_max lengths).
Proof.
  intros p lengths valid e r l (W & F & T & S & _ & V & N & _) E1 R H. unfold train_layout in H. destruct (list_min lengths <? seasonality p); [discriminate|].
  assert (EN : 1 <= encoder p e) by (unfold encoder; destruct (s2s p); lia).
  set (red := basic_length p e + r * step_length p) in *.
  set (tr := arange (input_window p) (red - fcst_window p * encoder p e + 1) (step_length p)) in *.
  assert (RD : red - fcst_window p * encoder p e = input_window p + (min_training_step_num p + r) * step_length p) by (unfold red, basic_length, train_basic; lia).
  assert (SP : spaced (input_window p) (step_length p) (min_training_step_num p + r + 1) tr).
  { unfold tr. rewrite RD. pose proof (arange_spaced (input_window p) (input_window p + (min_training_step_num p + r) * step_length p + 1) (step_length p) S) as A.
    replace (input_window p + (min_training_step_num p + r) * step_length p + 1 - input_window p) with ((min_training_step_num p + r) * step_length p + 1) in A by lia. rewrite ceil_succ in A by exact S. exact A. }
  assert (L : encoder_steps l = encoder p e /\ train_indices l = tr /\ reduced_length l = red) by (destruct valid; injection H as <-; cbn; auto). destruct L as (-> & -> & ->).
  assert (RF : red = input_window p + (min_training_step_num p + r) * step_length p + fcst_window p * encoder p e) by (unfold red, basic_length, train_basic; lia).
  split; [exact EN|]. split; [intros X; unfold encoder; rewrite X; reflexivity|]. split; [exists (min_training_step_num p + r + 1); split; [lia|exact SP]|]. split; [|split].
  - intros i I. apply (spaced_in _ _ _ _ _ SP) in I as (k & K & ->). split; [lia|]. rewrite RF. apply Nat.add_le_mono_r, Nat.add_le_mono_l, Nat.mul_le_mono_r. lia.
  - exists (input_window p + (min_training_step_num p + r) * step_length p). split; [|lia]. apply (spaced_in _ _ _ _ _ SP). exists (min_training_step_num p + r). split; [lia|reflexivity].
  - intros B. unfold step_bound in R. assert (r * step_length p <= list_max lengths - basic_length p e).
    { etransitivity; [apply Nat.mul_le_mono_r; exact R|]. rewrite Nat.mul_comm. apply Nat.mul_div_le. lia. }
    unfold red, basic_length, train_basic in *. lia.
Qed.
(** The validation origins start where the training part ends, one forecast window apart, and the validation part holds what
    they forecast: for an rnn at most validation_step_num windows, and otherwise as many as the longest validation series
    reaches. *)
Theorem C197_validation : forall p lengths vl e r l, valid_params p -> train_layout p lengths (Some vl) e r = Some l ->
  exists n, spaced (reduced_length l) (fcst_window p) n (valid_indices l) /\ reduced_valid_length l = n * fcst_window p
  /\ (s2s p = true -> n = encoder_steps l)
  /\ (s2s p = false -> n <= validation_step_num p /\ (n < validation_step_num p -> list_max vl <= n * fcst_window p) /\ n * fcst_window p < list_max vl + fcst_window p).
Proof.
  intros p lengths vl e r l (W & F & T & S & _ & V & N & _) H. unfold train_layout in H. destruct (list_min lengths <? seasonality p); [discriminate|].
  set (red := basic_length p e + r * step_length p) in *. injection H as <-. cbn [reduced_length valid_indices reduced_valid_length encoder_steps].
  set (last := if s2s p then red + encoder p e * fcst_window p else red + Nat.min (list_max vl) (fcst_window p * validation_step_num p)).
  exists ((last - red + fcst_window p - 1) / fcst_window p). pose proof (arange_spaced red last (fcst_window p) F) as A. split; [exact A|]. split; [rewrite (proj1 A); reflexivity|].
  split; intros X; unfold last; rewrite X.
  - replace (red + encoder p e * fcst_window p - red) with (encoder p e * fcst_window p) by lia. apply ceil_mul. exact F.
  - replace (red + Nat.min (list_max vl) (fcst_window p * validation_step_num p) - red) with (Nat.min (list_max vl) (fcst_window p * validation_step_num p)) by lia.
    set (m := Nat.min (list_max vl) (fcst_window p * validation_step_num p)). pose proof (ceil_bounds m (fcst_window p) F) as [B1 B2]. set (c := (m + fcst_window p - 1) / fcst_window p) in *.
    split; [|split].
    + assert (c * fcst_window p < (validation_step_num p + 1) * fcst_window p) by lia. nia.
    + intros C. unfold m in *. destruct (Nat.min_spec (list_max vl) (fcst_window p * validation_step_num p)) as [[M1 M2]|[M1 M2]]; rewrite M2 in *; [exact B1|]. nia.
    + lia.
Qed.
(** In testing the origins are evenly spaced up to the end of the training part, from which the forecasts start; fewer than
    step_length values are dropped, at the beginning, and the forecasts reach fcst_step_num windows. *)
Theorem C197_testing : forall p lengths l, valid_params p -> test_layout p lengths = Some l ->
  (exists n, min_warming_up p <= n /\ spaced (input_window p) (step_length p) n (train_indices l) /\ reduced_length l = input_window p + n * step_length p)
  /\ spaced (reduced_length l) (fcst_window p) (fcst_step_num p) (valid_indices l) /\ reduced_valid_length l = fcst_step_num p * fcst_window p
  /\ (input_window p + min_warming_up p * step_length p <= list_max lengths -> reduced_length l <= list_max lengths < reduced_length l + step_length p).
Proof.
  intros p lengths l (W & F & T & S & U & V & N & _) H. unfold test_layout in H. destruct (list_min lengths <? seasonality p); [discriminate|]. injection H as <-.
  cbn [reduced_length valid_indices reduced_valid_length train_indices]. set (m := list_max lengths). set (b := input_window p + min_warming_up p * step_length p).
  set (red := Z.to_nat _).
  assert (RD : exists n, min_warming_up p <= n /\ red = input_window p + n * step_length p /\ (b <= m -> red <= m < red + step_length p)).
  { destruct (Nat.le_gt_cases b m) as [Bm|Bm].
    - unfold b in Bm. pose proof (Nat.div_mod (m - input_window p) (step_length p) ltac:(lia)) as D. pose proof (Nat.mod_upper_bound (m - input_window p) (step_length p) ltac:(lia)) as MB.
      set (n := (m - input_window p) / step_length p) in *. set (q := (m - input_window p) mod step_length p) in *. exists n.
      assert (min_warming_up p <= n) by (unfold n; apply Nat.div_le_lower_bound; lia).
      assert (R : red = input_window p + n * step_length p).
      { unfold red. replace (Z.of_nat m - Z.of_nat (input_window p))%Z with (Z.of_nat (m - input_window p)) by lia. rewrite <- Nat2Z.inj_mod. fold q. unfold b. nia. }
      split; [assumption|]. split; [exact R|]. intros _. rewrite R. lia.
    - exists (min_warming_up p). split; [lia|]. split; [|intros; lia]. unfold red. pose proof (Z.mod_pos_bound (Z.of_nat m - Z.of_nat (input_window p)) (Z.of_nat (step_length p)) ltac:(lia)). unfold b in *. lia. }
  destruct RD as (n & Wn & R & B). split; [|split; [|split]].
  - exists n. split; [exact Wn|]. split; [|exact R]. pose proof (arange_spaced (input_window p) red (step_length p) S) as A. rewrite R in A at 1. replace (input_window p + n * step_length p - input_window p) with (n * step_length p) in A by lia.
    rewrite ceil_mul in A by exact S. exact A.
  - pose proof (arange_spaced red (red + fcst_window p * fcst_step_num p) (fcst_window p) F) as A. replace (red + fcst_window p * fcst_step_num p - red) with (fcst_step_num p * fcst_window p) in A by lia. rewrite ceil_mul in A by exact F. exact A.
  - lia.
  - exact B.
Qed.
(** There are no windows if and only if a series of the batch is shorter than the season. *)
Theorem C197_short : forall p lengths valid e r, lengths <> [] ->
  (test_layout p lengths = None <-> exists n, In n lengths /\ n < seasonality p) /\ (train_layout p lengths valid e r = None <-> exists n, In n lengths /\ n < seasonality p).
Proof.
  intros p lengths valid e r NE. assert (M : list_min lengths < seasonality p <-> exists n, In n lengths /\ n < seasonality p).
  { destruct lengths as [|x t]; [congruence|]. clear NE. cbn [list_min]. induction t as [|y t IH]; cbn [fold_right].
    - split; [intros H; exists x; split; [left; reflexivity|exact H]|intros (n & [<-|[]] & H); exact H].
    - split.
      + intros H. apply Nat.min_lt_iff in H as [H|H]; [exists y; split; [right; left; reflexivity|exact H]|]. apply IH in H as (n & [<-|I] & H); [exists x; split; [left; reflexivity|exact H]|exists n; split; [right; right; exact I|exact H]].
      + intros (n & I & H). apply Nat.min_lt_iff. destruct I as [<-|[<-|I]]; [right; apply IH; exists x; split; [left; reflexivity|exact H]|left; exact H|right; apply IH; exists n; split; [right; exact I|exact H]]. }
  rewrite <- M. unfold test_layout, train_layout. destruct (Nat.ltb_spec (list_min lengths) (seasonality p)) as [H|H]; [tauto|]. split; (split; [destruct valid; discriminate|lia]).
Qed.
Definition demo : params := {| s2s := false; input_window := 5; fcst_window := 3; min_training_step_num := 2; step_length := 2; min_warming_up := 2; validation_step_num := 3; fcst_step_num := 2; seasonality := 2; ratio := 5 |}.
Example C197_case : valid_params demo /\ step_bound demo 17 1 = 2
  /\ train_layout demo [9; 17] (Some [4; 7]) 1 1 = Some {| reduced_length := 14; reduced_valid_length := 9; train_indices := [5; 7; 9; 11]; valid_indices := [14; 17; 20]; encoder_steps := 1 |}
  /\ test_layout demo [9; 18] = Some {| reduced_length := 17; reduced_valid_length := 6; train_indices := [5; 7; 9; 11; 13; 15]; valid_indices := [17; 20]; encoder_steps := 1 |}.
Proof. split; [unfold valid_params; cbn; lia|]. split; [reflexivity|split; reflexivity]. Qed.

Print Assumptions C197_training.
Print Assumptions C197_validation.
Print Assumptions C197_testing.
Print Assumptions C197_short.
