(** Least squares lines. *)
From Coq Require Import Reals Lra Lia List Arith Psatz.
From Verif Require Import PercChangeModel PercChangeSpec PercChangeProofs EmpIntervalModel EmpIntervalSpec.
Import ListNotations.
Open Scope R_scope.

Section Sums.
Context {A : Type}.
Implicit Types l : list A.
Definition S (f : A -> R) l := rsum (map f l).
Lemma S_add f g l : S (fun x => f x + g x) l = S f l + S g l.
Proof. unfold S. induction l as [|x l IH]; cbn; [lra|]. rewrite IH. lra. Qed.
Lemma S_scale c f l : S (fun x => c * f x) l = c * S f l.
Proof. unfold S. induction l as [|x l IH]; cbn; [lra|]. rewrite IH. lra. Qed.
Lemma S_const c l : S (fun _ => c) l = c * INR (length l).
Proof. unfold S. induction l as [|x l IH]; [cbn; lra|]. cbn [map rsum length]. rewrite IH, S_INR. lra. Qed.
Lemma S_ext f g l : (forall x, f x = g x) -> S f l = S g l.
Proof. intros H. unfold S. f_equal. apply map_ext, H. Qed.
Lemma S_ext_in f g l : (forall x, In x l -> f x = g x) -> S f l = S g l.
Proof. intros H. unfold S. f_equal. apply map_ext_in, H. Qed.
Lemma S_nonneg f l : (forall x, In x l -> 0 <= f x) -> 0 <= S f l.
Proof. unfold S. induction l as [|x l IH]; intros H; cbn; [lra|]. pose proof (H x (or_introl eq_refl)). assert (0 <= rsum (map f l)) by (apply IH; intros; apply H; right; assumption). lra. Qed.
Lemma S_zero f l : (forall x, In x l -> 0 <= f x) -> S f l = 0 -> forall x, In x l -> f x = 0.
Proof.
  unfold S. induction l as [|x l IH]; intros H E y Hy; [destruct Hy|]. cbn in E. pose proof (H x (or_introl eq_refl)). assert (P : 0 <= S f l) by (apply S_nonneg; intros; apply H; right; assumption). unfold S in P.
  destruct Hy as [<-|Hy]; [lra|]. apply IH; [intros; apply H; right; assumption|lra|exact Hy].
Qed.
End Sums.
Definition points (y : list R) := combine (map INR (seq 1 (length y))) y.
Lemma points_len y : length (points y) = length y.
Proof. unfold points. rewrite combine_length, map_length, seq_length. lia. Qed.
Lemma points_in y p : In p (points y) -> exists i, (i < length y)%nat /\ p = (INR (Datatypes.S i), nth i y 0).
Proof.
  intros H. apply (In_nth _ _ (0, 0)) in H as (i & Hi & E). rewrite points_len in Hi. exists i. split; [exact Hi|]. rewrite <- E. unfold points. rewrite combine_nth by (rewrite map_length, seq_length; reflexivity). f_equal.
  rewrite (nth_indep _ 0 (INR 0)) by (rewrite map_length, seq_length; exact Hi). rewrite map_nth, seq_nth by exact Hi. reflexivity.
Qed.
Lemma in_points y i : (i < length y)%nat -> In (INR (Datatypes.S i), nth i y 0) (points y).
Proof.
  intros Hi. assert (E : nth i (points y) (0, 0) = (INR (Datatypes.S i), nth i y 0)).
  { unfold points. rewrite combine_nth by (rewrite map_length, seq_length; reflexivity). f_equal. rewrite (nth_indep _ 0 (INR 0)) by (rewrite map_length, seq_length; exact Hi). rewrite map_nth, seq_nth by exact Hi. reflexivity. }
  rewrite <- E. apply nth_In. rewrite points_len. exact Hi.
Qed.
Lemma line_error_S a b k y : line_error a b (INR k) y = S (fun p => (snd p - (a * fst p + b)) ^ 2) (combine (map INR (seq k (length y))) y).
Proof.
  revert k. induction y as [|s y IH]; intros k; [reflexivity|]. cbn [length seq map combine line_error]. unfold S. cbn [map rsum fst snd]. rewrite <- S_INR, IH. reflexivity.
Qed.
Lemma line_error_points a b y : line_error a b 1 y = S (fun p => (snd p - (a * fst p + b)) ^ 2) (points y).
Proof. change 1 with (INR 1). rewrite line_error_S. reflexivity. Qed.
Lemma sums_x n : S (fun x => x) (map INR (seq 1 n)) = INR n * (INR n + 1) / 2 /\ S (fun x => x * x) (map INR (seq 1 n)) = INR n * (INR n + 1) * (2 * INR n + 1) / 6.
Proof.
  unfold S. induction n as [|n [IH1 IH2]]; [cbn; split; lra|]. rewrite seq_S, map_app, !map_app. assert (RA : forall l m, rsum (l ++ m) = rsum l + rsum m) by (induction l as [|x l IH]; intros m; cbn; [lra|rewrite IH; lra]).
  rewrite !RA, IH1, IH2. cbn [map rsum]. replace (1 + n)%nat with (Datatypes.S n) by lia. rewrite S_INR. split; field.
Qed.
Lemma points_fst {B} (f : R -> B) y : map (fun p => f (fst p)) (points y) = map f (map INR (seq 1 (length y))).
Proof.
  unfold points. generalize 1%nat. induction y as [|s y IH]; intros k; [reflexivity|]. cbn [length seq map combine fst]. f_equal. apply IH.
Qed.
Lemma points_snd y : map snd (points y) = y.
Proof. unfold points. generalize 1%nat. induction y as [|s y IH]; intros k; [reflexivity|]. cbn [length seq map combine snd]. f_equal. apply IH. Qed.
Lemma Sx y : S fst (points y) = len y * (len y + 1) / 2.
Proof. unfold S. rewrite (points_fst (fun x => x)). apply sums_x. Qed.
Lemma Sxx y : S (fun p => fst p * fst p) (points y) = len y * (len y + 1) * (2 * len y + 1) / 6.
Proof. unfold S. rewrite (points_fst (fun x => x * x)). apply sums_x. Qed.
Lemma det_pos y : (2 <= length y)%nat -> 0 < len y * S (fun p => fst p * fst p) (points y) - S fst (points y) * S fst (points y).
Proof.
  intros H. rewrite Sx, Sxx. assert (2 <= len y) by (unfold len; change 2 with (INR 2); apply le_INR, H). set (n := len y) in *.
  replace (n * (n * (n + 1) * (2 * n + 1) / 6) - n * (n + 1) / 2 * (n * (n + 1) / 2)) with (n * n * (n - 1) * (n + 1) / 12) by field.
  assert (0 < n * n) by nra. assert (0 < (n - 1) * (n + 1)) by nra. nra.
Qed.
Definition slope y := (len y * S (fun p => fst p * snd p) (points y) - S fst (points y) * S snd (points y)) / (len y * S (fun p => fst p * fst p) (points y) - S fst (points y) * S fst (points y)).
Definition icept y := (S snd (points y) - slope y * S fst (points y)) / len y.
Lemma emp_lr_eq y : (2 <= length y)%nat -> emp_lr y = Some (slope y, icept y).
Proof. intros H. destruct y as [|s [|t y]]; [cbn in H; lia|cbn in H; lia|]. reflexivity. Qed.
(** the normal equations *)
Lemma normal_eq y : (2 <= length y)%nat ->
  slope y * S fst (points y) + icept y * len y = S snd (points y) /\
  slope y * S (fun p => fst p * fst p) (points y) + icept y * S fst (points y) = S (fun p => fst p * snd p) (points y).
Proof.
  intros H. pose proof (det_pos y H) as D. assert (N : 0 < len y) by (unfold len; apply lt_0_INR; lia). unfold icept. split; [field; lra|]. unfold slope. set (xx := S (fun p => fst p * fst p) (points y)) in *. set (x := S fst (points y)) in *. field. split; lra.
Qed.
Lemma split_error y a b : (2 <= length y)%nat ->
  line_error a b 1 y = line_error (slope y) (icept y) 1 y + S (fun p => ((slope y - a) * fst p + (icept y - b)) ^ 2) (points y).
Proof.
  intros H. destruct (normal_eq y H) as [N1 N2]. rewrite !line_error_points. set (c0 := slope y) in *. set (c1 := icept y) in *.
  assert (R1 : S (fun p => snd p - (c0 * fst p + c1)) (points y) = 0).
  { rewrite (S_ext _ (fun p => snd p + ((-c0) * fst p + (-c1)))); [|intros; ring]. rewrite S_add, S_add, S_scale, S_const, points_len. fold (len y). lra. }
  assert (R2 : S (fun p => fst p * (snd p - (c0 * fst p + c1))) (points y) = 0).
  { rewrite (S_ext _ (fun p => fst p * snd p + ((-c0) * (fst p * fst p) + (-c1) * fst p))); [|intros; ring]. rewrite S_add, S_add, S_scale, S_scale. lra. }
  rewrite (S_ext (fun p => (snd p - (a * fst p + b)) ^ 2) (fun p => (snd p - (c0 * fst p + c1)) ^ 2 + (((c0 - a) * fst p + (c1 - b)) ^ 2 + (2 * (c0 - a) * (fst p * (snd p - (c0 * fst p + c1))) + 2 * (c1 - b) * (snd p - (c0 * fst p + c1)))))); [|intros; ring].
  rewrite S_add, S_add, S_add, S_scale, S_scale, R1, R2. lra.
Qed.
Lemma slope_min y : (2 <= length y)%nat -> least_squares y (slope y) (icept y).
Proof. intros H a b. rewrite (split_error y a b H). assert (0 <= S (fun p => ((slope y - a) * fst p + (icept y - b)) ^ 2) (points y)) by (apply S_nonneg; intros; apply pow2_ge_0). lra. Qed.
Lemma ls_unique y a b : (2 <= length y)%nat -> least_squares y a b -> a = slope y /\ b = icept y.
Proof.
  intros H L. specialize (L (slope y) (icept y)). rewrite (split_error y a b H) in L. assert (P : forall x, In x (points y) -> 0 <= ((slope y - a) * fst x + (icept y - b)) ^ 2) by (intros; apply pow2_ge_0).
  pose proof (S_nonneg (fun p => ((slope y - a) * fst p + (icept y - b)) ^ 2) (points y) P) as NN. assert (Z : S (fun p => ((slope y - a) * fst p + (icept y - b)) ^ 2) (points y) = 0) by lra.
  pose proof (S_zero _ _ P Z _ (in_points y 0 ltac:(lia))) as Z0. pose proof (S_zero _ _ P Z _ (in_points y 1 ltac:(lia))) as Z1. cbn [fst] in Z0, Z1. change (INR 1) with 1 in Z0. replace (INR 2) with 2 in Z1 by (cbn; lra).
  assert ((slope y - a) * 1 + (icept y - b) = 0) by nra. assert ((slope y - a) * 2 + (icept y - b) = 0) by nra. lra.
Qed.
(** standard errors growing with the horizon give a non-negative slope *)
Lemma slope_nonneg y : (2 <= length y)%nat -> nondecreasing y -> 0 <= slope y.
Proof.
  intros H M. pose proof (det_pos y H) as D. unfold slope. apply Rmult_le_pos; [|left; apply Rinv_0_lt_compat, D].
  set (P := points y). assert (LP : length P = length y) by apply points_len. assert (E : S (fun p => S (fun q => (fst p - fst q) * (snd p - snd q)) P) P = 2 * (len y * S (fun p => fst p * snd p) P - S fst P * S snd P)).
  { rewrite (S_ext _ (fun p => len y * (fst p * snd p) + ((- S snd P) * fst p + ((- S fst P) * snd p + S (fun q => fst q * snd q) P)))).
    - rewrite S_add, S_scale, S_add, S_scale, S_add, S_scale, S_const. rewrite LP. fold (len y). ring.
    - intros p. rewrite (S_ext _ (fun q => fst p * snd p + ((- fst p) * snd q + ((- snd p) * fst q + fst q * snd q)))); [|intros; ring]. rewrite S_add, S_const, S_add, S_scale, S_add, S_scale. rewrite LP. fold (len y). ring. }
  assert (0 <= S (fun p => S (fun q => (fst p - fst q) * (snd p - snd q)) P) P); [|lra].
  apply S_nonneg. intros p Hp. apply S_nonneg. intros q Hq. apply points_in in Hp as (i & Hi & ->). apply points_in in Hq as (j & Hj & ->). cbn [fst snd]. destruct (le_lt_dec i j) as [L|L].
  - assert (INR (Datatypes.S i) <= INR (Datatypes.S j)) by (apply le_INR; lia). pose proof (M i j ltac:(lia)). nra.
  - assert (INR (Datatypes.S j) <= INR (Datatypes.S i)) by (apply le_INR; lia). pose proof (M j i ltac:(lia)). nra.
Qed.
