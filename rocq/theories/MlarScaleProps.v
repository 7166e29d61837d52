(** C190: forecasts of the autoregressive model follow the scale and level of each series. *)
From Coq Require Import List Reals Lra Lia Bool Arith.
From Verif Require Import MlarModel MlarProps.
Import ListNotations.
Open Scope nat_scope.

Definition affine (a b : R) (c : cell) : cell := option_map (fun x => (a * x + b)%R) c.
Lemma present_map f : forall l, present (map (option_map f) l) = map f (present l).
Proof. induction l as [|[x|] l IH]; cbn; [reflexivity| |exact IH]. f_equal. exact IH. Qed.
Lemma rsum_affine a b : forall v, rsum (map (fun x => (a * x + b)%R) v) = (a * rsum v + INR (length v) * b)%R.
Proof. induction v as [|x v IH]; [cbn; lra|]. unfold rsum in *. cbn [map fold_right length]. rewrite IH, S_INR. lra. Qed.
Lemma INR_pos n : 0 < n -> (0 < INR n)%R.
Proof. intros H. apply lt_0_INR. exact H. Qed.
Lemma smean_affine a b l : smean (map (affine a b) l) = affine a b (smean l).
Proof.
  unfold smean, affine. rewrite present_map. destruct (present l) as [|x v]; [reflexivity|].
  pose proof (rsum_affine a b (x :: v)) as H. cbn [map] in *. rewrite H. cbn [option_map]. f_equal. cbn [length]. rewrite map_length.
  set (r := rsum (x :: v)). clearbody r. pose proof (INR_pos (S (length v)) ltac:(lia)). field. lra.
Qed.
Section Positive.
Variable a b : R.
Hypothesis pos : (0 < a)%R.
Notation f := (fun x => (a * x + b)%R).
Lemma f_le x y : (f x <= f y <-> x <= y)%R.
Proof. split; intros H; nra. Qed.
Lemma max_f x y : Rmax (f x) (f y) = f (Rmax x y).
Proof. unfold Rmax. destruct (Rle_dec (f x) (f y)) as [H|H], (Rle_dec x y) as [K|K]; try reflexivity; rewrite f_le in H; contradiction. Qed.
Lemma smax_affine l : smax (map (affine a b) l) = affine a b (smax l).
Proof.
  unfold smax, affine. rewrite present_map. destruct (present l) as [|x v]; [reflexivity|]. cbn. f_equal. revert x. induction v as [|y v IH]; intros x; [reflexivity|].
  cbn. rewrite max_f. apply IH.
Qed.
Lemma insert_f x : forall l, insert (f x) (map f l) = map f (insert x l).
Proof.
  induction l as [|y l IH]; [reflexivity|]. cbn [insert map]. destruct (Rle_dec (f x) (f y)) as [H|H], (Rle_dec x y) as [K|K]; try (rewrite f_le in H; contradiction); [reflexivity|].
  cbn [map]. f_equal. exact IH.
Qed.
Lemma sort_f : forall l, sort (map f l) = map f (sort l).
Proof. induction l as [|x l IH]; [reflexivity|]. unfold sort in *. cbn [fold_right map]. rewrite IH. apply insert_f. Qed.
Lemma insert_length x : forall l, length (insert x l) = S (length l).
Proof. induction l as [|y l IH]; [reflexivity|]. cbn [insert]. destruct (Rle_dec x y); [reflexivity|]. cbn. rewrite IH. reflexivity. Qed.
Lemma sort_length : forall l, length (sort l) = length l.
Proof. induction l as [|x l IH]; [reflexivity|]. unfold sort in *. cbn [fold_right]. rewrite insert_length. cbn. rewrite IH. reflexivity. Qed.
Lemma smedian_affine l : smedian (map (affine a b) l) = affine a b (smedian l).
Proof.
  unfold smedian, affine. rewrite present_map. destruct (present l) as [|x v]; [reflexivity|].
  change (map f (x :: v)) with (f x :: map f v). cbv iota. change (f x :: map f v) with (map f (x :: v)).
  set (w := x :: v). assert (LW : 0 < length w) by (cbn; lia). clearbody w. cbn [option_map]. f_equal. cbv zeta. rewrite sort_f, map_length.
  assert (N : forall i, i < length w -> nth i (map f (sort w)) 0%R = (a * nth i (sort w) 0 + b)%R) by (intros i I; rewrite (nth_map_in f _ _ _ 0%R) by (rewrite sort_length; exact I); reflexivity).
  assert (H2 : length w / 2 < length w) by (apply Nat.div_lt; lia).
  destruct (Nat.even (length w)); rewrite ?N by lia; [field|reflexivity].
Qed.
Lemma sstd_affine l : sstd (map (affine a b) l) = affine a 0 (sstd l).
Proof.
  unfold sstd, affine. rewrite present_map. destruct (present l) as [|x [|y v]]; [reflexivity|reflexivity|].
  change (map f (x :: y :: v)) with (f x :: f y :: map f v). cbv iota. change (f x :: f y :: map f v) with (map f (x :: y :: v)).
  set (w := x :: y :: v). assert (LW : 1 < length w) by (cbn; lia). clearbody w. cbn [option_map]. f_equal. cbv zeta.
  rewrite rsum_affine, map_length, map_map. assert (P1 : (0 < INR (length w))%R) by (apply INR_pos; lia). assert (P2 : (0 < INR (length w - 1))%R) by (apply INR_pos; lia).
  set (m := (rsum w / INR (length w))%R). replace ((a * rsum w + INR (length w) * b) / INR (length w))%R with (a * m + b)%R by (unfold m; field; lra).
  rewrite (map_ext _ (fun z => (a * a * ((z - m) * (z - m)) + 0)%R)) by (intros z; ring).
  rewrite <- (map_map (fun z => ((z - m) * (z - m))%R) (fun q => (a * a * q + 0)%R)), rsum_affine.
  set (q := rsum (map (fun z => ((z - m) * (z - m))%R) w)).
  assert (Q : (0 <= q)%R). { unfold q. clearbody m. clear. induction w as [|z w IH]; cbn; [lra|]. unfold rsum in IH. pose proof (Rle_0_sqr (z - m)). unfold Rsqr in *. lra. }
  replace ((a * a * q + INR (length (map (fun z => ((z - m) * (z - m))%R) w)) * 0) / INR (length w - 1))%R with ((a * a) * (q / INR (length w - 1)))%R by (field; lra).
  rewrite sqrt_mult_alt by nra. rewrite sqrt_square by lra. lra.
Qed.
End Positive.

(** The changes of scale and level a normalisation undoes: division, of scale; subtraction, of level; z-score, both. *)
Definition undone (p : params) (a b : R) : Prop :=
  (0 < a)%R /\
  match stat p, how p with
  | ZScore, _ => True
  | _, Div => b = 0%R
  | Std, _ => False
  | _, Sub => a = 1%R
  | _, SubDiv => False
  end.
Lemma last_cols_map {A B} (g : A -> B) k l : last_cols k (map g l) = map g (last_cols k l).
Proof. unfold last_cols. destruct (k =? 0); [reflexivity|]. rewrite map_length. apply skipn_map. Qed.
Lemma norm_same p a b lags c : undone p a b -> use_default_min p = false ->
  norm_cell p (map (affine a b) lags) (affine a b c) = norm_cell p lags c.
Proof.
  intros [P U] D. unfold norm_cell, normalizers, method_of. rewrite D, last_cols_map. set (w := last_cols (norm_window p) lags).
  pose proof (smean_affine a b w) as M1. pose proof (smedian_affine a b P w) as M2. pose proof (smax_affine a b P w) as M3. pose proof (sstd_affine a b P w) as M4.
  destruct (stat p); cbn [fst snd]; rewrite ?M1, ?M2, ?M3, ?M4; clear M1 M2 M3 M4.
  1-4: destruct (how p); try contradiction; subst; cbn.
  all: repeat match goal with |- context [affine _ _ ?z] => destruct z as [?|]; cbn; [|try reflexivity; try (destruct c; reflexivity)] end; try reflexivity.
  all: try (f_equal; lra).
  all: match goal with |- context [Req_EM_T (?k * ?z + 0) 0] => destruct (Req_EM_T (k * z + 0) 0) as [E|E], (Req_EM_T z 0) as [E'|E']; try reflexivity; [exfalso; nra|exfalso; nra|] end.
  all: f_equal; field; split; lra.
Qed.
Lemma denorm_affine p a b lags y : undone p a b -> use_default_min p = false ->
  let n := normalizers (stat p) (norm_window p) lags in let n' := normalizers (stat p) (norm_window p) (map (affine a b) lags) in
  denormalize false (default_min p) (method_of p) (Some y) (fst n') (snd n') =
  affine a b (denormalize false (default_min p) (method_of p) (Some y) (fst n) (snd n)).
Proof.
  intros [P U] D. cbv zeta. unfold normalizers, method_of. rewrite last_cols_map. set (w := last_cols (norm_window p) lags).
  pose proof (smean_affine a b w) as M1. pose proof (smedian_affine a b P w) as M2. pose proof (smax_affine a b P w) as M3. pose proof (sstd_affine a b P w) as M4.
  destruct (stat p); cbn [fst snd]; rewrite ?M1, ?M2, ?M3, ?M4; clear M1 M2 M3 M4;
    destruct (smean w) as [m1|], (smedian w) as [m2|], (smax w) as [m3|], (sstd w) as [m4|].
  all: try (destruct (how p); try contradiction; try subst b; try subst a).
  all: cbn; try reflexivity; f_equal; lra.
Qed.
Lemma drop_none_map g : g None = None -> (forall x, exists y, g (Some x) = Some y) -> forall l, drop_none (map g l) = map g (drop_none l).
Proof. intros G0 G1. induction l as [|[x|] l IH]; cbn; [reflexivity| |rewrite G0; exact IH]. destruct (G1 x) as [y ->]. reflexivity. Qed.
Lemma trim_map g : g None = None -> (forall x, exists y, g (Some x) = Some y) -> forall l, trim (map g l) = map g (trim l).
Proof.
  intros G0 G1 l. unfold trim. rewrite <- map_rev, drop_none_map, <- map_rev by assumption. destruct (rev (drop_none (rev l))); reflexivity.
Qed.
Lemma repeat_map {A B} (g : A -> B) x n : map g (repeat x n) = repeat (g x) n.
Proof. induction n; cbn; [reflexivity|]. f_equal. assumption. Qed.
Lemma window_map (g : cell -> cell) k l : g None = None -> window k (map g l) = map g (window k l).
Proof. intros G0. unfold window. rewrite map_app, repeat_map, G0, map_length, skipn_map. reflexivity. Qed.
Lemma embed_map (g : cell -> cell) l w hz m : g None = None -> embed (map g l) w hz m = option_map (map (map g)) (embed l w hz m).
Proof.
  intros G0. unfold embed. rewrite map_length. destruct (S (length l) <? m); [reflexivity|]. cbn [option_map]. f_equal. rewrite map_map. apply map_ext. intros j.
  unfold pad. rewrite map_app, repeat_map, G0, skipn_map, firstn_map, map_length. reflexivity.
Qed.
Lemma normal_row_same p a b r : undone p a b -> use_default_min p = false ->
  fst (normal_row p (map (affine a b) r)) = fst (normal_row p r).
Proof.
  intros U D. unfold normal_row. cbn [fst]. rewrite firstn_map, skipn_map, !map_map.
  f_equal; apply map_ext; intros c; exact (norm_same p a b (firstn (input_window p) r) c U D).
Qed.
Lemma combine_map_r {A B C} (g : B -> C) : forall (l : list A) (r : list B), combine l (map g r) = map (fun q => (fst q, g (snd q))) (combine l r).
Proof. induction l as [|x l IH]; intros [|y r]; cbn; [reflexivity|reflexivity|reflexivity|]. f_equal. apply IH. Qed.
Lemma flat_map_map {A B C} (f : B -> list C) (g : A -> B) : forall l, flat_map f (map g l) = flat_map (fun x => f (g x)) l.
Proof. induction l as [|x l IH]; cbn; [reflexivity|]. rewrite IH. reflexivity. Qed.
Section Follow.
Variable p : params.
Variable g : cell -> cell.
Variables a b : R.
Hypothesis U : undone p a b.
Hypothesis D : use_default_min p = false.
Hypothesis G0 : g None = None.
Hypothesis G1 : forall x, exists y, g (Some x) = Some y.
Hypothesis T : forall l, transform p (map g l) = map (affine a b) (transform p l).
Variable other : nat -> nat -> nat -> list cell.
Lemma pairs_same s series : pairs other p s (map g series) = pairs other p s series.
Proof.
  unfold pairs. rewrite (trim_map g G0 G1), T, embed_map by reflexivity.
  destruct (embed (transform p (trim series)) (input_window p) (max_horizon p) (max_lags p)) as [rows|]; [|reflexivity]. cbn [option_map]. f_equal. apply flat_map_ext. intros h.
  rewrite map_length, combine_map_r, flat_map_map. apply flat_map_ext. intros [j r]. cbn [fst snd].
  pose proof (normal_row_same p a b r U D) as E. destruct (normal_row p (map (affine a b) r)) as [[x y] z], (normal_row p r) as [[x' y'] z']. cbn in E. injection E as -> ->. reflexivity.
Qed.
Lemma forecast_follows predictor s series h :
  (forall y, (if log_data p then lift1 exp (affine a b y) else affine a b y) = g (if log_data p then lift1 exp y else y)) ->
  forecast_at other p predictor s (map g series) h = g (forecast_at other p predictor s series h).
Proof.
  intros B. unfold forecast_at. rewrite (trim_map g G0 G1), (window_map g _ _ G0), T, embed_map by reflexivity.
  destruct (embed (transform p (window (max_lags p) (trim series))) (input_window p) (max_horizon p) (max_lags p)) as [[|r [|r' rows]]|]; cbn [option_map map]; try (symmetry; exact G0).
  pose proof (normal_row_same p a b r U D) as E. pose proof (denorm_affine p a b (firstn (input_window p) r)) as N.
  unfold normal_row in *. cbn [fst] in E. rewrite firstn_map in *. injection E as E1 E2. rewrite E1, map_length, D. rewrite (N _ U D). apply B.
Qed.
End Follow.
(** the i-th entry changed by f i *)
Definition each_from {A B} (k : nat) (f : nat -> A -> B) (l : list A) : list B := map (fun q => f (fst q) (snd q)) (combine (seq k (length l)) l).
Notation each := (each_from 0).
Lemma each_length {A B} k (f : nat -> A -> B) l : length (each_from k f l) = length l.
Proof. unfold each_from. rewrite map_length, combine_length, seq_length. lia. Qed.
Lemma each_map {A B C} (f : nat -> B -> C) (g : nat -> A -> B) : forall l k,
  map (fun q => f (fst q) (snd q)) (combine (seq k (length l)) (each_from k g l)) = map (fun q => f (fst q) (g (fst q) (snd q))) (combine (seq k (length l)) l).
Proof. induction l as [|x l IH]; intros k; [reflexivity|]. unfold each_from in *. cbn. f_equal. apply IH. Qed.
Section Both.
Variable p : params.
Variable g : nat -> cell -> cell.
Variables a b : nat -> R.
Hypothesis U : forall s, undone p (a s) (b s).
Hypothesis D : use_default_min p = false.
Hypothesis G0 : forall s, g s None = None.
Hypothesis G1 : forall s x, exists y, g s (Some x) = Some y.
Hypothesis T : forall s l, transform p (map (g s) l) = map (affine (a s) (b s)) (transform p l).
Hypothesis B : forall s y, (if log_data p then lift1 exp (affine (a s) (b s) y) else affine (a s) (b s) y) = g s (if log_data p then lift1 exp y else y).
Variable other : nat -> nat -> nat -> list cell.
Lemma all_pairs_same : forall data k, all_pairs other p k (each_from k (fun s => map (g s)) data) = all_pairs other p k data.
Proof.
  induction data as [|x data IH]; intros k; [reflexivity|]. unfold each_from in *. cbn. rewrite IH, (pairs_same p (g k) (a k) (b k)); auto.
Qed.
Lemma train_predict_follows learn data :
  train_predict other learn p (each (fun s => map (g s)) data) = option_map (each (fun s => map (g s))) (train_predict other learn p data).
Proof.
  unfold train_predict. rewrite all_pairs_same. destruct (all_pairs other p 0 data) as [t|]; [|reflexivity]. cbn [option_map]. f_equal.
  rewrite each_length, (each_map (fun s x => map (forecast_at other p (learn t) s x) (horizons p)) (fun s => map (g s))). unfold each_from.
  rewrite map_length, combine_length, seq_length, Nat.min_id, combine_map_r, map_map.
  assert (E : forall (l : list (list cell)) k, combine (seq k (length l)) (combine (seq k (length l)) l) = map (fun q => (fst q, q)) (combine (seq k (length l)) l)).
  { induction l as [|x l IH]; intros k; [reflexivity|]. cbn. f_equal. apply IH. }
  rewrite E, map_map. apply map_ext. intros [s x]. cbn [fst snd]. rewrite map_map. apply map_ext. intros h. apply (forecast_follows p (g s) (a s) (b s)); auto.
Qed.
End Both.

(** C190.  Whatever the regressor: if every series is multiplied by a positive number and shifted, by numbers of its own, in
    a way its normalisation undoes (division by mean, median, max or standard deviation: scale; subtraction of mean, median
    or max: level; z-score: both), then its forecasts are multiplied and shifted in the same way, and those of the others
    are not affected. *)
Theorem C190_scale_and_level : forall other learn p data (a b : nat -> R),
  use_default_min p = false -> log_data p = false -> (forall s, undone p (a s) (b s)) ->
  train_predict other learn p (each (fun s => map (affine (a s) (b s))) data) =
  option_map (each (fun s => map (affine (a s) (b s)))) (train_predict other learn p data).
Proof.
  intros other learn p data a b D L U. apply (train_predict_follows p (fun s => affine (a s) (b s)) a b); auto.
  - intros s x. eexists. reflexivity.
  - intros s l. unfold transform. rewrite L. reflexivity.
  - intros s y. rewrite L. reflexivity.
Qed.
(** With logged data a normalisation that undoes changes of level undoes changes of scale. *)
Theorem C190_log_scale : forall other learn p data (a : nat -> R),
  use_default_min p = false -> log_data p = true -> (forall s, 0 < a s)%R -> (stat p = ZScore \/ (how p = Sub /\ stat p <> Std)) ->
  train_predict other learn p (each (fun s => map (affine (a s) 0)) data) =
  option_map (each (fun s => map (affine (a s) 0))) (train_predict other learn p data).
Proof.
  intros other learn p data a D L A S. apply (train_predict_follows p (fun s => affine (a s) 0) (fun _ => 1%R) (fun s => ln (a s))); auto.
  - intros s. split; [lra|]. destruct (stat p), (how p); destruct S as [S|[S1 S2]]; try discriminate; try congruence; auto.
  - intros s x. eexists. reflexivity.
  - intros s l. unfold transform. rewrite L, !map_map. apply map_ext. intros [x|]; [|reflexivity]. cbn. specialize (A s).
    destruct (Rlt_dec 0 (a s * x + 0)) as [H|H], (Rlt_dec 0 x) as [K|K]; try reflexivity.
    + cbn. f_equal. rewrite Rplus_0_r, ln_mult by assumption. lra.
    + exfalso. apply K. apply (Rmult_lt_reg_l (a s)); lra.
    + exfalso. apply H. pose proof (Rmult_lt_0_compat _ _ A K). lra.
  - intros s y. rewrite L. destruct y as [y|]; [|reflexivity]. cbn. f_equal. rewrite exp_plus, exp_ln by apply A. rewrite Rmult_1_l. lra.
Qed.
(** With default_min the scale is not followed: a series that is twice another gets a forecast that is not twice the other's,
    from a regressor that always answers 1. *)
Theorem C190_default_min_refuted : exists p data,
  how p = Div /\ stat p = Mean /\ use_default_min p = true /\ log_data p = false /\ default_min p = (1 / 100000000)%R /\
  forall other, train_predict other (fun _ _ => 1%R) p (map (map (affine 2 0)) data) <>
    option_map (map (map (affine 2 0))) (train_predict other (fun _ _ => 1%R) p data).
Proof.
  exists {| horizons := [1]; input_window := 1; norm_window := 1; stat := Mean; how := Div; use_default_min := true; default_min := (1 / 100000000)%R;
     sum_stats := false; hist_windows := []; log_data := false |}, [[Some 1%R; Some 1%R]].
  repeat (split; [reflexivity|]). intros other. cbn.
  repeat (match goal with |- context [Req_EM_T ?x ?y] => destruct (Req_EM_T x y) as [E|E]; [exfalso; lra|] end; cbn).
  intros H. injection H as H. lra.
Qed.
Example C190_case : undone case_params 1 7 /\ undone {| horizons := [1]; input_window := 3; norm_window := 0; stat := ZScore; how := Div; use_default_min := false;
  default_min := 0; sum_stats := true; hist_windows := []; log_data := false |} 2 (-5).
Proof. unfold undone. cbn. repeat split; lra. Qed.

Print Assumptions C190_scale_and_level.
Print Assumptions C190_log_scale.
Print Assumptions C190_default_min_refuted.
