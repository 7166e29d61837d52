(** Facts about least squares by orthogonalisation. *)
From Coq Require Import List Reals Lra Lia Arith.
From Verif Require Import LsqModel.
Import ListNotations.
Open Scope R_scope.

Lemma total_ext n f g : (forall i, (i < n)%nat -> f i = g i) -> total n f = total n g.
Proof. induction n as [|n IH]; intros H; cbn; [reflexivity|]. rewrite IH, (H n) by (intros; try apply H; lia). reflexivity. Qed.
Lemma total_plus n f g : total n (fun i => f i + g i) = total n f + total n g.
Proof. induction n as [|n IH]; cbn; [lra|]. rewrite IH. lra. Qed.
Lemma total_minus n f g : total n (fun i => f i - g i) = total n f - total n g.
Proof. induction n as [|n IH]; cbn; [lra|]. rewrite IH. lra. Qed.
Lemma total_scale n c f : total n (fun i => c * f i) = c * total n f.
Proof. induction n as [|n IH]; cbn; [lra|]. rewrite IH. lra. Qed.
Lemma sumof_app {A} (f : A -> R) l m : sumof f (l ++ m) = sumof f l + sumof f m.
Proof. induction l as [|x l IH]; unfold sumof in *; cbn; [lra|]. rewrite IH. lra. Qed.
Lemma sumof_ext {A} (f g : A -> R) l : (forall x, In x l -> f x = g x) -> sumof f l = sumof g l.
Proof. induction l as [|x l IH]; intros H; unfold sumof in *; cbn; [reflexivity|]. rewrite IH, (H x) by (intros; try apply H; cbn; auto). reflexivity. Qed.
Lemma sumof_plus {A} (f g : A -> R) l : sumof (fun x => f x + g x) l = sumof f l + sumof g l.
Proof. induction l as [|x l IH]; unfold sumof in *; cbn; [lra|]. rewrite IH. lra. Qed.
Lemma sumof_scale {A} c (f : A -> R) l : sumof (fun x => c * f x) l = c * sumof f l.
Proof. induction l as [|x l IH]; unfold sumof in *; cbn; [lra|]. rewrite IH. lra. Qed.
Lemma sumof_zero {A} (l : list A) : sumof (fun _ => 0) l = 0.
Proof. induction l as [|x l IH]; unfold sumof in *; cbn; [lra|]. rewrite IH. lra. Qed.
Lemma sumof_swap {A B} (f : A -> B -> R) l m : sumof (fun x => sumof (f x) m) l = sumof (fun y => sumof (fun x => f x y) l) m.
Proof. induction l as [|x l IH]; [cbn; symmetry; apply sumof_zero|]. change (sumof (f x) m + sumof (fun x => sumof (f x) m) l = sumof (fun y => f x y + sumof (fun x => f x y) l) m). rewrite sumof_plus, IH. reflexivity. Qed.
Lemma total_sumof {A} n (f : nat -> A -> R) l : total n (fun i => sumof (f i) l) = sumof (fun x => total n (fun i => f i x)) l.
Proof. induction n as [|n IH]; cbn [total]; [symmetry; apply sumof_zero|]. rewrite IH, <- sumof_plus. reflexivity. Qed.
Lemma sumof_nonneg {A} (f : A -> R) l : (forall x, In x l -> 0 <= f x) -> 0 <= sumof f l.
Proof. induction l as [|x l IH]; intros H; cbn; [lra|]. pose proof (H x (or_introl eq_refl)). assert (0 <= sumof f l) by (apply IH; intros; apply H; right; assumption). unfold sumof in *. lra. Qed.
Lemma sumof_zero_all {A} (f : A -> R) l : (forall x, In x l -> 0 <= f x) -> sumof f l = 0 -> forall x, In x l -> f x = 0.
Proof.
  induction l as [|y l IH]; intros H E x Hx; [destruct Hx|]. change (f y + sumof f l = 0) in E. pose proof (H y (or_introl eq_refl)). assert (0 <= sumof f l) by (apply sumof_nonneg; intros; apply H; right; assumption).
  destruct Hx as [->|Hx]; [lra|]. apply IH; [intros; apply H; right; assumption|lra|exact Hx].
Qed.
Lemma sumof_map {A B} (f : B -> R) (g : A -> B) l : sumof f (map g l) = sumof (fun x => f (g x)) l.
Proof. induction l as [|x l IH]; unfold sumof in *; cbn; [reflexivity|]. rewrite IH. reflexivity. Qed.

Lemma dot_ext k a b r : (forall i, (i < k)%nat -> a i = b i) -> dot k a r = dot k b r.
Proof. intros H. apply total_ext. intros i Hi. rewrite H by exact Hi. reflexivity. Qed.
Lemma dot_sub k a b r : dot k (fun i => a i - b i) r = dot k a r - dot k b r.
Proof. unfold dot. rewrite <- total_minus. apply total_ext. intros. lra. Qed.
Lemma dot_scale k c a r : dot k (fun i => c * a i) r = c * dot k a r.
Proof. unfold dot. rewrite <- total_scale. apply total_ext. intros. lra. Qed.
Lemma dot_sum {A} k (c : A -> row) l r : dot k (fun i => sumof (fun p => c p i) l) r = sumof (fun p => dot k (c p) r) l.
Proof. unfold dot. rewrite <- total_sumof. apply total_ext. intros i _. rewrite Rmult_comm, <- sumof_scale. apply sumof_ext. intros. lra. Qed.
Lemma dot_unit k j r : (j < k)%nat -> dot k (unit_vec j) r = r j.
Proof.
  unfold dot, unit_vec. intros H. assert (G : forall n, total n (fun i => (if Nat.eqb i j then 1 else 0) * r i) = if Nat.ltb j n then r j else 0).
  { induction n as [|n IH]; [reflexivity|]. cbn [total]. rewrite IH. destruct (Nat.ltb_spec j n), (Nat.ltb_spec j (S n)), (Nat.eqb_spec n j); subst; try lia; lra. }
  rewrite G. destruct (Nat.ltb_spec j k); [reflexivity|lia].
Qed.

Section Fit.
Variable k : nat.
Variable data : list (row * R).
Notation inn := (inner k data).
Lemma inner_sym a b : inn a b = inn b a.
Proof. apply sumof_ext. intros. lra. Qed.
Lemma inner_sub a b c : inn (fun i => a i - b i) c = inn a c - inn b c.
Proof. unfold inner. replace (sumof (fun d => dot k a (fst d) * dot k c (fst d)) data - sumof (fun d => dot k b (fst d) * dot k c (fst d)) data) with (sumof (fun d => dot k a (fst d) * dot k c (fst d)) data + -1 * sumof (fun d => dot k b (fst d) * dot k c (fst d)) data) by lra. rewrite <- sumof_scale, <- sumof_plus. apply sumof_ext. intros. rewrite dot_sub. lra. Qed.
Lemma inner_sum {A} (c : A -> R) (p : A -> row) l b : inn (fun i => sumof (fun q => c q * p q i) l) b = sumof (fun q => c q * inn (p q) b) l.
Proof.
  unfold inner. transitivity (sumof (fun q => sumof (fun d => c q * (dot k (p q) (fst d) * dot k b (fst d))) data) l).
  - rewrite sumof_swap. apply sumof_ext. intros d _. rewrite (dot_sum k (fun q i => c q * p q i)), Rmult_comm, <- sumof_scale. apply sumof_ext. intros q _. rewrite dot_scale. lra.
  - apply sumof_ext. intros q _. apply sumof_scale.
Qed.
Lemma inner_nonneg a : 0 <= inn a a.
Proof. apply sumof_nonneg. intros. nra. Qed.
Lemma inner_zero a b : inn a a = 0 -> inn a b = 0.
Proof.
  intros H. unfold inner. transitivity (sumof (fun _ : row * R => 0) data); [|apply sumof_zero]. apply sumof_ext. intros d Hd. assert (E : dot k a (fst d) * dot k a (fst d) = 0). { apply (sumof_zero_all (fun d => dot k a (fst d) * dot k a (fst d)) data); [intros; nra|exact H|exact Hd]. }
  assert (dot k a (fst d) = 0) by nra. nra.
Qed.
Lemma over_mult x y : y <> 0 -> over x y * y = x.
Proof. intros H. unfold over. destruct (Req_EM_T y 0); [contradiction|]. field. exact H. Qed.

(** a sum over an orthogonal family against one of its members *)
Definition orthogonal (l : list row) := forall i j, (i < length l)%nat -> (j < length l)%nat -> i <> j -> inn (nth i l (fun _ => 0)) (nth j l (fun _ => 0)) = 0.
Lemma pick_one l (c : row -> R) m : orthogonal l -> (m < length l)%nat ->
  sumof (fun p => c p * inn p (nth m l (fun _ => 0))) l = c (nth m l (fun _ => 0)) * inn (nth m l (fun _ => 0)) (nth m l (fun _ => 0)).
Proof.
  intros O Hm. set (z := nth m l (fun _ => 0)).
  destruct (nth_split l (fun _ => 0) Hm) as (l1 & l2 & E & L1). fold z in E.
  assert (Z1 : sumof (fun p => c p * inn p z) l1 = 0).
  { transitivity (sumof (fun _ : row => 0) l1); [|apply sumof_zero]. apply sumof_ext. intros p Hp. apply In_nth with (d := fun _ => 0) in Hp as (i & Hi & Ei). assert (H := O i m). unfold z. rewrite <- Ei. replace (nth i l1 (fun _ => 0)) with (nth i l (fun _ => 0)) by (rewrite E, app_nth1 by exact Hi; reflexivity). rewrite H; [lra|rewrite E, app_length; cbn; lia|exact Hm|lia]. }
  assert (Z2 : sumof (fun p => c p * inn p z) l2 = 0).
  { transitivity (sumof (fun _ : row => 0) l2); [|apply sumof_zero]. apply sumof_ext. intros p Hp. apply In_nth with (d := fun _ => 0) in Hp as (i & Hi & Ei). assert (H := O (length l1 + S i)%nat m). unfold z. rewrite <- Ei. replace (nth i l2 (fun _ => 0)) with (nth (length l1 + S i) l (fun _ => 0)).
    - rewrite H; [lra|rewrite E, app_length; cbn; lia|exact Hm|lia].
    - rewrite E, app_nth2 by lia. replace (length l1 + S i - length l1)%nat with (S i) by lia. reflexivity. }
  rewrite E, sumof_app. change (sumof (fun p => c p * inn p z) (z :: l2)) with (c z * inn z z + sumof (fun p => c p * inn p z) l2). rewrite Z1, Z2. lra.
Qed.
Lemma basis_len j : length (basis k data j) = j.
Proof. induction j as [|j IH]; [reflexivity|]. cbn [basis]. rewrite app_length, IH. cbn. lia. Qed.
Lemma project_out l u m : orthogonal l -> (m < length l)%nat ->
  inn (fun i => u i - sumof (fun p => over (inn u p) (inn p p) * p i) l) (nth m l (fun _ => 0)) = 0.
Proof.
  intros O Hm. rewrite inner_sub. rewrite (inner_sum (fun p => over (inn u p) (inn p p)) (fun p => p)). rewrite (pick_one l (fun p => over (inn u p) (inn p p)) m O Hm).
  set (z := nth m l (fun _ => 0)). destruct (Req_EM_T (inn z z) 0) as [Z|Z]; [|rewrite over_mult by exact Z; lra]. rewrite (inner_sym u z), (inner_zero z u Z), Z. lra.
Qed.
Lemma basis_orthogonal j : orthogonal (basis k data j).
Proof.
  induction j as [|j IH]; [intros i m Hi; cbn in Hi; lia|]. intros i m Hi Hm N. rewrite basis_len in Hi, Hm.
  assert (G : forall a, (a < j)%nat -> inn (nth j (basis k data (S j)) (fun _ => 0)) (nth a (basis k data (S j)) (fun _ => 0)) = 0).
  { intros a Ha. cbn [basis]. rewrite (app_nth2 _ _ _ (n := j)) by (rewrite basis_len; lia). rewrite basis_len, Nat.sub_diag. cbn [nth]. rewrite (app_nth1 _ _ _ (n := a)) by (rewrite basis_len; lia). apply project_out; [exact IH|rewrite basis_len; exact Ha]. }
  destruct (Nat.eq_dec i j) as [->|Ni]; [apply G; lia|]. destruct (Nat.eq_dec m j) as [->|Nm]; [rewrite inner_sym; apply G; lia|].
  cbn [basis]. rewrite !app_nth1 by (rewrite basis_len; lia). apply IH; rewrite ?basis_len; lia.
Qed.
Lemma basis_prefix j n m : (m < j)%nat -> (j <= n)%nat -> nth m (basis k data n) (fun _ => 0) = nth m (basis k data j) (fun _ => 0).
Proof. intros Hm H. induction H as [|n H IH]; [reflexivity|]. cbn [basis]. rewrite app_nth1 by (rewrite basis_len; lia). exact IH. Qed.

Lemma against_sub a b : against k data (fun i => a i - b i) = against k data a - against k data b.
Proof. unfold against. replace (sumof (fun d => snd d * dot k a (fst d)) data - sumof (fun d => snd d * dot k b (fst d)) data) with (sumof (fun d => snd d * dot k a (fst d)) data + -1 * sumof (fun d => snd d * dot k b (fst d)) data) by lra. rewrite <- sumof_scale, <- sumof_plus. apply sumof_ext. intros. rewrite dot_sub. lra. Qed.
Lemma against_zero a : inn a a = 0 -> against k data a = 0.
Proof.
  intros H. unfold against. transitivity (sumof (fun _ : row * R => 0) data); [|apply sumof_zero]. apply sumof_ext. intros d Hd. assert (E : dot k a (fst d) * dot k a (fst d) = 0). { apply (sumof_zero_all (fun d => dot k a (fst d) * dot k a (fst d)) data); [intros; nra|exact H|exact Hd]. }
  assert (dot k a (fst d) = 0) by nra. nra.
Qed.
(** the residual is orthogonal to the basis, ... *)
Definition resid (b : row) (d : row * R) : R := snd d - dot k b (fst d).
Definition normal (a : row) := sumof (fun d => resid (beta k data) d * dot k a (fst d)) data.
Lemma normal_split a : normal a = against k data a - inn (beta k data) a.
Proof.
  unfold normal, against, inner. replace (sumof (fun d => snd d * dot k a (fst d)) data - sumof (fun d => dot k (beta k data) (fst d) * dot k a (fst d)) data) with (sumof (fun d => snd d * dot k a (fst d)) data + -1 * sumof (fun d => dot k (beta k data) (fst d) * dot k a (fst d)) data) by lra.
  rewrite <- sumof_scale, <- sumof_plus. apply sumof_ext. intros. unfold resid. lra.
Qed.
Lemma normal_basis m : (m < k)%nat -> normal (nth m (basis k data k) (fun _ => 0)) = 0.
Proof.
  intros Hm. rewrite normal_split. unfold beta. rewrite (inner_sum (fun p => over (against k data p) (inn p p)) (fun p => p)).
  rewrite (pick_one (basis k data k) (fun p => over (against k data p) (inn p p)) m (basis_orthogonal k)) by (rewrite basis_len; exact Hm).
  set (z := nth m (basis k data k) (fun _ => 0)). destruct (Req_EM_T (inn z z) 0) as [Z|Z]; [|rewrite over_mult by exact Z; lra]. rewrite (against_zero z Z), Z. lra.
Qed.
Lemma normal_sub a b : normal (fun i => a i - b i) = normal a - normal b.
Proof. rewrite !normal_split, against_sub, (inner_sym _ (fun i => a i - b i)), inner_sub, (inner_sym a), (inner_sym b). lra. Qed.
Lemma normal_sum {A} (c : A -> R) (p : A -> row) l : normal (fun i => sumof (fun q => c q * p q i) l) = sumof (fun q => c q * normal (p q)) l.
Proof.
  unfold normal. transitivity (sumof (fun q => sumof (fun d => c q * (resid (beta k data) d * dot k (p q) (fst d))) data) l).
  - rewrite sumof_swap. apply sumof_ext. intros d _. rewrite (dot_sum k (fun q i => c q * p q i)), <- sumof_scale. apply sumof_ext. intros q _. rewrite dot_scale. lra.
  - apply sumof_ext. intros q _. apply sumof_scale.
Qed.
(** ... hence to every column, ... *)
Lemma normal_unit j : (j < k)%nat -> normal (unit_vec j) = 0.
Proof.
  intros Hj. pose proof (normal_basis j Hj) as H. rewrite (basis_prefix (S j) k j) in H by lia. cbn [basis] in H. rewrite app_nth2 in H by (rewrite basis_len; lia). rewrite basis_len, Nat.sub_diag in H. cbn [nth] in H. rewrite normal_sub in H.
  rewrite (normal_sum (fun p => over (inn (unit_vec j) p) (inn p p)) (fun p => p)) in H.
  assert (Z : sumof (fun p => over (inn (unit_vec j) p) (inn p p) * normal p) (basis k data j) = 0).
  { transitivity (sumof (fun _ : row => 0) (basis k data j)); [|apply sumof_zero]. apply sumof_ext. intros p Hp. apply In_nth with (d := fun _ => 0) in Hp as (m & Hm & <-). rewrite basis_len in Hm. rewrite <- (basis_prefix j k m) by lia. rewrite normal_basis by lia. lra. }
  lra.
Qed.
(** ... hence to every combination of the columns. *)
Lemma normal_all a : normal a = 0.
Proof.
  unfold normal. transitivity (total k (fun j => a j * normal (unit_vec j))).
  - unfold normal. transitivity (total k (fun j => sumof (fun d => a j * (resid (beta k data) d * dot k (unit_vec j) (fst d))) data)).
    + rewrite total_sumof. apply sumof_ext. intros d _. transitivity (total k (fun i => resid (beta k data) d * (a i * fst d i))); [rewrite total_scale; reflexivity|]. apply total_ext. intros i Hi. rewrite dot_unit by exact Hi. lra.
    + apply total_ext. intros i _. apply sumof_scale.
  - transitivity (total k (fun _ => 0)); [apply total_ext; intros j Hj; rewrite normal_unit by exact Hj; lra|]. clear. induction k as [|n IH]; cbn; [reflexivity|rewrite IH; lra].
Qed.
(** The fitted parameters minimise the sum of squared residuals. *)
Theorem ssr_split a : ssr k data a = ssr k data (beta k data) + sumof (fun d => (dot k a (fst d) - dot k (beta k data) (fst d)) * (dot k a (fst d) - dot k (beta k data) (fst d))) data.
Proof.
  pose proof (normal_all (fun i => a i - beta k data i)) as N. unfold normal, ssr in *.
  transitivity (sumof (fun d => (snd d - dot k (beta k data) (fst d)) * (snd d - dot k (beta k data) (fst d)) + ((dot k a (fst d) - dot k (beta k data) (fst d)) * (dot k a (fst d) - dot k (beta k data) (fst d)) + -2 * (resid (beta k data) d * dot k (fun i => a i - beta k data i) (fst d)))) data).
  - apply sumof_ext. intros d _. rewrite dot_sub. unfold resid. lra.
  - rewrite sumof_plus, sumof_plus, sumof_scale, N. lra.
Qed.
Theorem beta_least a : ssr k data (beta k data) <= ssr k data a.
Proof. rewrite (ssr_split a). assert (0 <= sumof (fun d => (dot k a (fst d) - dot k (beta k data) (fst d)) * (dot k a (fst d) - dot k (beta k data) (fst d))) data) by (apply sumof_nonneg; intros; apply Rle_0_sqr). lra. Qed.
(** Another minimiser agrees with it on the rows, ... *)
Theorem beta_rows a : ssr k data a <= ssr k data (beta k data) -> forall d, In d data -> dot k a (fst d) = dot k (beta k data) (fst d).
Proof.
  intros H d Hd. rewrite (ssr_split a) in H. assert (P : 0 <= sumof (fun d => (dot k a (fst d) - dot k (beta k data) (fst d)) * (dot k a (fst d) - dot k (beta k data) (fst d))) data) by (apply sumof_nonneg; intros; apply Rle_0_sqr).
  assert (E : sumof (fun d => (dot k a (fst d) - dot k (beta k data) (fst d)) * (dot k a (fst d) - dot k (beta k data) (fst d))) data = 0) by lra.
  pose proof (sumof_zero_all (fun d => (dot k a (fst d) - dot k (beta k data) (fst d)) * (dot k a (fst d) - dot k (beta k data) (fst d))) data (fun x _ => Rle_0_sqr _) E d Hd) as S. cbv beta in S. assert (forall x, x * x = 0 -> x = 0) by (intros; nra). apply Rminus_diag_uniq. apply H0. exact S.
Qed.
(** ... and everywhere if the columns are independent. *)
Definition independent := forall a, (forall d, In d data -> dot k a (fst d) = 0) -> forall i, (i < k)%nat -> a i = 0.
Theorem beta_unique a : independent -> ssr k data a <= ssr k data (beta k data) -> forall i, (i < k)%nat -> beta k data i = a i.
Proof.
  intros I H i Hi. pose proof (beta_rows a H) as E. assert (Z : (fun i => a i - beta k data i) i = 0). { apply (I (fun i => a i - beta k data i)); [|exact Hi]. intros d Hd. rewrite dot_sub, (E d Hd). lra. } cbv beta in Z. lra.
Qed.
Theorem beta_exact a : independent -> (forall d, In d data -> snd d = dot k a (fst d)) -> forall i, (i < k)%nat -> beta k data i = a i.
Proof.
  intros I H. apply beta_unique; [exact I|]. replace (ssr k data a) with 0; [apply sumof_nonneg; intros; apply Rle_0_sqr|]. unfold ssr. symmetry. transitivity (sumof (fun _ : row * R => 0) data); [|apply sumof_zero]. apply sumof_ext. intros d Hd. rewrite (H d Hd). lra.
Qed.
Theorem ssr_exact a : (forall d, In d data -> snd d = dot k a (fst d)) -> ssr k data (beta k data) = 0.
Proof.
  intros H. apply Rle_antisym; [|apply sumof_nonneg; intros; apply Rle_0_sqr]. apply Rle_trans with (ssr k data a); [apply beta_least|]. unfold ssr. apply Req_le. transitivity (sumof (fun _ : row * R => 0) data); [|apply sumof_zero]. apply sumof_ext. intros d Hd. rewrite (H d Hd). lra.
Qed.
(** Parameters whose residual is orthogonal to the columns are the fitted ones. *)
Theorem normal_least a : (forall b, sumof (fun d => (snd d - dot k a (fst d)) * dot k b (fst d)) data = 0) -> ssr k data a <= ssr k data (beta k data).
Proof.
  intros H. pose proof (H (fun i => a i - beta k data i)) as N. unfold ssr.
  replace (sumof (fun d => (snd d - dot k (beta k data) (fst d)) * (snd d - dot k (beta k data) (fst d))) data) with
    (sumof (fun d => (snd d - dot k a (fst d)) * (snd d - dot k a (fst d)) + ((dot k a (fst d) - dot k (beta k data) (fst d)) * (dot k a (fst d) - dot k (beta k data) (fst d)) + 2 * ((snd d - dot k a (fst d)) * dot k (fun i => a i - beta k data i) (fst d)))) data).
  - rewrite sumof_plus, sumof_plus, sumof_scale, N. assert (0 <= sumof (fun d => (dot k a (fst d) - dot k (beta k data) (fst d)) * (dot k a (fst d) - dot k (beta k data) (fst d))) data) by (apply sumof_nonneg; intros; apply Rle_0_sqr). lra.
  - apply sumof_ext. intros d _. rewrite dot_sub. lra.
Qed.
(** The leverage of a row: X'X u = r is solved by [u], and the leverage is the value of [u] on the row. *)
Lemma linear_all (F : row -> R) : (forall a b, F (fun i => a i - b i) = F a - F b) -> (forall (c : row -> R) l, F (fun i => sumof (fun q => c q * q i) l) = sumof (fun q => c q * F q) l) ->
  (forall a, F a = total k (fun j => a j * F (unit_vec j))) -> (forall m, (m < k)%nat -> F (nth m (basis k data k) (fun _ => 0)) = 0) -> forall a, F a = 0.
Proof.
  intros FS FL FU FB. assert (U : forall j, (j < k)%nat -> F (unit_vec j) = 0).
  { intros j Hj. pose proof (FB j Hj) as H. rewrite (basis_prefix (S j) k j) in H by lia. cbn [basis] in H. rewrite app_nth2 in H by (rewrite basis_len; lia). rewrite basis_len, Nat.sub_diag in H. cbn [nth] in H. rewrite FS in H.
    rewrite (FL (fun p => over (inn (unit_vec j) p) (inn p p))) in H.
    assert (Z : sumof (fun p => over (inn (unit_vec j) p) (inn p p) * F p) (basis k data j) = 0).
    { transitivity (sumof (fun _ : row => 0) (basis k data j)); [|apply sumof_zero]. apply sumof_ext. intros p Hp. apply In_nth with (d := fun _ => 0) in Hp as (m & Hm & <-). rewrite basis_len in Hm. rewrite <- (basis_prefix j k m) by lia. rewrite FB by lia. lra. }
    lra. }
  intros a. rewrite FU. transitivity (total k (fun _ => 0)); [apply total_ext; intros j Hj; rewrite U by exact Hj; lra|]. clear. induction k as [|n IH]; cbn; [reflexivity|rewrite IH; lra].
Qed.
Lemma leverage_inverse r : independent -> exists u, (forall a, inn u a = dot k a r) /\ leverage k data r = dot k u r.
Proof.
  intros I. set (u := fun i => sumof (fun p => over (dot k p r) (inn p p) * p i) (basis k data k)). exists u.
  assert (UI : forall a, inn u a = dot k a r).
  { intros a. enough (H : dot k a r - inn u a = 0) by lra. apply (linear_all (fun a => dot k a r - inn u a)).
    - intros b c. rewrite dot_sub, (inner_sym u (fun i => b i - c i)), inner_sub, (inner_sym b), (inner_sym c). lra.
    - intros c l. rewrite (dot_sum k (fun q i => c q * q i)), (inner_sym u), (inner_sum c (fun q => q)).
      transitivity (sumof (fun q => c q * dot k q r) l + -1 * sumof (fun q => c q * inn q u) l).
      + rewrite (sumof_ext (fun p => dot k (fun i => c p * p i) r) (fun q => c q * dot k q r)) by (intros; apply dot_scale). lra.
      + rewrite <- sumof_scale, <- sumof_plus. apply sumof_ext. intros q _. rewrite (inner_sym q u). lra.
    - intros b. transitivity (total k (fun j => b j * dot k (unit_vec j) r) - total k (fun j => b j * inn u (unit_vec j))).
      + f_equal; [apply total_ext; intros i Hi; rewrite dot_unit by exact Hi; reflexivity|].
        unfold inner. transitivity (total k (fun j => sumof (fun d => b j * (dot k u (fst d) * dot k (unit_vec j) (fst d))) data)).
        * rewrite total_sumof. apply sumof_ext. intros d _. transitivity (total k (fun i => dot k u (fst d) * (b i * fst d i))); [rewrite total_scale; reflexivity|]. apply total_ext. intros i Hi. rewrite dot_unit by exact Hi. lra.
        * apply total_ext. intros i _. apply sumof_scale.
      + rewrite <- total_minus. apply total_ext. intros. lra.
    - intros m Hm. unfold u at 1. rewrite (inner_sum (fun p => over (dot k p r) (inn p p)) (fun p => p)).
      rewrite (pick_one (basis k data k) (fun p => over (dot k p r) (inn p p)) m (basis_orthogonal k)) by (rewrite basis_len; exact Hm).
      set (z := nth m (basis k data k) (fun _ => 0)). destruct (Req_EM_T (inn z z) 0) as [Z|Z]; [|rewrite over_mult by exact Z; lra].
      assert (dot k z r = 0). { unfold dot. transitivity (total k (fun _ => 0)); [|clear; induction k as [|n IH]; cbn; [reflexivity|rewrite IH; lra]]. apply total_ext. intros i Hi. rewrite (I z); [lra| |exact Hi].
        intros d Hd. assert (E : dot k z (fst d) * dot k z (fst d) = 0) by (apply (sumof_zero_all (fun d => dot k z (fst d) * dot k z (fst d)) data); [intros; nra|exact Z|exact Hd]). nra. }
      rewrite Z. lra. }
  split; [exact UI|]. unfold leverage, u. rewrite (dot_sum k (fun p i => over (dot k p r) (inn p p) * p i)). apply sumof_ext. intros p _. rewrite dot_scale. unfold over. destruct (Req_EM_T (inn p p) 0); [lra|]. unfold Rdiv. lra.
Qed.
Lemma leverage_nonneg r : 0 <= leverage k data r.
Proof.
  apply sumof_nonneg. intros p _. unfold over. destruct (Req_EM_T (inn p p) 0) as [|N]; [lra|]. pose proof (inner_nonneg p). assert (0 < inn p p) by lra. apply Rmult_le_pos; [nra|]. left. apply Rinv_0_lt_compat. lra.
Qed.
End Fit.
