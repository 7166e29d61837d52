(** C279, C280: the trend model of BOCPD. *)
From Coq Require Import List Reals ZArith Bool Lra Lia Psatz.
From Verif Require Import BocpdTrendModel.
Import ListNotations.
Open Scope R_scope.

(** ** Specification *)

(** the points (time, value) of a run that ends before [i] and has [rl + 1] of them *)
Definition points (vals : list R) (i rl : nat) : list (R * R) :=
  map (fun k => (INR k, nth k vals 0)) (seq (i - rl - 1) (rl + 1)).
(** the squared distance of a line from points, and from a prior line with a weight *)
Definition loss (w : R) (prior : R * R) (pts : list (R * R)) (b : R * R) : R :=
  fold_right (fun p s => (snd p - (fst b + snd b * fst p)) ^ 2 + s) 0 pts
  + w * ((fst b - fst prior) ^ 2 + (snd b - snd prior) ^ 2).
(** [b] is the only line with the least loss *)
Definition best_line (w : R) (prior : R * R) (pts : list (R * R)) (b : R * R) : Prop :=
  forall c, loss w prior pts b <= loss w prior pts c /\ (loss w prior pts c = loss w prior pts b -> c = b).
(** all points lie on the line *)
Definition on_line (b : R * R) (pts : list (R * R)) : Prop := forall p, In p pts -> snd p = fst b + snd b * fst p.

(** ** Lemmas *)
Lemma rsum_ext {A} (f g : A -> R) l : (forall x, In x l -> f x = g x) -> rsum f l = rsum g l.
Proof. induction l as [|x l IH]; intros H; [reflexivity|]. cbn. rewrite H by (left; reflexivity). f_equal. apply IH. intros y I. apply H. right. exact I. Qed.
Lemma rsum_lin {A} (f g : A -> R) c d l : rsum (fun x => c * f x + d * g x) l = c * rsum f l + d * rsum g l.
Proof. induction l as [|x l IH]; cbn; [ring|]. fold (rsum (fun x => c * f x + d * g x) l) (rsum f l) (rsum g l). rewrite IH. ring. Qed.
Lemma rsum_nonneg {A} (f : A -> R) l : (forall x, In x l -> 0 <= f x) -> 0 <= rsum f l.
Proof. induction l as [|x l IH]; intros H; cbn; [lra|]. apply Rplus_le_le_0_compat; [apply H; left; reflexivity|]. apply IH. intros y I. apply H. right. exact I. Qed.
Lemma rsum_const {A} c (l : list A) : rsum (fun _ => c) l = INR (length l) * c.
Proof. induction l as [|x l IH]; [cbn; ring|]. change (c + rsum (fun _ => c) l = INR (S (length l)) * c). rewrite IH, S_INR. ring. Qed.

Lemma lam_pos : 0 < lam. Proof. unfold lam. lra. Qed.
(** the loss as a quadratic form *)
Lemma loss_expand w m pts b : loss w m pts b =
  yty pts - 2 * (fst b * fst (xty pts) + snd b * snd (xty pts))
  + (fst b * fst b * m00 (xtx pts) + 2 * (fst b * snd b) * m01 (xtx pts) + snd b * snd b * m11 (xtx pts))
  + w * ((fst b - fst m) ^ 2 + (snd b - snd m) ^ 2).
Proof.
  unfold loss. f_equal. unfold yty, xty, xtx. cbn [fst snd m00 m01 m11].
  induction pts as [|p pts IH]; [cbn; ring|]. cbn [fold_right length]. rewrite IH, S_INR. cbn [rsum fold_right].
  fold (rsum (fun p : R * R => snd p * snd p) pts) (rsum (@snd R R) pts) (rsum (fun p : R * R => fst p * snd p) pts)
    (rsum (@fst R R) pts) (rsum (fun p : R * R => fst p * fst p) pts). ring.
Qed.
(** Cauchy-Schwarz for the moments *)
Lemma det_xtx pts : 0 <= det (xtx pts).
Proof.
  unfold det, xtx. cbn [m00 m01 m11].
  destruct pts as [|p0 pts0]; [cbn; lra|]. set (pts := p0 :: pts0).
  assert (N : 0 < INR (length pts)) by (apply lt_0_INR; unfold pts; cbn [length]; lia).
  assert (S2 : 0 <= rsum (fun p => (fst p * INR (length pts) - rsum fst pts) * (fst p * INR (length pts) - rsum fst pts)) pts).
  { apply rsum_nonneg. intros x _. apply Rle_0_sqr. }
  set (n := INR (length pts)) in *. set (sx := rsum (@fst R R) pts) in *.
  assert (E : rsum (fun p => (fst p * n - sx) * (fst p * n - sx)) pts = n * (n * rsum (fun p => fst p * fst p) pts - sx * sx)).
  { transitivity (rsum (fun p : R * R => (n * n) * (fst p * fst p) + (- 2 * n * sx) * fst p) pts + rsum (fun _ => sx * sx) pts).
    - clear S2. clearbody n sx. induction pts as [|p l IH]; [cbn; ring|]. cbn [rsum fold_right].
      fold (rsum (fun p : R * R => (fst p * n - sx) * (fst p * n - sx)) l) (rsum (fun p : R * R => (n * n) * (fst p * fst p) + (- 2 * n * sx) * fst p) l) (rsum (fun _ : R * R => sx * sx) l).
      rewrite IH. ring.
    - rewrite rsum_lin, rsum_const. fold n. fold sx. ring. }
  rewrite E in S2. assert (0 <= n * rsum (fun p : R * R => fst p * fst p) pts - sx * sx) by nra. lra.
Qed.
Lemma det_lambda pts : 0 < det (lambda_n pts).
Proof.
  pose proof (det_xtx pts) as D. pose proof lam_pos as L. unfold det, lambda_n, xtx in *. cbn [m00 m01 m11] in *.
  assert (0 <= INR (length pts)) by apply pos_INR.
  assert (0 <= rsum (fun p : R * R => fst p * fst p) pts) by (apply rsum_nonneg; intros; nra). nra.
Qed.
Lemma inv_lambda pts : exists i, inv (lambda_n pts) = Some i /\ forall v, mv (lambda_n pts) (mv i v) = v.
Proof.
  pose proof (det_lambda pts) as D. unfold inv. destruct (Req_EM_T (det (lambda_n pts)) 0) as [E|N]; [lra|].
  eexists. split; [reflexivity|]. intros (v0, v1). unfold mv. cbn [m00 m01 m11 fst snd]. unfold det in *. f_equal; field; exact N.
Qed.
Lemma mv_eq l mu a b : mv l mu = (a, b) -> m00 l * fst mu + m01 l * snd mu = a /\ m01 l * fst mu + m11 l * snd mu = b.
Proof. intros E. split; [exact (f_equal fst E)|exact (f_equal snd E)]. Qed.
(** completing the square *)
Lemma loss_square m pts mu b : mv (lambda_n pts) mu = (lam * fst m + fst (xty pts), lam * snd m + snd (xty pts)) ->
  loss lam m pts b = loss lam m pts mu
    + ((fst b - fst mu) ^ 2 * m00 (lambda_n pts) + 2 * ((fst b - fst mu) * (snd b - snd mu)) * m01 (lambda_n pts)
       + (snd b - snd mu) ^ 2 * m11 (lambda_n pts)).
Proof.
  intros E. apply mv_eq in E as (E0 & E1). rewrite !loss_expand.
  unfold lambda_n in *. cbn [m00 m01 m11] in *.
  set (A := m00 (xtx pts)) in *. set (B := m01 (xtx pts)) in *. set (C := m11 (xtx pts)) in *.
  set (p := fst (xty pts)) in *. set (q := snd (xty pts)) in *. clearbody A B C p q.
  assert (Ep : p = (A + lam) * fst mu + B * snd mu - lam * fst m) by lra.
  assert (Eq : q = B * fst mu + (C + lam) * snd mu - lam * snd m) by lra. rewrite Ep, Eq. ring.
Qed.
Lemma form_pos pts x y : 0 <= x ^ 2 * m00 (lambda_n pts) + 2 * (x * y) * m01 (lambda_n pts) + y ^ 2 * m11 (lambda_n pts) /\
  (x ^ 2 * m00 (lambda_n pts) + 2 * (x * y) * m01 (lambda_n pts) + y ^ 2 * m11 (lambda_n pts) = 0 -> x = 0 /\ y = 0).
Proof.
  pose proof (det_lambda pts) as D.
  assert (P : 0 < m00 (lambda_n pts)).
  { unfold lambda_n, xtx. cbn [m00]. pose proof lam_pos. pose proof (pos_INR (length pts)). lra. }
  unfold det in D. set (A := m00 (lambda_n pts)) in *. set (B := m01 (lambda_n pts)) in *. set (C := m11 (lambda_n pts)) in *.
  assert (E : A * (x ^ 2 * A + 2 * (x * y) * B + y ^ 2 * C) = (A * x + B * y) ^ 2 + y ^ 2 * (A * C - B * B)) by ring.
  clearbody A B C. assert (N1 : 0 <= (A * x + B * y) ^ 2) by apply pow2_ge_0.
  assert (N2 : 0 <= y ^ 2 * (A * C - B * B)) by (apply Rmult_le_pos; [apply pow2_ge_0|lra]). split.
  { apply Rmult_le_reg_l with A; [exact P|]. rewrite Rmult_0_r, E. lra. }
  intros Z. rewrite Z, Rmult_0_r in E.
  assert (Y : y ^ 2 * (A * C - B * B) = 0) by lra. assert (Y0 : y = 0).
  { apply Rmult_integral in Y as [Y|Y]; [|lra]. cbn in Y. rewrite Rmult_1_r in Y. now apply Rmult_integral in Y as [|]. }
  split; [|exact Y0]. subst y. assert (X : (A * x + B * 0) ^ 2 = 0) by (rewrite Y, Rplus_0_r in E; symmetry; exact E).
  rewrite Rmult_0_r, Rplus_0_r in X. cbn in X. rewrite Rmult_1_r in X. apply Rmult_integral in X as [X|X]; apply Rmult_integral in X as [X|X]; lra.
Qed.
(** what [posterior] is on a run *)
Lemma posterior_spec s tt rl m : mu_prior s = Some m -> 0 <= a_0 s -> 0 <= b_0 s ->
  exists p, posterior s tt rl = Some p /\
    mv (lambda_n (run_rows s rl)) (mu_n p)
      = (lam * fst m + fst (xty (run_rows s rl)), lam * snd m + snd (xty (run_rows s rl))) /\
    l_n p = lambda_n (run_rows s rl) /\ a_n p = a_0 s + INR tt / 2 /\
    b_n p = b_0 s + loss lam m (run_rows s rl) (mu_n p) / 2.
Proof.
  intros M A0 B0. unfold posterior. rewrite M. destruct (inv_lambda (run_rows s rl)) as (i & -> & IV). cbv zeta.
  set (pts := run_rows s rl) in *. set (rhs := (lam * fst m + fst (xty pts), lam * snd m + snd (xty pts))) in *.
  set (mu := mv i rhs). assert (EM : mv (lambda_n pts) mu = rhs) by apply IV.
  assert (EB : yty pts + lam * dot m m - dot mu (mv (lambda_n pts) mu) = loss lam m pts mu).
  { rewrite loss_expand. unfold dot. rewrite EM. pose proof EM as E. unfold rhs in E. apply mv_eq in E as (E0 & E1).
    unfold lambda_n in E0, E1. cbn [m00 m01 m11] in E0, E1. unfold rhs. cbn [fst snd].
    set (A := m00 (xtx pts)) in *. set (B := m01 (xtx pts)) in *. set (C := m11 (xtx pts)) in *.
    set (p := fst (xty pts)) in *. set (q := snd (xty pts)) in *. clearbody A B C p q.
    assert (Ep : p = (A + lam) * fst mu + B * snd mu - lam * fst m) by lra.
    assert (Eq : q = B * fst mu + (C + lam) * snd mu - lam * snd m) by lra. rewrite Ep, Eq. ring. }
  rewrite EB. eexists. split; [reflexivity|]. cbn [mu_n l_n a_n b_n]. split; [exact EM|]. split; [reflexivity|].
  assert (LN : 0 <= loss lam m pts mu).
  { unfold loss. apply Rplus_le_le_0_compat.
    - clearbody mu. clear. induction pts as [|p l IH]; cbn [fold_right]; [lra|]. apply Rplus_le_le_0_compat; [apply pow2_ge_0|exact IH].
    - pose proof lam_pos. apply Rmult_le_pos; [lra|]. apply Rplus_le_le_0_compat; apply pow2_ge_0. }
  pose proof (pos_INR tt). split.
  - destruct (Rlt_dec _ _); [lra|reflexivity].
  - destruct (Rlt_dec _ _); [lra|]. lra.
Qed.

(** the model before point [i] *)
Definition ready_state (p : params) (vals : list R) (ready : bool) : trend := if ready then setup p vals (make p) else make p.
Lemma ready_empty p vals b : t (ready_state p vals b) = 0%nat /\ xs (ready_state p vals b) = [] /\ ys (ready_state p vals b) = [].
Proof. unfold ready_state, setup. destruct b; [|repeat split]. destruct (p_mu p); repeat split. Qed.
Lemma firstn_S {A} (l : list A) i d : (i < length l)%nat -> firstn (S i) l = firstn i l ++ [nth i l d].
Proof. revert i. induction l as [|x l IH]; intros [|i] H; cbn in *; try lia; [reflexivity|]. f_equal. apply IH. lia. Qed.
Lemma before_spec p vals b i : (i <= length vals)%nat ->
  let s := before p vals b i in let s0 := ready_state p vals b in
  t s = i /\ xs s = map INR (seq 0 i) /\ ys s = firstn i vals /\ mu_prior s = mu_prior s0 /\ a_0 s = a_0 s0 /\ b_0 s = b_0 s0 /\ samples s = samples s0.
Proof.
  unfold before. fold (ready_state p vals b). destruct (ready_empty p vals b) as (E1 & E2 & E3). induction i as [|i IH]; intros H; cbv zeta.
  - cbn [firstn fold_left seq map]. repeat split; assumption.
  - rewrite (firstn_S vals i 0) by lia. rewrite fold_left_app. cbn [fold_left]. destruct IH as (A & B & C & D & E & F & G); [lia|].
    set (s1 := fold_left update (firstn i vals) (ready_state p vals b)) in *. clearbody s1.
    unfold update. cbn [t xs ys mu_prior a_0 b_0 samples]. rewrite A, B, C, D, E, F, G.
    rewrite seq_S, map_app. repeat split.
Qed.
Lemma combine_points vals i : (i <= length vals)%nat ->
  combine (map INR (seq 0 i)) (firstn i vals) = map (fun k => (INR k, nth k vals 0)) (seq 0 i).
Proof.
  intros H. assert (E : firstn i vals = map (fun k => nth k vals 0) (seq 0 i)).
  { clear - H. induction i as [|i IH]; [reflexivity|]. rewrite (firstn_S vals i 0), seq_S, map_app, IH by lia. reflexivity. }
  rewrite E. clear. induction (seq 0 i) as [|k l IH]; [reflexivity|]. cbn [map combine]. rewrite IH. reflexivity.
Qed.
Lemma skipn_seq k n : skipn k (seq 0 n) = seq k (n - k).
Proof.
  assert (G : forall k n a, skipn k (seq a n) = seq (a + k) (n - k)); [|apply (G k n 0%nat)].
  clear. induction k as [|k IH]; intros n a; [rewrite Nat.add_0_r, Nat.sub_0_r; reflexivity|].
  destruct n as [|n]; [reflexivity|]. cbn [seq skipn]. rewrite IH. f_equal; lia.
Qed.
Lemma run_points p vals b i rl : (i <= length vals)%nat -> (rl < i)%nat ->
  run_rows (before p vals b i) rl = points vals i rl.
Proof.
  intros H R. destruct (before_spec p vals b i H) as (_ & X & Y & _). unfold run_rows, points. rewrite X, Y.
  rewrite combine_points by exact H. rewrite map_length, seq_length, skipn_map, skipn_seq. f_equal. f_equal. lia.
Qed.

(** ** C279: the posterior of a run *)

(** The coefficients are the line that is closest to the points of the run and, with a small
    weight, to the prior line; the scale grows by half of the distance, so the guards against
    negative parameters are never taken. *)
Theorem C279_posterior : forall p vals i rl m,
  (i <= length vals)%nat -> (rl < i)%nat -> mu_prior (before p vals true i) = Some m ->
  0 <= a_0 (before p vals true i) -> 0 <= b_0 (before p vals true i) ->
  exists q, posterior (before p vals true i) i rl = Some q /\
    best_line (2 / 10000000) m (points vals i rl) (mu_n q) /\
    b_n q = b_0 (before p vals true i) + loss (2 / 10000000) m (points vals i rl) (mu_n q) / 2 /\
    b_0 (before p vals true i) <= b_n q.
Proof.
  intros p vals i rl m L R M A B. destruct (posterior_spec _ i rl m M A B) as (q & P & E & _ & _ & BN).
  rewrite (run_points p vals true i rl L R) in E, BN. exists q. split; [exact P|]. change (2 / 10000000) with lam. split.
  - intros c. rewrite (loss_square m _ (mu_n q) c E).
    destruct (form_pos (points vals i rl) (fst c - fst (mu_n q)) (snd c - snd (mu_n q))) as (F1 & F2). split; [lra|].
    intros Z. assert (F3 : (fst c - fst (mu_n q)) ^ 2 * m00 (lambda_n (points vals i rl)) + 2 * ((fst c - fst (mu_n q)) * (snd c - snd (mu_n q))) * m01 (lambda_n (points vals i rl))
       + (snd c - snd (mu_n q)) ^ 2 * m11 (lambda_n (points vals i rl)) = 0) by lra.
    apply F2 in F3 as (F3 & F4). destruct c as (c0, c1), (mu_n q) as (u0, u1). cbn [fst snd] in F3, F4. f_equal; lra.
  - split; [exact BN|]. rewrite BN.
    assert (0 <= loss lam m (points vals i rl) (mu_n q)); [|lra].
    unfold loss. apply Rplus_le_le_0_compat.
    + clear. induction (points vals i rl) as [|x l IH]; cbn [fold_right]; [lra|]. apply Rplus_le_le_0_compat; [apply pow2_ge_0|exact IH].
    + pose proof lam_pos. apply Rmult_le_pos; [lra|]. apply Rplus_le_le_0_compat; apply pow2_ge_0.
Qed.
(** A run on the prior line does not move it. *)
Theorem C279_line : forall p vals i rl m,
  (i <= length vals)%nat -> (rl < i)%nat -> mu_prior (before p vals true i) = Some m ->
  0 <= a_0 (before p vals true i) -> 0 <= b_0 (before p vals true i) ->
  on_line m (points vals i rl) ->
  exists q, posterior (before p vals true i) i rl = Some q /\ mu_n q = m /\ b_n q = b_0 (before p vals true i).
Proof.
  intros p vals i rl m L R M A B O. destruct (C279_posterior p vals i rl m L R M A B) as (q & P & BL & BN & _).
  exists q. split; [exact P|].
  assert (Z : loss (2 / 10000000) m (points vals i rl) m = 0).
  { unfold loss. rewrite !Rminus_diag_eq by reflexivity.
    assert (F : fold_right (fun p s => (snd p - (fst m + snd m * fst p)) ^ 2 + s) 0 (points vals i rl) = 0).
    { revert O. generalize (points vals i rl). clear. intros l. induction l as [|x l IH]; intros O; cbn [fold_right]; [reflexivity|].
      rewrite IH by (intros y I; apply O; right; exact I). rewrite (O x (or_introl eq_refl)). ring. }
    rewrite F. ring. }
  assert (NN : 0 <= loss (2 / 10000000) m (points vals i rl) (mu_n q)).
  { unfold loss. apply Rplus_le_le_0_compat.
    + clear. induction (points vals i rl) as [|x l IH]; cbn [fold_right]; [lra|]. apply Rplus_le_le_0_compat; [apply pow2_ge_0|exact IH].
    + apply Rmult_le_pos; [lra|]. apply Rplus_le_le_0_compat; apply pow2_ge_0. }
  destruct (BL m) as (B1 & B2). rewrite Z in B1. assert (LZ : loss (2 / 10000000) m (points vals i rl) (mu_n q) = 0) by lra.
  split; [symmetry; apply B2; lra|]. rewrite BN, LZ. lra.
Qed.
(** The shape grows with the number of all points seen, not with the points of the run: for every
    run but the longest it is not the parameter of the posterior (one half for each point). *)
Theorem C279_shape_refuted : forall p vals i rl m q,
  (i <= length vals)%nat -> (rl < i)%nat -> mu_prior (before p vals true i) = Some m ->
  0 <= a_0 (before p vals true i) -> 0 <= b_0 (before p vals true i) ->
  posterior (before p vals true i) i rl = Some q ->
  a_n q = a_0 (before p vals true i) + INR i / 2 /\
  (a_n q = a_0 (before p vals true i) + INR (length (points vals i rl)) / 2 <-> rl = (i - 1)%nat).
Proof.
  intros p vals i rl m q L R M A B P. destruct (posterior_spec _ i rl m M A B) as (q' & P' & _ & _ & AN & _).
  rewrite P' in P. injection P as <-. split; [exact AN|]. rewrite AN.
  unfold points. rewrite map_length, seq_length. split.
  - intros E. assert (E2 : INR i = INR (rl + 1)) by lra. apply INR_eq in E2. lia.
  - intros ->. replace (i - 1 + 1)%nat with i by lia. reflexivity.
Qed.

(** ** C280: priors *)

(** [setup] has to run first: without it every prediction raises. The search for priors of
    [BOCPDetector] does not call it (bocpd.py:591-612), so [detector()] with this model and
    [choose_priors=True], the default, raises. *)
Theorem C280_search_refuted : forall draw p vals i y, (1 <= i)%nat -> (i <= length vals)%nat ->
  pred_prob draw (before p vals false i) i y = None.
Proof.
  intros draw p vals i y I L. unfold pred_prob. destruct i as [|i]; [lia|]. cbn [seq map all_some]. unfold predictive, posterior.
  destruct (before_spec p vals false (S i) L) as (_ & _ & _ & M & _). rewrite M. cbn. reflexivity.
Qed.
(** the first [k] points of a series *)
Definition first_points (vals : list R) (k : nat) : list (R * R) :=
  map (fun j => (INR j, nth j vals 0)) (seq 0 (Nat.min k (length vals))).
Lemma setup_points p vals :
  firstn (p_points p) (combine (map INR (seq 0 (length vals))) vals) = first_points vals (p_points p).
Proof.
  unfold first_points. replace vals with (firstn (length vals) vals) at 2 by apply firstn_all.
  rewrite combine_points by lia. rewrite firstn_map. f_equal.
  assert (G : forall k n a, firstn k (seq a n) = seq a (Nat.min k n)); [|apply G].
  clear. induction k as [|k IH]; intros n a; [reflexivity|]. destruct n as [|n]; [reflexivity|]. cbn. f_equal. apply IH.
Qed.
Lemma rsum_zero_all {A} (f : A -> R) l : (forall x, In x l -> 0 <= f x) -> rsum f l = 0 -> forall x, In x l -> f x = 0.
Proof.
  induction l as [|y l IH]; intros P Z x I; [destruct I|]. cbn in Z. fold (rsum f l) in Z.
  assert (0 <= rsum f l) by (apply rsum_nonneg; intros z J; apply P; right; exact J).
  pose proof (P y (or_introl eq_refl)). destruct I as [->|I]; [lra|]. apply IH; auto; [intros z J; apply P; right; exact J|lra].
Qed.
Lemma loss_square0 m pts mu b :
  m00 (xtx pts) * fst mu + m01 (xtx pts) * snd mu = fst (xty pts) ->
  m01 (xtx pts) * fst mu + m11 (xtx pts) * snd mu = snd (xty pts) ->
  loss 0 m pts b = loss 0 m pts mu
    + ((fst b - fst mu) ^ 2 * m00 (xtx pts) + 2 * ((fst b - fst mu) * (snd b - snd mu)) * m01 (xtx pts)
       + (snd b - snd mu) ^ 2 * m11 (xtx pts)).
Proof. intros E0 E1. rewrite !loss_expand, <- E0, <- E1. ring. Qed.
Lemma rsum_centred {A} (f g : A -> R) (l : list A) a b :
  rsum (fun x => (f x - a) * (g x - b)) l = rsum (fun x => f x * g x) l - b * rsum f l - a * rsum g l + INR (length l) * (a * b).
Proof.
  induction l as [|x l IH]; [cbn; ring|]. cbn [rsum fold_right length].
  fold (rsum (fun x => (f x - a) * (g x - b)) l) (rsum (fun x => f x * g x) l) (rsum f l) (rsum g l). rewrite IH, S_INR. ring.
Qed.
Lemma rsum_map {A B} (f : B -> R) (g : A -> B) l : rsum f (map g l) = rsum (fun x => f (g x)) l.
Proof. induction l as [|x l IH]; [reflexivity|]. cbn. f_equal. exact IH. Qed.
Lemma regress_best m pts : (0 < length pts)%nat ->
  (exists p q, In p pts /\ In q pts /\ fst p <> fst q) -> best_line 0 m pts (linregress pts).
Proof.
  intros LP (p & q & IP & IQ & NE). set (n := INR (length pts)). assert (N : 0 < n) by (apply lt_0_INR; exact LP).
  set (Sx := rsum (@fst R R) pts). set (Sy := rsum (@snd R R) pts).
  assert (MX : mean (map fst pts) = Sx / n) by (unfold mean; rewrite map_length, rsum_map; reflexivity).
  assert (MY : mean (map snd pts) = Sy / n) by (unfold mean; rewrite map_length, rsum_map; reflexivity).
  set (D := rsum (fun p => (fst p - Sx / n) * (fst p - Sx / n)) pts).
  assert (D0 : 0 <= D) by (apply rsum_nonneg; intros; apply Rle_0_sqr).
  assert (DN : D <> 0).
  { intros Z. pose proof (rsum_zero_all _ _ (fun x _ => Rle_0_sqr (fst x - Sx / n)) Z) as AL. unfold Rsqr in AL. cbv beta in AL.
    apply NE. pose proof (AL p IP) as E1. pose proof (AL q IQ) as E2. apply Rmult_integral in E1. apply Rmult_integral in E2. lra. }
  assert (DE : D = m11 (xtx pts) - Sx * Sx / n).
  { unfold D. rewrite rsum_centred. unfold xtx. cbn [m11]. fold Sx n. field. lra. }
  assert (CE : rsum (fun p => (fst p - Sx / n) * (snd p - Sy / n)) pts = snd (xty pts) - Sx * Sy / n).
  { rewrite rsum_centred. unfold xty. cbn [snd]. fold Sx Sy n. field. lra. }
  assert (LE : linregress pts = (Sy / n - (snd (xty pts) - Sx * Sy / n) / D * (Sx / n), (snd (xty pts) - Sx * Sy / n) / D)).
  { unfold linregress. rewrite MX, MY, CE. reflexivity. }
  assert (X0 : m00 (xtx pts) = n) by reflexivity. assert (X1 : m01 (xtx pts) = Sx) by reflexivity.
  assert (Y0 : fst (xty pts) = Sy) by reflexivity.
  assert (D' : m11 (xtx pts) = D + Sx * Sx / n) by lra.
  assert (N0 : n <> 0) by lra.
  intros c. rewrite (loss_square0 m pts (linregress pts) c).
  - set (x := fst c - fst (linregress pts)). set (y := snd c - snd (linregress pts)). rewrite X0, X1, D'.
    assert (E : x ^ 2 * n + 2 * (x * y) * Sx + y ^ 2 * (D + Sx * Sx / n) = n * (x + y * Sx / n) ^ 2 + y ^ 2 * D) by (field; exact N0).
    assert (P1 : 0 <= n * (x + y * Sx / n) ^ 2) by (apply Rmult_le_pos; [lra|apply pow2_ge_0]).
    assert (P2 : 0 <= y ^ 2 * D) by (apply Rmult_le_pos; [apply pow2_ge_0|exact D0]).
    split; [lra|]. intros Z. assert (Y2 : y ^ 2 * D = 0) by lra. apply Rmult_integral in Y2 as [Y2|Y2]; [|contradiction].
    assert (YZ : y = 0). { cbn in Y2. rewrite Rmult_1_r in Y2. now apply Rmult_integral in Y2 as [|]. }
    assert (X2 : n * (x + y * Sx / n) ^ 2 = 0) by lra. apply Rmult_integral in X2 as [X2|X2]; [lra|].
    assert (XZ : x = 0).
    { cbn in X2. rewrite Rmult_1_r in X2. apply Rmult_integral in X2 as [X2|X2]; rewrite YZ in X2; unfold Rdiv in X2; lra. }
    unfold x, y in XZ, YZ. destruct c as (c0, c1), (linregress pts) as (u0, u1). cbn [fst snd] in XZ, YZ. f_equal; lra.
  - rewrite LE, X0, X1, Y0. cbn [fst snd]. field. split; assumption.
  - rewrite LE, X1. cbn [fst snd]. rewrite D'. field. split; assumption.
Qed.
(** The prior line is the least squares line of the first points. *)
Theorem C280_prior : forall p vals, p_mu p = None -> (2 <= p_points p)%nat -> (2 <= length vals)%nat ->
  exists m, mu_prior (setup p vals (make p)) = Some m /\ best_line 0 (0, 0) (first_points vals (p_points p)) m.
Proof.
  intros p vals M K L. unfold setup. rewrite M. cbv zeta. rewrite setup_points. eexists. split; [reflexivity|].
  assert (LF : length (first_points vals (p_points p)) = Nat.min (p_points p) (length vals)) by (unfold first_points; rewrite map_length, seq_length; reflexivity).
  apply regress_best; [lia|]. exists (INR 0, nth 0 vals 0), (INR 1, nth 1 vals 0).
  split; [|split; [|cbn; lra]]; unfold first_points; apply in_map_iff; eexists; (split; [reflexivity|]); apply in_seq; lia.
Qed.
(** With [readjust_sigma_prior] the inverse gamma prior has the residual variance [v] as its mean,
    scale / (shape - 1). *)
Theorem C280_readjust_partial : forall p vals, p_mu p = None -> p_readjust p = true ->
  (3 <= p_points p)%nat -> (3 <= length vals)%nat ->
  exists m v, mu_prior (setup p vals (make p)) = Some m /\
    v = loss 0 (0, 0) (first_points vals (p_points p)) m / (INR (length (first_points vals (p_points p))) - 2) /\ 0 <= v /\
    1 < a_0 (setup p vals (make p)) /\ b_0 (setup p vals (make p)) / (a_0 (setup p vals (make p)) - 1) = v.
Proof.
  intros p vals M RA K L. unfold setup. rewrite M, RA. cbv zeta. rewrite setup_points. cbn [mu_prior a_0 b_0].
  set (pts := first_points vals (p_points p)). set (m := linregress pts).
  assert (LF : length pts = Nat.min (p_points p) (length vals)) by (unfold pts, first_points; rewrite map_length, seq_length; reflexivity).
  assert (N : 0 < INR (length pts) - 2). { assert (H : (3 <= length pts)%nat) by lia. apply le_INR in H. cbn [INR] in H. lra. }
  assert (VE : residual_variance pts m = loss 0 (0, 0) pts m / (INR (length pts) - 2)).
  { unfold residual_variance, loss. f_equal. rewrite Rmult_0_l, Rplus_0_r. clearbody m. clear.
    induction pts as [|x l IH]; [reflexivity|]. cbn [rsum fold_right]. f_equal; [ring|exact IH]. }
  assert (V0 : 0 <= residual_variance pts m).
  { unfold residual_variance. apply Rmult_le_pos; [apply rsum_nonneg; intros; apply Rle_0_sqr|]. left. apply Rinv_0_lt_compat. exact N. }
  exists m, (residual_variance pts m). split; [reflexivity|]. split; [exact VE|]. split; [exact V0|]. split; [lra|].
  set (v := residual_variance pts m) in *. clearbody v. field. lra.
Qed.
(** Its variance, scale^2 / ((shape - 1)^2 (shape - 2)), is meant to be 1000 (bocpd.py:1542-1550) but
    is 1000 times the mean. *)
Theorem C280_variance_refuted : forall p vals, p_mu p = None -> p_readjust p = true ->
  (3 <= p_points p)%nat -> (3 <= length vals)%nat ->
  let a := a_0 (setup p vals (make p)) in let b := b_0 (setup p vals (make p)) in
  b <> 0 -> b ^ 2 / ((a - 1) ^ 2 * (a - 2)) = 1000 * (b / (a - 1)) /\
  (b ^ 2 / ((a - 1) ^ 2 * (a - 2)) = 1000 -> b / (a - 1) = 1).
Proof.
  intros p vals M RA K L. unfold setup. rewrite M, RA. cbv zeta. rewrite setup_points. cbn [mu_prior a_0 b_0].
  set (pts := first_points vals (p_points p)). set (m := linregress pts).
  assert (LF : length pts = Nat.min (p_points p) (length vals)) by (unfold pts, first_points; rewrite map_length, seq_length; reflexivity).
  assert (N : 0 < INR (length pts) - 2). { assert (H : (3 <= length pts)%nat) by lia. apply le_INR in H. cbn [INR] in H. lra. }
  assert (V0 : 0 <= residual_variance pts m).
  { unfold residual_variance. apply Rmult_le_pos; [apply rsum_nonneg; intros; apply Rle_0_sqr|]. left. apply Rinv_0_lt_compat. exact N. }
  set (v := residual_variance pts m) in *. clearbody v. intros B.
  assert (V : v <> 0) by (intros ->; apply B; ring).
  assert (E : (v * (2 + v / 1000 - 1)) ^ 2 / ((2 + v / 1000 - 1) ^ 2 * (2 + v / 1000 - 2)) = 1000 * (v * (2 + v / 1000 - 1) / (2 + v / 1000 - 1))).
  { field. repeat split; lra. }
  split; [exact E|]. rewrite E. intros Q. lra.
Qed.
(** If the first points lie on a line the scale of that prior is zero, which is no distribution. *)
Theorem C280_exact_refuted : forall p vals m, p_mu p = None -> p_readjust p = true ->
  (3 <= p_points p)%nat -> (3 <= length vals)%nat -> on_line m (first_points vals (p_points p)) ->
  a_0 (setup p vals (make p)) = 2 /\ b_0 (setup p vals (make p)) = 0.
Proof.
  intros p vals m M RA K L O. destruct (C280_prior p vals M) as (m' & MU & BL); [lia|lia|].
  destruct (C280_readjust_partial p vals M RA K L) as (m'' & v & MU' & V & V0 & A1 & B).
  rewrite MU in MU'. injection MU' as <-.
  assert (Z : loss 0 (0, 0) (first_points vals (p_points p)) m = 0).
  { unfold loss. rewrite Rmult_0_l, Rplus_0_r. revert O. generalize (first_points vals (p_points p)). clear. intros l.
    induction l as [|x l IH]; intros O; cbn [fold_right]; [reflexivity|].
    rewrite IH by (intros y I; apply O; right; exact I). rewrite (O x (or_introl eq_refl)). ring. }
  assert (LZ : loss 0 (0, 0) (first_points vals (p_points p)) m' = 0).
  { destruct (BL m) as (B1 & _). assert (0 <= loss 0 (0, 0) (first_points vals (p_points p)) m'); [|lra].
    unfold loss. rewrite Rmult_0_l, Rplus_0_r. clear. induction (first_points vals (p_points p)) as [|x l IH]; cbn [fold_right]; [lra|].
    apply Rplus_le_le_0_compat; [apply pow2_ge_0|exact IH]. }
  assert (VZ : v = 0) by (rewrite V, LZ; unfold Rdiv; ring).
  assert (BZ : b_0 (setup p vals (make p)) = 0).
  { rewrite VZ in B. apply Rmult_integral in B as [B|B]; [exact B|]. exfalso. apply (Rinv_neq_0_compat (a_0 (setup p vals (make p)) - 1)); [lra|exact B]. }
  split; [|exact BZ]. clear V B. revert BZ A1. unfold setup. rewrite M, RA. cbv zeta. cbn [a_0 b_0].
  set (r := residual_variance _ _). clearbody r. intros BZ A1. apply Rmult_integral in BZ as [R0|R0]; [rewrite R0; unfold Rdiv; ring|lra].
Qed.
(** Density of the normal distribution with a mean and a variance. *)
Definition gauss (y mean variance : R) : R := exp (- (y - mean) ^ 2 / (2 * variance)) / sqrt (2 * PI * variance).
Lemma norm_pdf_gauss y m v : 0 < v -> norm_pdf y m (sqrt v) = gauss y m v.
Proof.
  intros H. assert (E : sqrt v * sqrt v = v) by (apply sqrt_sqrt; lra). assert (P : 0 < sqrt v) by (apply sqrt_lt_R0; exact H).
  unfold norm_pdf, gauss. f_equal.
  - f_equal. rewrite <- E at 3. field. lra.
  - rewrite (sqrt_mult (2 * PI) v) by (pose proof PI_RGT_0; lra). ring.
Qed.
(** The floor that is to keep probabilities from being zero is zero for fewer than 10^8 samples. *)
Theorem C280_floor_refuted : forall draw s tt rl y q betas sigma2, (0 < samples s < 100000000)%Z ->
  posterior s tt rl = Some q -> draw (mu_n q) (l_n q) (a_n q) (b_n q) = (betas, sigma2) -> 0 < sigma2 ->
  INR (length betas) = IZR (samples s) ->
  min_sum_samples (samples s) = 0%Z /\
  exists pr, option_map (fun r => fst (fst r)) (predictive draw s tt rl y) = Some pr /\
    0 < pr <= 1 / (sqrt sigma2 * sqrt (2 * PI)) /\
    pr * IZR (samples s) = fold_right (fun b acc => gauss y (fst b + snd b * INR tt) sigma2 + acc) 0 betas.
Proof.
  intros draw s tt rl y q betas sigma2 SA P DR SP LB. assert (F : min_sum_samples (samples s) = 0%Z).
  { unfold min_sum_samples. apply Z.div_small. split; [apply Z.sqrt_nonneg|]. apply Z.sqrt_lt_square; lia. }
  split; [exact F|]. unfold predictive. rewrite P, DR, F. cbn [option_map fst].
  assert (SE : rsum (fun m => norm_pdf y m (sqrt sigma2)) (map (fun b => dot b (1, INR tt)) betas)
     = fold_right (fun b acc => norm_pdf y (fst b + snd b * INR tt) (sqrt sigma2) + acc) 0 betas).
  { rewrite rsum_map. clear. induction betas as [|b l IH]; [reflexivity|]. cbn [rsum fold_right]. rewrite <- IH. unfold rsum. f_equal. f_equal.
    unfold dot. cbn [fst snd]. ring. }
  set (sd := sqrt sigma2) in *. assert (SD : 0 < sd) by (apply sqrt_lt_R0; exact SP).
  assert (TP : 0 < sqrt (2 * PI)) by (apply sqrt_lt_R0; pose proof PI_RGT_0; lra).
  set (M := 1 / (sd * sqrt (2 * PI))).
  assert (MP : 0 < sd * sqrt (2 * PI)) by (apply Rmult_lt_0_compat; assumption).
  assert (PD : forall loc, 0 < norm_pdf y loc sd <= M).
  { intros loc. unfold norm_pdf, M. split.
    - apply Rdiv_lt_0_compat; [apply exp_pos|exact MP].
    - unfold Rdiv. apply Rmult_le_compat_r; [left; apply Rinv_0_lt_compat; exact MP|]. rewrite <- exp_0.
      set (z := (y - loc) * / sd). assert (0 <= z * z) by apply Rle_0_sqr.
      destruct (Req_dec z 0) as [->|NZ]; [right; f_equal; ring|]. left. apply exp_increasing. assert (0 < z * z) by (assert (z * z <> 0) by (apply Rmult_integral_contrapositive; split; exact NZ); lra). lra. }
  assert (SG : fold_right (fun b acc => norm_pdf y (fst b + snd b * INR tt) sd + acc) 0 betas
    = fold_right (fun b acc => gauss y (fst b + snd b * INR tt) sigma2 + acc) 0 betas).
  { clear - SP. unfold sd. induction betas as [|b l IH]; [reflexivity|]. cbn [fold_right]. rewrite IH, norm_pdf_gauss by exact SP. reflexivity. }
  rewrite <- SG, SE. set (sum := fold_right (fun (b : R * R) (acc : R) => norm_pdf y (fst b + snd b * INR tt) sd + acc) 0 betas).
  assert (LP : (0 < length betas)%nat).
  { destruct betas; [|cbn; lia]. cbn in LB. assert (IZR 0 < IZR (samples s)) by (apply IZR_lt; lia). lra. }
  assert (SB : 0 < sum <= INR (length betas) * M).
  { unfold sum. clear - PD LP. induction betas as [|b [|c l] IH]; [cbn in LP; lia| |].
    - cbn [fold_right length INR]. pose proof (PD (fst b + snd b * INR tt)). lra.
    - assert (L2 : (0 < length (c :: l))%nat) by (cbn; lia). specialize (IH L2).
      change (length (b :: c :: l)) with (S (length (c :: l))). rewrite S_INR. cbn [fold_right] in IH |- *.
      pose proof (PD (fst b + snd b * INR tt)). lra. }
  clearbody sum. rewrite Rmax_left by lra. assert (NS : 0 < IZR (samples s)) by (apply (IZR_lt 0); lia).
  eexists. split; [reflexivity|]. split; [split|].
  - apply Rdiv_lt_0_compat; lra.
  - apply Rmult_le_reg_r with (IZR (samples s)); [exact NS|]. unfold Rdiv. rewrite Rmult_assoc, Rinv_l by lra. fold M. rewrite LB in SB. lra.
  - field. lra.
Qed.

(** Cases that meet the hypotheses: three points of a line with a kink. *)
Example C279_case :
  let p := {| p_mu := Some (1, 2); p_samples := 100; p_points := 3; p_readjust := false |} in
  p_mu p = Some (1, 2) /\ a_0 (setup p [1; 2; 4] (make p)) = 1 / 10 /\
  points [1; 2; 4] 3 1 = [(INR 1, 2); (INR 2, 4)].
Proof. cbn. repeat split; reflexivity. Qed.
Example C280_case :
  let p := {| p_mu := None; p_samples := 100; p_points := 3; p_readjust := true |} in
  mu_prior (setup p [1; 3; 5] (make p)) = Some (1, 2) /\ on_line (1, 2) (first_points [1; 3; 5] 3) /\
  first_points [1; 3; 6] 3 = [(INR 0, 1); (INR 1, 3); (INR 2, 6)] /\ b_0 (setup p [1; 3; 6] (make p)) <> 0.
Proof.
  cbn [p_points p_mu p_samples]. split; [|split; [|split]].
  - unfold setup. cbn [p_mu p_points p_readjust mu_prior]. f_equal.
    unfold linregress, mean. cbn. f_equal; field.
  - intros q I. unfold first_points in I. cbn in I. destruct I as [<-|[<-|[<-|[]]]]; cbn; ring.
  - reflexivity.
  - unfold setup. cbn [p_mu p_points p_readjust b_0]. unfold residual_variance, linregress, mean. cbn.
    match goal with |- ?x * (2 + ?x / 1000 - 1) <> 0 => assert (E : x = 1 / 6) by field end. rewrite E. lra.
Qed.

Print Assumptions C279_posterior.
Print Assumptions C279_line.
Print Assumptions C279_shape_refuted.
Print Assumptions C280_search_refuted.
Print Assumptions C280_prior.
Print Assumptions C280_readjust_partial.
Print Assumptions C280_variance_refuted.
Print Assumptions C280_exact_refuted.
Print Assumptions C280_floor_refuted.
