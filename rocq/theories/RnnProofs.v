(** Tensor operations of the recurrent network: shapes, single rows, entries. *)
From Coq Require Import ZArith Reals String List Bool Lia Lra.
From Verif Require Import RnnModel.
Import ListNotations.
Open Scope R_scope.

(** *** Specification *)

(** A batch of [n] series with [w] numbers for each. *)
Definition is_batch (n w : nat) (x : tensor) : Prop :=
  t_width x = w /\ List.length (t_rows x) = n /\
  forall r, In r (t_rows x) -> List.length r = w.

(** The batch that consists of series [i] only. *)
Definition alone (i : nat) (x : tensor) : tensor :=
  T (t_width x) (match nth_error (t_rows x) i with Some r => [r] | None => [] end).

(** Number [j] of series [i]. *)
Definition entry (x : tensor) (i j : nat) : option R :=
  match nth_error (t_rows x) i with Some r => nth_error r j | None => None end.

Definition every (P : R -> Prop) (x : tensor) : Prop :=
  forall i j v, entry x i j = Some v -> P v.

(** *** Lists *)

Lemma some_eq {A} (a b : A) : Some a = Some b -> a = b.
Proof. congruence. Qed.

Lemma nth_combine_ab {A B} (a : list A) (b : list B) i :
  nth_error (combine a b) i =
  match nth_error a i, nth_error b i with Some x, Some y => Some (x, y) | _, _ => None end.
Proof.
  revert b i. induction a as [|x a IH]; intros b i.
  - cbn. destruct i; reflexivity.
  - destruct b as [|y b].
    + cbn [combine]. rewrite !(proj2 (nth_error_None (@nil _) i) (Nat.le_0_l i)).
      destruct (nth_error (x :: a) i); reflexivity.
    + destruct i as [|i]; [reflexivity|]. cbn. apply IH.
Qed.

Lemma nth_zip {A B C} (f : A -> B -> C) a b i :
  nth_error (zip f a b) i =
  match nth_error a i, nth_error b i with Some x, Some y => Some (f x y) | _, _ => None end.
Proof.
  unfold zip. rewrite nth_error_map, nth_combine_ab.
  destruct (nth_error a i), (nth_error b i); reflexivity.
Qed.

Lemma zip_length {A B C} (f : A -> B -> C) a b :
  List.length (zip f a b) = Nat.min (List.length a) (List.length b).
Proof. unfold zip. rewrite map_length, combine_length. reflexivity. Qed.

Lemma nth_repeat_any {A} (x : A) n i :
  nth_error (repeat x n) i = if Nat.ltb i n then Some x else None.
Proof.
  revert i. induction n as [|n IH]; intro i; [destruct i; reflexivity|].
  destruct i as [|i]; [reflexivity|]. cbn [repeat nth_error]. rewrite IH. reflexivity.
Qed.

(** *** Shapes *)

Lemma cat2_ok n a b x y :
  is_batch n a x -> is_batch n b y -> exists z, cat2 x y = Some z /\ is_batch n (a + b) z.
Proof.
  intros [Wx [Nx Rx]] [Wy [Ny Ry]]. unfold cat2, t_n.
  rewrite Nx, Ny, Nat.eqb_refl. eexists. split; [reflexivity|].
  split; [cbn; rewrite Wx, Wy; reflexivity|]. cbn. rewrite zip_length, Nx, Ny.
  split; [lia|]. intros r I. apply In_nth_error in I. destruct I as [i I].
  rewrite nth_zip in I.
  destruct (nth_error (t_rows x) i) as [u|] eqn:U; [|discriminate].
  destruct (nth_error (t_rows y) i) as [v|] eqn:V; [|discriminate].
  apply some_eq in I. subst r. rewrite app_length.
  rewrite (Rx u), (Ry v); [reflexivity|eapply nth_error_In; eassumption..].
Qed.

Lemma zeros_ok n w : (0 <= w)%Z -> exists z, zeros n w = Some z /\ is_batch n (Z.to_nat w) z.
Proof.
  intro H. unfold zeros. rewrite (proj2 (Z.ltb_ge w 0)) by lia.
  eexists. split; [reflexivity|]. split; [reflexivity|]. cbn. rewrite repeat_length.
  split; [reflexivity|]. intros r I. apply repeat_spec in I. subst r. apply repeat_length.
Qed.

Lemma affine_length l r : List.length (affine l r) = l_out l.
Proof. unfold affine. rewrite map_length, seq_length. reflexivity. Qed.

Lemma linear_ok n l x :
  is_batch n (l_in l) x -> exists z, linear l x = Some z /\ is_batch n (l_out l) z.
Proof.
  intros [Wx [Nx Rx]]. unfold linear. rewrite Wx, Nat.eqb_refl.
  eexists. split; [reflexivity|]. split; [reflexivity|]. cbn. rewrite map_length.
  split; [exact Nx|]. intros r I. apply in_map_iff in I. destruct I as [q [E _]].
  subst r. apply affine_length.
Qed.

Lemma tmap_ok n w f x : is_batch n w x -> is_batch n w (tmap f x).
Proof.
  intros [Wx [Nx Rx]]. split; [exact Wx|]. cbn. rewrite map_length. split; [exact Nx|].
  intros r I. apply in_map_iff in I. destruct I as [q [E I]]. subst r.
  rewrite map_length. apply Rx, I.
Qed.

Lemma tzip_ok n w f x y :
  is_batch n w x -> is_batch n w y -> exists z, tzip f x y = Some z /\ is_batch n w z.
Proof.
  intros [Wx [Nx Rx]] [Wy [Ny Ry]]. unfold tzip, t_n.
  rewrite Nx, Ny, Wx, Wy, !Nat.eqb_refl. eexists. split; [reflexivity|].
  split; [reflexivity|]. cbn. rewrite zip_length, Nx, Ny. split; [lia|].
  intros r I. apply In_nth_error in I. destruct I as [i I].
  rewrite nth_zip in I.
  destruct (nth_error (t_rows x) i) as [u|] eqn:U; [|discriminate].
  destruct (nth_error (t_rows y) i) as [v|] eqn:V; [|discriminate].
  apply some_eq in I. subst r. rewrite zip_length.
  rewrite (Rx u), (Ry v); [lia|eapply nth_error_In; eassumption..].
Qed.

Lemma piece_ok n w x a b :
  is_batch n w x -> (a + b <= w)%nat -> is_batch n b (piece x a b).
Proof.
  intros [Wx [Nx Rx]] L. split; [reflexivity|]. cbn. rewrite map_length. split; [exact Nx|].
  intros r I. apply in_map_iff in I. destruct I as [q [E I]]. subst r.
  rewrite firstn_length, skipn_length, (Rx q I). lia.
Qed.

Lemma chunk_ok n s x i : is_batch n (4 * s) x -> (i < 4)%nat -> is_batch n s (chunk x i).
Proof.
  intros B L. unfold chunk. destruct B as [Wx B].
  assert (D : Nat.div (t_width x) 4 = s).
  { rewrite Wx, Nat.mul_comm. apply Nat.div_mul. discriminate. }
  rewrite D. apply piece_ok with (w := (4 * s)%nat); [split; assumption|nia].
Qed.

Lemma split2_ok n w x a b :
  is_batch n w x -> (0 <= a)%Z -> (0 <= b)%Z -> (a + b = Z.of_nat w)%Z ->
  exists u v, split2 x a b = Some (u, v) /\ is_batch n (Z.to_nat a) u /\ is_batch n (Z.to_nat b) v.
Proof.
  intros B A0 B0 E. unfold split2. destruct B as [Wx B]. rewrite Wx.
  rewrite (proj2 (Z.ltb_ge a 0)), (proj2 (Z.ltb_ge b 0)) by lia.
  rewrite (proj2 (Z.eqb_eq _ _) E). cbn [orb negb].
  eexists. eexists. split; [reflexivity|].
  split; apply piece_ok with (w := w); (split; assumption) || lia.
Qed.

(** *** Rows *)

Lemma alone_n i x : t_n (alone i x) = if Nat.ltb i (t_n x) then 1%nat else 0%nat.
Proof.
  unfold alone, t_n. cbn [t_rows]. destruct (nth_error (t_rows x) i) eqn:E.
  - assert (L : (i < List.length (t_rows x))%nat) by (apply nth_error_Some; congruence).
    apply Nat.ltb_lt in L. rewrite L. reflexivity.
  - apply nth_error_None in E. apply Nat.ltb_ge in E. rewrite E. reflexivity.
Qed.

Lemma alone_cat2 i x y z : cat2 x y = Some z -> cat2 (alone i x) (alone i y) = Some (alone i z).
Proof.
  unfold cat2. destruct (Nat.eqb (t_n x) (t_n y)) eqn:E; [|discriminate].
  intro H. apply some_eq in H. subst z. apply Nat.eqb_eq in E.
  rewrite !alone_n, E, Nat.eqb_refl. apply (f_equal Some). unfold alone. cbn.
  rewrite nth_zip. apply f_equal. unfold t_n in E.
  destruct (nth_error (t_rows x) i) eqn:U, (nth_error (t_rows y) i) eqn:V; reflexivity.
Qed.

Lemma alone_zeros i n w z :
  zeros n w = Some z -> zeros (if Nat.ltb i n then 1 else 0)%nat w = Some (alone i z).
Proof.
  unfold zeros. destruct (w <? 0)%Z; [discriminate|]. intro H. apply some_eq in H. subst z.
  apply (f_equal Some). unfold alone. cbn [t_rows t_width]. rewrite nth_repeat_any. apply f_equal.
  destruct (Nat.ltb i n); reflexivity.
Qed.

Lemma alone_linear i l x z : linear l x = Some z -> linear l (alone i x) = Some (alone i z).
Proof.
  unfold linear. cbn. destruct (Nat.eqb (t_width x) (l_in l)); [|discriminate].
  intro H. apply some_eq in H. subst z. apply (f_equal Some). unfold alone. cbn.
  rewrite nth_error_map. apply f_equal. destruct (nth_error (t_rows x) i); reflexivity.
Qed.

Lemma alone_tmap i f x : tmap f (alone i x) = alone i (tmap f x).
Proof.
  unfold tmap, alone. cbn. rewrite nth_error_map. apply f_equal.
  destruct (nth_error (t_rows x) i); reflexivity.
Qed.

Lemma alone_tzip i f x y z : tzip f x y = Some z -> tzip f (alone i x) (alone i y) = Some (alone i z).
Proof.
  unfold tzip. cbn [t_width alone]. destruct (Nat.eqb (t_n x) (t_n y)) eqn:E; [|discriminate].
  destruct (Nat.eqb (t_width x) (t_width y)); [|discriminate].
  cbn [andb]. intro H. apply some_eq in H. subst z. apply Nat.eqb_eq in E.
  rewrite !alone_n, E, Nat.eqb_refl. apply (f_equal Some). unfold alone. cbn.
  rewrite nth_zip. apply f_equal. unfold t_n in E.
  destruct (nth_error (t_rows x) i) eqn:U, (nth_error (t_rows y) i) eqn:V; reflexivity.
Qed.

Lemma alone_piece i x a b : piece (alone i x) a b = alone i (piece x a b).
Proof.
  unfold piece, alone. cbn. rewrite nth_error_map. apply f_equal.
  destruct (nth_error (t_rows x) i); reflexivity.
Qed.

Lemma alone_chunk i x k : chunk (alone i x) k = alone i (chunk x k).
Proof. unfold chunk. cbn [t_width alone]. apply alone_piece. Qed.

Lemma alone_split2 i x a b u v :
  split2 x a b = Some (u, v) -> split2 (alone i x) a b = Some (alone i u, alone i v).
Proof.
  unfold split2. cbn [t_width alone].
  destruct ((a <? 0)%Z || (b <? 0)%Z || negb (a + b =? Z.of_nat (t_width x))%Z); [discriminate|].
  intro H. apply some_eq in H. injection H as <- <-. rewrite !alone_piece. reflexivity.
Qed.

(** *** Entries *)

Lemma entry_tmap f x i j v :
  entry (tmap f x) i j = Some v -> exists a, entry x i j = Some a /\ v = f a.
Proof.
  unfold entry. cbn. rewrite nth_error_map. destruct (nth_error (t_rows x) i) as [r|]; [|discriminate].
  cbn. rewrite nth_error_map. destruct (nth_error r j) as [a|]; [|discriminate].
  cbn. intro H. exists a. split; congruence.
Qed.

Lemma entry_tzip f x y z i j v :
  tzip f x y = Some z -> entry z i j = Some v ->
  exists a b, entry x i j = Some a /\ entry y i j = Some b /\ v = f a b.
Proof.
  unfold tzip. destruct (_ && _); [|discriminate]. intro H. apply some_eq in H. subst z.
  unfold entry. cbn. rewrite nth_zip.
  destruct (nth_error (t_rows x) i) as [r|]; [|discriminate].
  destruct (nth_error (t_rows y) i) as [q|]; [|discriminate].
  rewrite nth_zip. destruct (nth_error r j) as [a|]; [|discriminate].
  destruct (nth_error q j) as [b|]; [|discriminate]. intro H. exists a, b.
  split; [reflexivity|]. split; congruence.
Qed.

Lemma nth_skipn_add {A} (l : list A) a k : nth_error (skipn a l) k = nth_error l (a + k).
Proof.
  revert l. induction a as [|a IH]; intro l; [reflexivity|].
  destruct l as [|y l]; [cbn; destruct k; reflexivity|]. exact (IH l).
Qed.

Lemma nth_firstn_in {A} (l : list A) b k v :
  nth_error (firstn b l) k = Some v -> nth_error l k = Some v.
Proof.
  revert l k. induction b as [|b IH]; intros l k; [destruct k; discriminate|].
  destruct l as [|y l]; [destruct k; discriminate|].
  destruct k as [|k]; [exact (fun h => h)|]. exact (IH l k).
Qed.

Lemma every_piece P x a b : every P x -> every P (piece x a b).
Proof.
  intros H i j v. unfold entry. cbn. rewrite nth_error_map.
  destruct (nth_error (t_rows x) i) as [r|] eqn:E; [|discriminate]. cbn. intro V.
  apply nth_firstn_in in V. rewrite nth_skipn_add in V.
  apply (H i (a + j)%nat v). unfold entry. rewrite E. exact V.
Qed.

Lemma every_split2 P x a b u v : split2 x a b = Some (u, v) -> every P x -> every P u /\ every P v.
Proof.
  unfold split2. destruct (_ || _); [discriminate|].
  intros H E. apply some_eq in H. injection H as <- <-. split; apply every_piece, E.
Qed.

Lemma every_weaken (P Q : R -> Prop) x : (forall v, P v -> Q v) -> every P x -> every Q x.
Proof. intros I H i j v E. apply I, (H i j v E). Qed.

Lemma every_zeros (P : R -> Prop) n w z : P 0 -> zeros n w = Some z -> every P z.
Proof.
  intros P0. unfold zeros. destruct (w <? 0)%Z; [discriminate|]. intros H i j v.
  apply some_eq in H. subst z. unfold entry. cbn. rewrite nth_repeat_any.
  destruct (Nat.ltb i n); [|discriminate]. rewrite nth_repeat_any.
  destruct (Nat.ltb j (Z.to_nat w)); [|discriminate]. intro E. apply some_eq in E. subst v. exact P0.
Qed.

(** *** The two squashing functions *)

Lemma sigmoid_range x : 0 < sigmoid x < 1.
Proof.
  unfold sigmoid. pose proof (exp_pos (- x)) as P. split.
  - apply Rinv_0_lt_compat. lra.
  - rewrite <- Rinv_1. apply Rinv_lt_contravar; lra.
Qed.

Lemma tanh_range x : -1 < tanh x < 1.
Proof.
  unfold tanh, sinh, cosh. pose proof (exp_pos x) as P. pose proof (exp_pos (- x)) as N.
  split.
  - apply Rmult_lt_reg_r with ((exp x + exp (- x)) / 2); [lra|].
    unfold Rdiv at 2. rewrite Rmult_assoc, Rinv_l by lra. lra.
  - apply Rmult_lt_reg_r with ((exp x + exp (- x)) / 2); [lra|].
    unfold Rdiv at 1. rewrite Rmult_assoc, Rinv_l by lra. lra.
Qed.
