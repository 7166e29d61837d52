(** Shared helpers: finite sums and powers over [Q], list lemmas.
    Nothing here models /repo; it is library material. *)
From Coq Require Export Morphisms List Arith ZArith QArith Qabs Qround Lia Lqa Bool.
Export ListNotations.
Open Scope nat_scope.

(** Sum of a list of rationals. *)
Fixpoint qsum (l : list Q) : Q :=
  match l with [] => 0%Q | x :: t => (x + qsum t)%Q end.

(** [sumn n f] = f 0 + ... + f (n-1). *)
Fixpoint sumn (n : nat) (f : nat -> Q) : Q :=
  match n with O => 0%Q | S k => (sumn k f + f k)%Q end.

(** x^n with a natural exponent. *)
Fixpoint qpow (x : Q) (n : nat) : Q :=
  match n with O => 1%Q | S k => (x * qpow x k)%Q end.

(** Boolean as 0/1. *)
Definition b2q (b : bool) : Q := if b then 1%Q else 0%Q.

Lemma qsum_app l1 l2 : (qsum (l1 ++ l2) == qsum l1 + qsum l2)%Q.
Proof. induction l1 as [|x t IH]; simpl; [ring|]. rewrite IH; ring. Qed.

Lemma qsum_scale {A} (c : Q) (f : A -> Q) l :
  (qsum (map (fun x => c * f x) l) == c * qsum (map f l))%Q.
Proof. induction l as [|x t IH]; simpl; [ring|]. rewrite IH; ring. Qed.

Lemma qsum_ext {A} (f g : A -> Q) l :
  (forall x, In x l -> f x == g x)%Q -> (qsum (map f l) == qsum (map g l))%Q.
Proof.
  induction l as [|x t IH]; simpl; intros H; [reflexivity|].
  rewrite (H x) by auto. rewrite IH by (intros; apply H; auto). reflexivity.
Qed.

Lemma qsum_le {A} (f g : A -> Q) l :
  (forall x, In x l -> f x <= g x)%Q -> (qsum (map f l) <= qsum (map g l))%Q.
Proof.
  induction l as [|x t IH]; simpl; intros H; [lra|].
  specialize (IH (fun y Hy => H y (or_intror Hy))).
  specialize (H x (or_introl eq_refl)). lra.
Qed.

Lemma qsum_nonneg l : (forall x, In x l -> 0 <= x)%Q -> (0 <= qsum l)%Q.
Proof.
  induction l as [|x t IH]; simpl; intros H; [lra|].
  specialize (IH (fun y Hy => H y (or_intror Hy))).
  specialize (H x (or_introl eq_refl)). lra.
Qed.

Lemma sumn_ext n f g : (forall i, (i < n)%nat -> f i == g i)%Q -> (sumn n f == sumn n g)%Q.
Proof.
  induction n as [|n IH]; simpl; intros H; [reflexivity|].
  rewrite IH by (intros; apply H; lia). rewrite (H n) by lia. reflexivity.
Qed.

Lemma sumn_scale n c f : (sumn n (fun i => c * f i) == c * sumn n f)%Q.
Proof. induction n as [|n IH]; simpl; [ring|]. rewrite IH; ring. Qed.

Lemma sumn_scale_r n c f : (sumn n (fun i => f i * c) == sumn n f * c)%Q.
Proof. induction n as [|n IH]; simpl; [ring|]. rewrite IH; ring. Qed.

Lemma sumn_plus n f g : (sumn n (fun i => f i + g i) == sumn n f + sumn n g)%Q.
Proof. induction n as [|n IH]; simpl; [ring|]. rewrite IH; ring. Qed.

Lemma sumn_zero n f : (forall i, (i < n)%nat -> f i == 0)%Q -> (sumn n f == 0)%Q.
Proof.
  induction n as [|n IH]; simpl; intros H; [reflexivity|].
  rewrite IH by (intros; apply H; lia). rewrite H by lia. ring.
Qed.

Lemma sumn_swap n m (f : nat -> nat -> Q) :
  (sumn n (fun i => sumn m (fun j => f i j)) == sumn m (fun j => sumn n (fun i => f i j)))%Q.
Proof.
  induction n as [|n IH]; simpl.
  - symmetry; apply sumn_zero; reflexivity.
  - rewrite IH, <- sumn_plus. reflexivity.
Qed.

(** First-term decomposition. *)
Lemma sumn_S_first n f : (sumn (S n) f == f O + sumn n (fun i => f (S i)))%Q.
Proof. induction n as [|n IH]; [simpl; ring|]. 
  change (sumn (S (S n)) f) with (sumn (S n) f + f (S n))%Q. rewrite IH. simpl. ring. Qed.

Lemma sumn_single n f k : k < n -> (forall i, (i < n)%nat -> i <> k -> f i == 0)%Q -> (sumn n f == f k)%Q.
Proof.
  induction n as [|n IH]; intros Hk H; [lia|]. simpl.
  destruct (Nat.eq_dec k n) as [->|Hne].
  - rewrite sumn_zero by (intros; apply H; lia). ring.
  - rewrite IH by (try lia; intros; apply H; lia). rewrite (H n) by lia. ring.
Qed.

Lemma qpow_nonneg x n : (0 <= x)%Q -> (0 <= qpow x n)%Q.
Proof. intros H; induction n as [|n IH]; simpl; [lra|]. apply Qmult_le_0_compat; auto. Qed.

Lemma qpow_le1 x n : (0 <= x)%Q -> (x <= 1)%Q -> (qpow x n <= 1)%Q.
Proof.
  intros H0 H1; induction n as [|n IH]; simpl; [lra|].
  pose proof (qpow_nonneg x n H0). nra.
Qed.

Lemma qpow_add x a b : (qpow x (a + b) == qpow x a * qpow x b)%Q.
Proof. induction a as [|a IH]; simpl; [ring|]. rewrite IH; ring. Qed.

Lemma qpow_comp x y n : (x == y)%Q -> (qpow x n == qpow y n)%Q.
Proof. intros H; induction n as [|n IH]; simpl; [reflexivity|]. rewrite IH, H; reflexivity. Qed.

Lemma qpow_mono x y n : (0 <= x)%Q -> (x <= y)%Q -> (qpow x n <= qpow y n)%Q.
Proof.
  intros H0 H1; induction n as [|n IH]; simpl; [lra|].
  pose proof (qpow_nonneg x n H0).
  apply Qle_trans with (x * qpow y n)%Q.
  - rewrite (Qmult_comm x (qpow x n)), (Qmult_comm x (qpow y n)). apply Qmult_le_compat_r; auto.
  - apply Qmult_le_compat_r; [auto|]. lra.
Qed.

Global Instance qpow_proper : Proper (Qeq ==> eq ==> Qeq) qpow.
Proof. intros x y H n m ->. apply qpow_comp; exact H. Qed.

Lemma skipn_S_tl {A} k (x : list A) : skipn (S k) x = tl (skipn k x).
Proof. revert x; induction k as [|k IH]; intros [|a x]; try reflexivity. apply (IH x). Qed.
Lemma skipn_skipn_add {A} a b (x : list A) : skipn a (skipn b x) = skipn (b + a) x.
Proof.
  revert x; induction b as [|b IH]; intros [|y x]; simpl; auto. apply skipn_nil.
Qed.
