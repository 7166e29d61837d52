(** Exact Gaussian elimination: a solver with the contract assumed of [np.linalg.solve]. *)
From Verif Require Import Common ThmSpec.
From Coq Require Import Lqa Lia.
Open Scope nat_scope.

Fixpoint find_pivot (n : nat) (A : nat -> nat -> Q) : option nat :=
  match n with O => None | S k => if Qeq_bool (A k 0) 0 then find_pivot k A else Some k end.
Definition swap (i r : nat) : nat := if Nat.eqb r 0 then i else if Nat.eqb r i then 0 else r.
Fixpoint gauss (n : nat) (A B : nat -> nat -> Q) : option (nat -> nat -> Q) :=
  match n with
  | O => Some (fun _ _ => 0%Q)
  | S k =>
      match find_pivot (S k) A with
      | None => None
      | Some i =>
          let A' := fun r c => A (swap i r) c in
          let B' := fun r c => B (swap i r) c in
          let A2 := fun r c => (A' (S r) (S c) - A' (S r) 0%nat / A' 0%nat 0%nat * A' 0%nat (S c))%Q in
          let B2 := fun r c => (B' (S r) c - A' (S r) 0%nat / A' 0%nat 0%nat * B' 0%nat c)%Q in
          match gauss k A2 B2 with
          | None => None
          | Some X => Some (fun r c => match r with
                            | O => ((B' 0%nat c - sumn k (fun q => A' 0%nat (S q) * X q c)) / A' 0%nat 0%nat)%Q
                            | S q => X q c
                            end)
          end
      end
  end.
Definition gauss_solve (n p : nat) (A B : nat -> nat -> Q) := gauss n A B.

Lemma find_pivot_some n A i : find_pivot n A = Some i -> i < n /\ ~ (A i 0%nat == 0)%Q.
Proof.
  induction n as [|n IH]; cbn; [discriminate|]. destruct (Qeq_bool (A n 0) 0) eqn:E.
  - intros H. destruct (IH H). split; [lia|assumption].
  - intros [= <-]. split; [lia|]. apply Qeq_bool_neq, E.
Qed.
Lemma find_pivot_none n A : find_pivot n A = None -> forall i, i < n -> (A i 0%nat == 0)%Q.
Proof.
  induction n as [|n IH]; cbn; [lia|]. destruct (Qeq_bool (A n 0) 0) eqn:E; [|discriminate].
  intros H i Hi. destruct (Nat.eq_dec i n) as [->|Ne]; [apply Qeq_bool_eq, E|apply IH; [exact H|lia]].
Qed.
Lemma swap_lt n i r : i < n -> r < n -> swap i r < n.
Proof. unfold swap. intros. destruct (Nat.eqb_spec r 0); [lia|]. destruct (Nat.eqb_spec r i); lia. Qed.
Lemma swap_swap i r : swap i (swap i r) = r.
Proof.
  unfold swap. destruct (Nat.eqb_spec r 0) as [->|E].
  - destruct (Nat.eqb_spec i 0) as [->|E2]; [reflexivity|]. rewrite Nat.eqb_refl. reflexivity.
  - destruct (Nat.eqb_spec r i) as [->|E2]; [cbn; reflexivity|].
    destruct (Nat.eqb_spec r 0); [contradiction|]. destruct (Nat.eqb_spec r i); [contradiction|]. reflexivity.
Qed.
Lemma swap_all n i (P : nat -> Prop) : i < n -> (forall r, r < n -> P (swap i r)) -> forall r, r < n -> P r.
Proof. intros Hi H r Hr. rewrite <- (swap_swap i r). apply H, swap_lt; assumption. Qed.

Section Step.
Variable k : nat.
Variable A' : nat -> nat -> Q.
Hypothesis Hp : ~ (A' 0%nat 0%nat == 0)%Q.
Definition red (r c : nat) : Q := (A' (S r) (S c) - A' (S r) 0%nat / A' 0%nat 0%nat * A' 0%nat (S c))%Q.
(** the reduced row against a vector *)
Lemma red_row r (y : nat -> Q) :
  (sumn k (fun c => red r c * y c) ==
   sumn k (fun c => A' (S r) (S c) * y c) - A' (S r) 0%nat / A' 0%nat 0%nat * sumn k (fun c => A' 0%nat (S c) * y c))%Q.
Proof.
  unfold red.
  rewrite (sumn_ext k _ (fun c => A' (S r) (S c) * y c + (- (A' (S r) 0%nat / A' 0%nat 0%nat)) * (A' 0%nat (S c) * y c))%Q) by (intros; ring).
  rewrite sumn_plus, sumn_scale. ring.
Qed.
Definition extend (b0 : Q) (y : nat -> Q) (r : nat) : Q :=
  match r with O => ((b0 - sumn k (fun q => A' 0%nat (S q) * y q)) / A' 0%nat 0%nat)%Q | S q => y q end.
Lemma full_row b0 y r :
  (sumn (S k) (fun c => A' r c * extend b0 y c) ==
   A' r 0%nat * ((b0 - sumn k (fun q => A' 0%nat (S q) * y q)) / A' 0%nat 0%nat) + sumn k (fun c => A' r (S c) * y c))%Q.
Proof. rewrite sumn_S_first. reflexivity. Qed.
Lemma extend_solves (b : nat -> Q) y :
  (forall r, r < k -> (sumn k (fun c => red r c * y c) == b (S r) - A' (S r) 0%nat / A' 0%nat 0%nat * b 0%nat)%Q) ->
  forall r, r < S k -> (sumn (S k) (fun c => A' r c * extend (b 0%nat) y c) == b r)%Q.
Proof.
  intros H r Hr. rewrite full_row. destruct r as [|r].
  - field. exact Hp.
  - specialize (H r ltac:(lia)). rewrite red_row in H.
    set (u := sumn k (fun c => A' (S r) (S c) * y c)%Q) in *. set (v := sumn k (fun c => A' 0%nat (S c) * y c)%Q) in *.
    assert (E : (u == b (S r) - A' (S r) 0%nat / A' 0%nat 0%nat * b 0%nat + A' (S r) 0%nat / A' 0%nat 0%nat * v)%Q) by lra.
    rewrite E. field. exact Hp.
Qed.
Lemma reduce_kernel x : (forall r, r < S k -> (sumn (S k) (fun c => A' r c * x c) == 0)%Q) ->
  forall r, r < k -> (sumn k (fun c => red r c * x (S c)) == 0)%Q.
Proof.
  intros H r Hr. rewrite red_row.
  pose proof (H 0 ltac:(lia)) as H0. pose proof (H (S r) ltac:(lia)) as H1. rewrite sumn_S_first in H0, H1.
  set (u := sumn k (fun c => A' (S r) (S c) * x (S c))%Q) in *. set (v := sumn k (fun c => A' 0%nat (S c) * x (S c))%Q) in *.
  assert (E1 : (u == - (A' (S r) 0%nat * x 0%nat))%Q) by lra. assert (E0 : (v == - (A' 0%nat 0%nat * x 0%nat))%Q) by lra.
  rewrite E1, E0. field. exact Hp.
Qed.
Lemma kernel_zero x : (forall r, r < S k -> (sumn (S k) (fun c => A' r c * x c) == 0)%Q) ->
  (forall c, c < k -> (x (S c) == 0)%Q) -> forall c, c < S k -> (x c == 0)%Q.
Proof.
  intros H Hz [|c] Hc; [|apply Hz; lia]. pose proof (H 0 ltac:(lia)) as H0. rewrite sumn_S_first in H0.
  rewrite (sumn_zero k) in H0. 2: { intros i Hi. rewrite (Hz i Hi). ring. }
  assert (E : (A' 0%nat 0%nat * x 0%nat == 0)%Q) by lra. apply Qmult_integral in E as [E|E]; [contradiction|exact E].
Qed.
End Step.

Definition injective (n : nat) (A : nat -> nat -> Q) : Prop :=
  forall x, (forall i, i < n -> (sumn n (fun k => A i k * x k) == 0)%Q) -> forall k, k < n -> (x k == 0)%Q.
Lemma gauss_correct n : forall A B X, gauss n A B = Some X ->
  (forall i j, i < n -> (sumn n (fun k => A i k * X k j) == B i j)%Q) /\ injective n A.
Proof.
  induction n as [|k IH]; intros A B X H.
  - split; [intros; lia|intros x _ q Hq; lia].
  - cbn [gauss] in H. destruct (find_pivot (S k) A) as [i|] eqn:Ep; [|discriminate].
    destruct (find_pivot_some _ _ _ Ep) as [Hi Hnz]. set (A' := fun r c => A (swap i r) c) in *. set (B' := fun r c => B (swap i r) c) in *.
    assert (Hp : ~ (A' 0%nat 0%nat == 0)%Q) by exact Hnz.
    match type of H with match gauss k ?M ?N with _ => _ end = _ => destruct (gauss k M N) as [Y|] eqn:EY; [|discriminate] end.
    injection H as <-. destruct (IH _ _ _ EY) as [C1 C2]. split.
    + intros r j Hr. revert r Hr. apply (swap_all (S k) i); [exact Hi|]. intros r Hr.
      apply (extend_solves k A' Hp (fun r => B' r j) (fun q => Y q j)); [|exact Hr]. intros q Hq. exact (C1 q j Hq).
    + intros x Hx. assert (Hx' : forall r, r < S k -> (sumn (S k) (fun c => A' r c * x c) == 0)%Q).
      { intros r Hr. apply (Hx (swap i r)), swap_lt; assumption. }
      apply (kernel_zero k A' Hp x Hx'). apply C2. exact (reduce_kernel k A' Hp x Hx').
Qed.
Lemma gauss_complete n : forall A B, injective n A -> exists X, gauss n A B = Some X.
Proof.
  induction n as [|k IH]; intros A B H; [eexists; reflexivity|]. cbn [gauss].
  destruct (find_pivot (S k) A) as [i|] eqn:Ep.
  - destruct (find_pivot_some _ _ _ Ep) as [Hi Hnz]. set (A' := fun r c => A (swap i r) c). set (B' := fun r c => B (swap i r) c).
    assert (Hp : ~ (A' 0%nat 0%nat == 0)%Q) by exact Hnz.
    match goal with |- context [gauss k ?M ?N] => destruct (IH M N) as [Y ->] end; [|eexists; reflexivity].
    intros y Hy c Hc. assert (Z : forall r, r < S k -> (extend k A' 0 y r == 0)%Q).
    { apply H. apply (swap_all (S k) i); [exact Hi|]. intros r Hr.
      apply (extend_solves k A' Hp (fun _ => 0%Q) y); [|exact Hr]. intros q Hq. transitivity 0%Q; [exact (Hy q Hq)|ring]. }
    exact (Z (S c) ltac:(lia)).
  - exfalso. assert (Z : (1 == 0)%Q).
    { apply (H (fun c => match c with O => 1 | _ => 0 end)%Q) with (k := 0); [|lia].
      intros r Hr. rewrite sumn_S_first. rewrite (find_pivot_none _ _ Ep r Hr). rewrite (sumn_zero k) by (intros; ring). ring. }
    discriminate Z.
Qed.
Lemma gauss_solves : solves gauss_solve.
Proof.
  intros n p A B X H. destruct (gauss_correct n A B X H) as [C1 C2]. split; [intros i j Hi _; apply C1, Hi|exact C2].
Qed.
