(** Lemmas about the layout of tensors and the pinball function. *)
From Coq Require Import List Bool Arith ZArith QArith Reals Lia Lqa Lra Psatz.
From Verif Require Import Common GmLossModel.
Import ListNotations.
Open Scope nat_scope.

Lemma zip_len {A B C} (f : A -> B -> C) l : forall m, length (zip_with f l m) = Nat.min (length l) (length m).
Proof. induction l as [|x l IH]; intros [|y m]; cbn; auto. Qed.
Lemma zip_nth {A B C} (f : A -> B -> C) l : forall m i da db dc, i < length l -> i < length m -> nth i (zip_with f l m) dc = f (nth i l da) (nth i m db).
Proof. induction l as [|x l IH]; intros [|y m] [|i] da db dc H1 H2; cbn in *; try lia; auto. apply IH; lia. Qed.
Lemma spread_len {A} h (l : list A) : length (spread h l) = length l * h.
Proof. induction l as [|x l IH]; cbn; [reflexivity |]. rewrite app_length, repeat_length. unfold spread in IH. rewrite IH. reflexivity. Qed.
Lemma repeat_nth {A} (x d : A) n i : i < n -> nth i (repeat x n) d = x.
Proof. revert i. induction n; intros [|i] H; cbn; try lia; auto. apply IHn. lia. Qed.
Lemma spread_nth {A} h (l : list A) d : forall j i, i < h -> j < length l -> nth (j * h + i) (spread h l) d = nth j l d.
Proof.
  induction l as [|x l IH]; intros j i Hi Hj; [cbn in Hj; lia |]. change (spread h (x :: l)) with (repeat x h ++ spread h l).
  destruct j as [|j].
  - rewrite app_nth1 by (rewrite repeat_length; lia). cbn [Nat.mul plus nth]. apply repeat_nth. exact Hi.
  - rewrite app_nth2 by (rewrite repeat_length; cbn; lia). rewrite repeat_length. replace (S j * h + i - h) with (j * h + i) by (cbn; lia).
    cbn [nth]. apply IH; cbn in Hj; lia.
Qed.
Lemma row_len {A} m (l : list A) : length (repeat_row m l) = m * length l.
Proof. unfold repeat_row. induction m; cbn; [reflexivity |]. rewrite app_length, IHm. reflexivity. Qed.
Lemma row_nth {A} m (l : list A) d : forall j i, i < length l -> j < m -> nth (j * length l + i) (repeat_row m l) d = nth i l d.
Proof.
  induction m as [|m IH]; intros j i Hi Hj; [lia |]. change (repeat_row (S m) l) with (l ++ repeat_row m l).
  destruct j as [|j]; [cbn [Nat.mul plus]; apply app_nth1; exact Hi |].
  rewrite app_nth2 by (cbn; lia). replace (S j * length l + i - length l) with (j * length l + i) by (cbn; lia). apply IH; lia.
Qed.
Lemma skipn_nth {A} (l : list A) d : forall k i, nth i (skipn k l) d = nth (k + i) l d.
Proof. induction l as [|x l IH]; intros [|k] i; cbn; auto. destruct i; reflexivity. Qed.
Lemma firstn_nth {A} (l : list A) d : forall k i, i < k -> nth i (firstn k l) d = nth i l d.
Proof. induction l as [|x l IH]; intros [|k] [|i] H; cbn; try lia; auto. apply IH. lia. Qed.
Lemma chunks_len {A} k h (l : list A) : length (chunks k h l) = k.
Proof. revert l. induction k; intros l; cbn; auto. Qed.
Lemma chunks_nth {A} k h : forall (l : list A) j, j < k -> nth j (chunks k h l) [] = firstn h (skipn (j * h) l).
Proof.
  induction k as [|k IH]; intros l j H; [lia |]. destruct j as [|j]; [reflexivity |]. cbn [chunks nth]. rewrite IH by lia.
  f_equal. cbn [Nat.mul]. clear. revert l. generalize (j * h). induction h as [|h IH]; intros n l; cbn; [reflexivity |]. destruct l as [|x l]; [destruct n; reflexivity |]. cbn. apply IH.
Qed.
Lemma map_nth_in {A B} (f : A -> B) l d d' i : i < length l -> nth i (map f l) d' = f (nth i l d).
Proof. intros H. rewrite (nth_indep _ d' (f d)) by (rewrite map_length; exact H). apply map_nth. Qed.
Lemma slice_map {A} (l : list A) d j h : j * h + h <= length l -> firstn h (skipn (j * h) l) = map (fun i => nth (j * h + i) l d) (seq 0 h).
Proof.
  intros L. apply (nth_ext _ _ d d).
  - rewrite firstn_length, skipn_length, map_length, seq_length. lia.
  - intros i Hi. rewrite firstn_length, skipn_length in Hi. rewrite firstn_nth, skipn_nth by lia.
    rewrite (map_nth_in (fun i => nth (j * h + i) l d) (seq 0 h) 0 d i) by (rewrite seq_length; lia).
    rewrite seq_nth by lia. reflexivity.
Qed.
Lemma map_ext_seq {A} (f g : nat -> A) n : (forall i, i < n -> f i = g i) -> map f (seq 0 n) = map g (seq 0 n).
Proof. intros H. apply map_ext_in. intros i Hi. apply in_seq in Hi. apply H. lia. Qed.

Open Scope Q_scope.
Lemma qmax2_spec a b : a <= qmax2 a b /\ b <= qmax2 a b /\ (qmax2 a b == a \/ qmax2 a b == b).
Proof.
  unfold qmax2. destruct (Qle_bool a b) eqn:E.
  - apply Qle_bool_iff in E. split; [lra |]. split; [lra |]. right. reflexivity.
  - assert (b < a) by (apply Qnot_le_lt; intros H; apply Qle_bool_iff in H; congruence). split; [lra |]. split; [lra |]. left. reflexivity.
Qed.
