(** Python slicing of a sequence, x[a:b] with step 1 and integer (possibly negative or
    out-of-range) or missing bounds. *)
From Verif Require Import Common.
Open Scope Z_scope.

Definition norm_idx (n i : Z) : Z := if i <? 0 then Z.max 0 (i + n) else Z.min i n.

Definition py_slice {A} (l : list A) (a b : option Z) : list A :=
  let n := Z.of_nat (length l) in
  let s := match a with None => 0 | Some i => norm_idx n i end in
  let e := match b with None => n | Some i => norm_idx n i end in
  firstn (Z.to_nat (e - s)) (skipn (Z.to_nat s) l).

Lemma norm_idx_in n i : 0 <= i <= n -> norm_idx n i = i.
Proof. intros H. unfold norm_idx. destruct (Z.ltb_spec i 0); lia. Qed.

Lemma norm_idx_bounds n i : 0 <= n -> 0 <= norm_idx n i <= n.
Proof. intros H. unfold norm_idx. destruct (Z.ltb_spec i 0); lia. Qed.

Lemma py_slice_in {A} (l : list A) a b :
  0 <= a -> a <= b -> b <= Z.of_nat (length l) ->
  py_slice l (Some a) (Some b) = firstn (Z.to_nat (b - a)) (skipn (Z.to_nat a) l).
Proof. intros. unfold py_slice. rewrite !norm_idx_in by lia. reflexivity. Qed.

Lemma py_slice_length {A} (l : list A) a b :
  0 <= a -> a <= b -> b <= Z.of_nat (length l) ->
  Z.of_nat (length (py_slice l (Some a) (Some b))) = b - a.
Proof.
  intros. rewrite py_slice_in by lia. rewrite firstn_length, skipn_length. lia.
Qed.

Lemma py_slice_nth {A} (l : list A) a b i d :
  0 <= a -> a <= b -> b <= Z.of_nat (length l) -> 0 <= i < b - a ->
  nth (Z.to_nat i) (py_slice l (Some a) (Some b)) d = nth (Z.to_nat (a + i)) l d.
Proof.
  intros. rewrite py_slice_in by lia.
  rewrite <- (firstn_skipn (Z.to_nat a) l) at 2.
  rewrite app_nth2; rewrite firstn_length_le by lia; [|lia].
  replace (Z.to_nat (a + i) - Z.to_nat a)%nat with (Z.to_nat i) by lia.
  set (m := skipn (Z.to_nat a) l).
  rewrite <- (firstn_skipn (Z.to_nat (b - a)) m) at 2.
  rewrite app_nth1; [reflexivity|]. rewrite firstn_length. unfold m. rewrite skipn_length. lia.
Qed.

(** A prefix and the suffix from the same bound make up the whole sequence. *)
Lemma py_slice_split {A} (l : list A) a : py_slice l None (Some a) ++ py_slice l (Some a) None = l.
Proof.
  unfold py_slice. pose proof (norm_idx_bounds (Z.of_nat (length l)) a ltac:(lia)) as H.
  set (k := norm_idx _ a) in *. rewrite Z.sub_0_r. simpl skipn at 1.
  rewrite (firstn_all2 (n := Z.to_nat (Z.of_nat (length l) - k))); [apply firstn_skipn|].
  rewrite skipn_length. lia.
Qed.
