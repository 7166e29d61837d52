(** Lemmas about masks, merges and grids. *)
From Coq Require Import List Bool Arith ZArith QArith Lia Sorted.
From Verif Require Import GmFillModel.
Import ListNotations.
Open Scope nat_scope.

(** how many elements a mask keeps *)
Definition kept (m : list bool) : nat := length (filter (fun b => b) m).
Lemma kept_app a b : kept (a ++ b) = kept a + kept b.
Proof. unfold kept. rewrite filter_app, app_length. reflexivity. Qed.
Lemma kept_repeat b n : kept (repeat b n) = if b then n else 0.
Proof. unfold kept. induction n; cbn; destruct b; cbn in *; auto. Qed.

Lemma run_split t : exists r, t = repeat true (run_length t) ++ r /\ skipn (run_length t) t = r /\ (r = [] \/ exists r', r = false :: r').
Proof.
  induction t as [|b t IH]; [exists []; cbn; auto |].
  destruct b.
  - destruct IH as [r [E1 [E2 E3]]]. exists r. cbn. rewrite <- E1. auto.
  - exists (false :: t). cbn. eauto.
Qed.

Lemma keep_app {A} (m1 m2 : list bool) (l1 l2 : list A) : length m1 = length l1 -> keep (m1 ++ m2) (l1 ++ l2) = keep m1 l1 ++ keep m2 l2.
Proof. revert l1. induction m1 as [|b m1 IH]; intros [|x l1] L; cbn in *; try lia; [reflexivity |]. destruct b; cbn; rewrite IH by lia; reflexivity. Qed.

Section Filters.
Variable s : nat.
Hypothesis Hs : 1 <= s.
(** what one turn of the loop emits for a hole *)
Definition hole (cnt : nat) : list bool := if s <=? cnt then repeat true (cnt mod s) ++ repeat false (cnt - cnt mod s) else repeat true cnt.
Lemma hole_len c : length (hole c) = c.
Proof. unfold hole. destruct (s <=? c); rewrite ?app_length, ?repeat_length; auto. pose proof (Nat.mod_le c s). lia. Qed.
Lemma filters_hole fuel t : filters_from (S fuel) (true :: t) s = hole (S (run_length t)) ++ filters_from fuel (skipn (run_length t) t) s.
Proof. reflexivity. Qed.
Lemma skipn_len_le {A} n (l : list A) : length (skipn n l) <= length l.
Proof. rewrite skipn_length. lia. Qed.

Lemma filters_len fuel : forall na, length na <= fuel -> length (filters_from fuel na s) = length na.
Proof.
  induction fuel as [|fuel IH]; intros na L; [destruct na; cbn in *; [reflexivity | lia] |].
  destruct na as [|[|] t]; [reflexivity | | cbn; rewrite IH; cbn in L; [reflexivity | lia]].
  rewrite filters_hole, app_length, hole_len. destruct (run_split t) as [r [E1 [E2 _]]].
  rewrite E2. assert (LT : length t = run_length t + length r) by (rewrite E1 at 1; rewrite app_length, repeat_length; reflexivity).
  rewrite IH; cbn [length] in *; lia.
Qed.

Lemma mod_eq a b : (exists k, a = b + k * s) -> a mod s = b mod s.
Proof. intros [k ->]. rewrite Nat.mod_add by lia. reflexivity. Qed.
Lemma hole_kept c : (kept (hole c)) mod s = c mod s.
Proof.
  unfold hole. destruct (s <=? c) eqn:E.
  - rewrite kept_app, !kept_repeat, Nat.add_0_r. apply Nat.mod_mod. lia.
  - rewrite kept_repeat. reflexivity.
Qed.
Lemma hole_nth c p : p < c -> nth p (hole c) true = true -> kept (firstn p (hole c)) = p.
Proof.
  intros Hp. unfold hole. destruct (s <=? c) eqn:E.
  - set (a := c mod s). intros N. assert (PA : p < a).
    { destruct (Nat.lt_ge_cases p a) as [|G]; [assumption |]. exfalso.
      rewrite app_nth2, repeat_length in N by (rewrite repeat_length; lia).
      assert (NN : forall n k, k < n -> nth k (repeat false n) true = false)
        by (induction n; intros [|k] Hk; cbn; try lia; auto; apply IHn; lia).
      rewrite NN in N by (unfold a in *; lia). discriminate. }
    rewrite firstn_app, repeat_length. replace (p - a) with 0 by lia. cbn [firstn]. rewrite app_nil_r.
    assert (FR : forall n k, k <= n -> firstn k (repeat true n) = repeat true k)
      by (induction n; intros [|k] Hk; cbn; auto; try lia; rewrite IHn by lia; reflexivity).
    rewrite FR by lia. apply kept_repeat.
  - intros _.
    assert (FR : forall n k, k <= n -> firstn k (repeat true n) = repeat true k)
      by (induction n; intros [|k] Hk; cbn; auto; try lia; rewrite IHn by lia; reflexivity).
    rewrite FR by lia. apply kept_repeat.
Qed.

(** a kept element keeps its phase *)
Lemma filters_phase fuel : forall na p, length na <= fuel -> p < length na ->
  nth p (filters_from fuel na s) true = true -> kept (firstn p (filters_from fuel na s)) mod s = p mod s.
Proof.
  induction fuel as [|fuel IH]; intros na p L Hp N; [destruct na; cbn in *; lia |].
  destruct na as [|[|] t]; [cbn in Hp; lia | |].
  - rewrite filters_hole in *. destruct (run_split t) as [r [E1 [E2 _]]]. rewrite E2 in *.
    assert (LT : length t = run_length t + length r) by (rewrite E1 at 1; rewrite app_length, repeat_length; reflexivity).
    cbn [length] in *. set (c := S (run_length t)) in *.
    destruct (Nat.lt_ge_cases p c) as [PC|PC].
    + rewrite app_nth1 in N by (rewrite hole_len; lia).
      rewrite firstn_app, hole_len. replace (p - c) with 0 by lia. cbn [firstn]. rewrite app_nil_r, hole_nth by assumption. reflexivity.
    + rewrite app_nth2 in N by (rewrite hole_len; lia). rewrite hole_len in N.
      rewrite firstn_app, hole_len, firstn_all2 by (rewrite hole_len; lia). rewrite kept_app.
      specialize (IH r (p - c) ltac:(unfold c in *; lia) ltac:(unfold c in *; lia) N).
      rewrite Nat.add_mod, IH, hole_kept, <- Nat.add_mod by lia. f_equal. lia.
  - cbn [filters_from] in *. destruct p as [|p]; [reflexivity |]. cbn [nth firstn length] in *.
    specialize (IH t p ltac:(lia) ltac:(lia) N).
    change (kept (true :: firstn p (filters_from fuel t s))) with (S (kept (firstn p (filters_from fuel t s)))).
    rewrite <- (Nat.add_1_l (kept _)), <- (Nat.add_1_l p), Nat.add_mod, IH, <- Nat.add_mod by lia. reflexivity.
Qed.

(** a dropped element lies among s missing ones in a row *)
Lemma filters_dropped fuel : forall na p, length na <= fuel -> nth p (filters_from fuel na s) true = false ->
  exists a, a <= p < a + s /\ a + s <= length na /\ forall j, a <= j < a + s -> nth j na false = true.
Proof.
  induction fuel as [|fuel IH]; intros na p L N; [destruct p; discriminate |].
  destruct na as [|[|] t]; [destruct p; discriminate | |].
  - rewrite filters_hole in N. destruct (run_split t) as [r [E1 [E2 _]]]. rewrite E2 in *.
    assert (LT : length t = run_length t + length r) by (rewrite E1 at 1; rewrite app_length, repeat_length; reflexivity).
    cbn [length] in *. set (c := S (run_length t)) in *.
    assert (NA : forall j, j < c -> nth j (true :: t) false = true).
    { intros j Hj. rewrite E1. change (true :: repeat true (run_length t) ++ r) with (repeat true c ++ r).
      rewrite app_nth1 by (rewrite repeat_length; lia).
      clear - Hj. revert j Hj. induction c; intros [|j] Hj; cbn; try lia; auto. apply IHc. lia. }
    destruct (Nat.lt_ge_cases p c) as [PC|PC].
    + rewrite app_nth1 in N by (rewrite hole_len; lia).
      unfold hole in N. destruct (s <=? c) eqn:E.
      * apply Nat.leb_le in E. exists (Nat.min p (c - s)). repeat split; try (cbn [length]; unfold c in *; lia).
        intros j Hj. apply NA. lia.
      * exfalso. clear - N. revert p N. induction c; intros [|p] N; cbn in N; try discriminate. eapply IHc; eauto.
    + rewrite app_nth2 in N by (rewrite hole_len; lia). rewrite hole_len in N.
      destruct (IH r (p - c) ltac:(unfold c in *; lia) N) as [a [A1 [A2 A3]]].
      exists (a + c). repeat split; try (unfold c in *; lia).
      intros j Hj. specialize (A3 (j - c) ltac:(lia)). rewrite E1.
      change (true :: repeat true (run_length t) ++ r) with (repeat true c ++ r).
      rewrite app_nth2 by (rewrite repeat_length; lia). rewrite repeat_length. exact A3.
  - cbn [filters_from] in N. destruct p as [|p]; [discriminate |]. cbn [nth length] in *.
    destruct (IH t p ltac:(lia) N) as [a [A1 [A2 A3]]]. exists (S a). repeat split; try lia.
    intros [|j] Hj; [lia |]. cbn. apply A3. lia.
Qed.

(** no hole of s elements or more is left *)
Lemma run_app_true n l : run_length (repeat true n ++ l) = n + run_length l.
Proof. induction n; cbn; auto. Qed.
Lemma keep_hole c : exists n, n < s /\ keep (hole c) (repeat true c) = repeat true n.
Proof.
  unfold hole. destruct (s <=? c) eqn:E.
  - exists (c mod s). split; [apply Nat.mod_upper_bound; lia |].
    pose proof (Nat.mod_le c s ltac:(lia)) as ML. assert (EC : repeat true c = repeat true (c mod s) ++ repeat true (c - c mod s)) by (rewrite <- repeat_app; f_equal; lia). rewrite EC.
    rewrite keep_app by (rewrite !repeat_length; reflexivity).
    assert (K1 : forall n, keep (repeat true n) (repeat true n) = repeat true n) by (induction n; cbn; congruence).
    assert (K2 : forall n, keep (repeat false n) (repeat true n) = @nil bool) by (induction n; cbn; congruence).
    rewrite K1, K2, app_nil_r. reflexivity.
  - exists c. apply Nat.leb_gt in E. split; [assumption |]. induction c; cbn; [reflexivity | rewrite IHc by lia; reflexivity].
Qed.
Lemma filters_runs fuel : forall na k, length na <= fuel -> run_length (skipn k (keep (filters_from fuel na s) na)) < s.
Proof.
  induction fuel as [|fuel IH]; intros na k L; [destruct na; cbn in *; [destruct k; cbn; lia | lia] |].
  destruct na as [|[|] t]; [destruct k; cbn; lia | |].
  - rewrite filters_hole. destruct (run_split t) as [r [E1 [E2 E3]]]. rewrite E2.
    assert (LT : length t = run_length t + length r) by (rewrite E1 at 1; rewrite app_length, repeat_length; reflexivity).
    cbn [length] in *. set (c := S (run_length t)) in *.
    assert (EQ : true :: t = repeat true c ++ r) by (unfold c; cbn; rewrite <- E1; reflexivity).
    rewrite EQ, keep_app by (rewrite hole_len, repeat_length; reflexivity).
    destruct (keep_hole c) as [n [Hn KH]]. rewrite KH.
    assert (IHr := fun k => IH r k ltac:(unfold c in *; lia)).
    rewrite skipn_app, repeat_length.
    assert (SR : forall n k, skipn k (repeat true n) = repeat true (n - k)) by (induction n0; intros [|k0]; cbn; auto).
    rewrite SR, run_app_true. destruct (Nat.lt_ge_cases k n) as [KN|KN].
    + replace (k - n) with 0 by lia. cbn [skipn].
      assert (R0 : run_length (keep (filters_from fuel r s) r) = 0).
      { destruct E3 as [-> | [r' ->]]; [destruct fuel; reflexivity |]. destruct fuel; [cbn in LT; unfold c in *; lia |]. reflexivity. }
      rewrite R0. lia.
    + replace (n - k) with 0 by lia. cbn. apply IHr.
  - cbn [filters_from keep]. destruct k as [|k]; [cbn; lia |]. cbn [skipn]. apply IH. cbn in L. lia.
Qed.
End Filters.

(** ** Rows picked by a mask *)
Lemma keep_nth {A} (m : list bool) : forall (l : list A) i x, length m = length l -> nth_error (keep m l) i = Some x ->
  exists p, nth_error l p = Some x /\ nth p m true = true /\ kept (firstn p m) = i.
Proof.
  induction m as [|b m IH]; intros [|y l] i x L N; cbn in *; try lia; try (destruct i; discriminate).
  destruct b.
  - destruct i as [|i]; cbn in N; [exists 0; cbn; auto |].
    destruct (IH l i x ltac:(lia) N) as [p [P1 [P2 P3]]]. exists (S p). repeat split; auto. cbn [firstn]. unfold kept in *. cbn. lia.
  - destruct (IH l i x ltac:(lia) N) as [p [P1 [P2 P3]]]. exists (S p). repeat split; auto.
Qed.
Lemma keep_nth_at {A} (m : list bool) : forall (l : list A) p x, length m = length l -> nth_error l p = Some x -> nth p m true = true ->
  nth_error (keep m l) (kept (firstn p m)) = Some x.
Proof.
  induction m as [|b m IH]; intros [|y l] [|p] x L N M; cbn in *; try lia; try discriminate.
  - subst b. inversion N. reflexivity.
  - destruct b; [change (kept (true :: firstn p m)) with (S (kept (firstn p m))); cbn; apply IH; auto; lia |].
    change (kept (false :: firstn p m)) with (kept (firstn p m)). apply IH; auto; lia.
Qed.
Lemma kept_mono m : forall p q, p <= q -> kept (firstn p m) <= kept (firstn q m).
Proof.
  induction m as [|b m IH]; intros [|p] [|q] H; cbn; try lia; try (unfold kept; cbn; lia).
  specialize (IH p q ltac:(lia)). destruct b; unfold kept in *; cbn; lia.
Qed.
Lemma keep_map {A B} (f : A -> B) (m : list bool) : forall l, keep m (map f l) = map f (keep m l).
Proof. induction m as [|[|] m IH]; intros [|x l]; cbn; auto. rewrite IH. reflexivity. Qed.
Lemma in_keep {A} (m : list bool) : forall (l : list A) x, In x (keep m l) -> In x l.
Proof. induction m as [|[|] m IH]; intros [|y l] x H; cbn in *; auto; try contradiction; destruct H; auto. Qed.
