(** Theorems about simulated level and trend shifts (C153, C154). *)
From Coq Require Import Reals Lra List Bool Arith Lia Permutation.
From Verif Require Import SimModel SimProps.
Import ListNotations.
Open Scope R_scope.

(** the segment of a position: the number of change points up to it *)
Definition segment (cps : list nat) (k : nat) : nat := length (filter (fun c => (c <=? k)%nat) cps).

Lemma insert_perm x l : Permutation (x :: l) (insert x l).
Proof. induction l as [|y l IH]; cbn; [reflexivity|]. destruct (x <=? y)%nat; [reflexivity|]. rewrite perm_swap. now constructor. Qed.
Lemma sort_perm l : Permutation l (sort l).
Proof. induction l as [|x l IH]; cbn; [constructor|]. rewrite <- insert_perm. now constructor. Qed.
Lemma insert_sorted x l : sortedb l = true -> sortedb (insert x l) = true.
Proof.
  induction l as [|y l IH]; intros H; [reflexivity|]. cbn [insert]. destruct (Nat.leb_spec x y).
  - change ((x <=? y)%nat && sortedb (y :: l) = true). rewrite H. destruct (Nat.leb_spec x y); [reflexivity|lia].
  - assert (T : sortedb l = true) by (destruct l; [reflexivity|]; change ((y <=? n)%nat && sortedb (n :: l) = true) in H; apply andb_true_iff in H; apply H).
    specialize (IH T). destruct l as [|z l].
    + cbn. destruct (Nat.leb_spec y x); [reflexivity|lia].
    + change ((y <=? z)%nat && sortedb (z :: l) = true) in H. apply andb_true_iff in H. destruct H as [H1 H2]. cbn [insert] in *. destruct (x <=? z)%nat.
      * change ((y <=? x)%nat && sortedb (x :: z :: l) = true). rewrite IH. destruct (Nat.leb_spec y x); [reflexivity|lia].
      * change ((y <=? z)%nat && sortedb (z :: insert x l) = true). now rewrite IH, H1.
Qed.
Lemma sort_sorted l : in_order (sort l).
Proof. apply sortedb_order. induction l as [|x l IH]; [reflexivity|]. cbn. now apply insert_sorted. Qed.
Lemma filter_perm {A} (f : A -> bool) l m : Permutation l m -> length (filter f l) = length (filter f m).
Proof. induction 1; cbn; [reflexivity|destruct (f x); cbn; congruence|destruct (f x), (f y); reflexivity|congruence]. Qed.
Lemma segment_sort cps k : segment (sort cps) k = segment cps k.
Proof. unfold segment. symmetry. apply filter_perm, sort_perm. Qed.
Lemma order_tail x l : in_order (x :: l) -> in_order l /\ Forall (fun y => (x <= y)%nat) l.
Proof.
  intros H. split; [intros i j I; exact (H (S i) (S j) ltac:(cbn; lia))|]. apply Forall_forall. intros y Y. apply (In_nth _ _ 0%nat) in Y. destruct Y as (i & I & <-).
  exact (H 0%nat (S i) ltac:(cbn; lia)).
Qed.
Lemma count_split (f : nat -> bool) (mono : forall a b, (a <= b)%nat -> f b = true -> f a = true) : forall l, in_order l -> let c := length (filter f l) in
  (c <= length l)%nat /\ forall i, (i < length l)%nat -> f (nth i l 0%nat) = (i <? c)%nat.
Proof.
  induction l as [|x l IH]; intros H; cbv zeta; [split; [cbn; lia|intros i I; cbn in I; lia]|]. apply order_tail in H. destruct H as [H1 H2]. destruct (IH H1) as [I1 I2]. cbn [filter].
  destruct (f x) eqn:F; cbn [length].
  - split; [lia|]. intros [|i] I; [exact F|]. cbn [nth]. rewrite I2 by lia. destruct (Nat.ltb_spec i (length (filter f l))), (Nat.ltb_spec (S i) (S (length (filter f l)))); try reflexivity; lia.
  - assert (Z : filter f l = []).
    { clear - mono F H2. induction l as [|y l IH]; [reflexivity|]. inversion H2; subst. cbn. destruct (f y) eqn:Y; [rewrite (mono x y) in F by assumption; discriminate|]. now apply IH. }
    rewrite Z in *. cbn [length] in *. split; [lia|]. intros [|i] I; [exact F|]. cbn [nth]. rewrite I2 by lia. destruct (Nat.ltb_spec i 0), (Nat.ltb_spec (S i) 0); try reflexivity; lia.
Qed.
Section CUTS.
Variables (l : list nat) (n : nat).
Hypothesis (ORD : in_order l) (TOP : forall c, In c l -> (c < n)%nat).
Let cuts := 0%nat :: l ++ [n].
Lemma cut_S i : (i < length l)%nat -> nth (S i) cuts 0%nat = nth i l 0%nat.
Proof. intros H. unfold cuts. cbn [nth]. now rewrite app_nth1. Qed.
Lemma cut_last : nth (S (length l)) cuts 0%nat = n.
Proof. unfold cuts. cbn [nth]. rewrite app_nth2 by lia. now rewrite Nat.sub_diag. Qed.
Lemma cut_le i : (i <= length l)%nat -> (nth i cuts 0 <= nth (S i) cuts 0)%nat.
Proof.
  intros H. destruct i as [|i]; [cbn [nth]; unfold cuts; cbn [nth]; lia|]. rewrite cut_S by lia. destruct (Nat.eq_dec (S i) (length l)) as [E|E].
  - rewrite E, cut_last. pose proof (TOP (nth i l 0%nat) (@nth_In nat i l 0%nat ltac:(lia))). lia.
  - rewrite cut_S by lia. apply ORD. lia.
Qed.
Lemma cut_n i : (i <= S (length l))%nat -> (nth i cuts 0 <= n)%nat.
Proof. intros H. destruct i as [|i]; [cbn; lia|]. destruct (Nat.eq_dec i (length l)) as [->|E]; [rewrite cut_last; lia|]. rewrite cut_S by lia. pose proof (TOP (nth i l 0%nat) (@nth_In nat i l 0%nat ltac:(lia))). lia. Qed.
Lemma seg_le k : (segment l k <= length l)%nat.
Proof. unfold segment. destruct (count_split (fun c => (c <=? k)%nat)) with (l := l) as [H _]; [intros a b A B; apply Nat.leb_le in B; apply Nat.leb_le; lia|exact ORD|exact H]. Qed.
Lemma seg_iff k i : (k < n)%nat -> (i <= length l)%nat -> ((nth i cuts 0 <= k < nth (S i) cuts 0)%nat <-> segment l k = i).
Proof.
  intros K I. destruct (count_split (fun c => (c <=? k)%nat)) with (l := l) as [H1 H2]; [intros a b A B; apply Nat.leb_le in B; apply Nat.leb_le; lia|exact ORD|]. fold (segment l k) in *.
  assert (A : (nth i cuts 0 <= k)%nat <-> (i <= segment l k)%nat).
  { destruct i as [|i]; [split; intros _; [lia|unfold cuts; cbn [nth]; lia]|]. rewrite cut_S by lia. rewrite <- Nat.leb_le, H2, Nat.ltb_lt by lia. lia. }
  assert (B : (k < nth (S i) cuts 0)%nat <-> (segment l k <= i)%nat).
  { destruct (Nat.eq_dec i (length l)) as [->|E]; [rewrite cut_last; lia|]. rewrite cut_S by lia. specialize (H2 i ltac:(lia)).
    destruct (Nat.leb_spec (nth i l 0%nat) k), (Nat.ltb_spec i (segment l k)); try discriminate; lia. }
  lia.
Qed.
Lemma seg_S k : (forall i, segment l (S k) = i -> segment l k = i -> ~ In (S k) l).
Proof.
  intros i E1 E2 IN. assert (X : (segment l k < segment l (S k))%nat); [|lia]. clear - IN. unfold segment. induction l as [|x m IH]; [destruct IN|]. cbn [filter].
  assert (M : (length (filter (fun c => (c <=? k)%nat) m) <= length (filter (fun c => (c <=? S k)%nat) m))%nat).
  { clear. induction m as [|y m IH]; cbn; [lia|]. destruct (Nat.leb_spec y k), (Nat.leb_spec y (S k)); cbn; lia. }
  destruct IN as [->|IN].
  - destruct (Nat.leb_spec (S k) k), (Nat.leb_spec (S k) (S k)); cbn; lia.
  - specialize (IH IN). destruct (Nat.leb_spec x k), (Nat.leb_spec x (S k)); cbn; lia.
Qed.
Lemma find_seg_count : forall (m : list nat) y, in_order m -> find_seg m y = length (filter (fun c => (c <? y)%nat) m).
Proof.
  induction m as [|x m IH]; intros y H; [reflexivity|]. apply order_tail in H. destruct H as [H1 H2]. cbn [find_seg filter]. destruct (Nat.ltb_spec x y); [cbn [length]; rewrite IH by exact H1; reflexivity|].
  clear IH H1. induction H2 as [|z m Z H2 IH]; [reflexivity|]. cbn [filter]. destruct (Nat.ltb_spec z y); [lia|exact IH].
Qed.
End CUTS.
Lemma cuts_order l n : in_order l -> (forall c, In c l -> (c < n)%nat) -> in_order (0%nat :: l ++ [n]).
Proof.
  intros O T i j [H1 H2]. induction H1 as [|j H1 IH]; [lia|]. etransitivity; [apply IH; lia|]. apply cut_le; try assumption. cbn in H2. rewrite app_length in H2. cbn in H2. lia.
Qed.
(** a loop of slice assignments *)
Lemma passes_set (b e : nat -> nat) (f : nat -> nat -> R) m y i k : (k < length y)%nat -> (i < m)%nat -> (forall j, (j < m)%nat -> (b j <= k < e j)%nat <-> j = i) ->
  nth k (fold_left (fun y i => set_slice (b i) (e i) (f i) y) (seq 0 m) y) 0 = f i k.
Proof.
  intros K I U.
  assert (L : forall m, length (fold_left (fun y i => set_slice (b i) (e i) (f i) y) (seq 0 m) y) = length y).
  { clear. induction m as [|m IH]; [reflexivity|]. rewrite seq_S, fold_left_app. cbn [fold_left]. now rewrite set_slice_len. }
  induction m as [|m IH]; [lia|]. rewrite seq_S, fold_left_app. cbn [fold_left Nat.add]. rewrite set_slice_nth by (rewrite L; exact K).
  pose proof (U m ltac:(lia)) as Um. destruct (Nat.eq_dec i m) as [->|N].
  - destruct (Nat.leb_spec (b m) k), (Nat.ltb_spec k (e m)); try lia. reflexivity.
  - rewrite IH; [|lia|intros j J; apply U; lia]. destruct (Nat.leb_spec (b m) k), (Nat.ltb_spec k (e m)); try reflexivity. exfalso. lia.
Qed.
Lemma passes_set_len (b e : nat -> nat) (f : nat -> nat -> R) m y : length (fold_left (fun y i => set_slice (b i) (e i) (f i) y) (seq 0 m) y) = length y.
Proof. induction m as [|m IH]; [reflexivity|]. rewrite seq_S, fold_left_app. cbn [fold_left]. now rewrite set_slice_len. Qed.
(** point assignments *)
Lemma points (g : nat * R -> R) : forall (l : list (nat * R)) y, let out := fold_left (fun y az => upd (fst az) (g az) y) l y in
  length out = length y /\
  (forall k, (k < length y)%nat -> ~ In k (map fst l) -> nth k out 0 = nth k y 0) /\
  (forall az, NoDup (map fst l) -> In az l -> (fst az < length y)%nat -> nth (fst az) out 0 = g az).
Proof.
  induction l as [|[a z] l IH]; intros y; cbv zeta; [split; [reflexivity|]; split; [reflexivity|intros ? _ []]|]. cbn [fold_left map fst].
  destruct (IH (upd a (g (a, z)) y)) as (L & A & B). unfold upd in L. rewrite set_slice_len in L. unfold upd in *. rewrite set_slice_len in *. split; [exact L|]. split.
  - intros k K N. rewrite A; [|exact K|intros X; apply N; right; exact X]. rewrite set_slice_nth by exact K.
    destruct (Nat.leb_spec a k), (Nat.ltb_spec k (S a)); try reflexivity. exfalso. apply N. left. lia.
  - intros az ND IN LT. inversion ND; subst. destruct IN as [<-|IN]; [|now apply B]. cbn [fst] in *. rewrite A by assumption. rewrite set_slice_nth by exact LT.
    destruct (Nat.leb_spec a a), (Nat.ltb_spec a (S a)); try lia. reflexivity.
Qed.
Lemma combine_fst (a : list nat) (b : list R) : length a = length b -> map fst (combine a b) = a.
Proof. revert b. induction a as [|x a IH]; intros [|y b] H; cbn in *; try discriminate; [reflexivity|]. f_equal. apply IH. lia. Qed.
Lemma combine_in (a : list nat) (b : list R) i : (i < length a)%nat -> length a = length b -> In (nth i a 0%nat, nth i b 0) (combine a b).
Proof. intros I H. rewrite <- combine_nth by exact H. apply nth_In. rewrite combine_length. lia. Qed.
Lemma sort_top cps n : (negb (length (sort cps) =? 0)%nat && (n <=? last (sort cps) 0)%nat) = false <-> (forall c, In c cps -> (c < n)%nat).
Proof.
  pose proof (sort_sorted cps) as O. rewrite andb_false_iff, negb_false_iff, Nat.eqb_eq, Nat.leb_gt, last_nth'. split.
  - intros H c C. apply (Permutation_in _ (sort_perm cps)) in C. apply (In_nth _ _ 0%nat) in C. destruct C as (i & I & <-). destruct H as [H|H]; [lia|]. pose proof (O i (length (sort cps) - 1)%nat). lia.
  - intros H. destruct (length (sort cps)) as [|m] eqn:E; [left; reflexivity|right]. apply H. apply (Permutation_in _ (Permutation_sym (sort_perm cps))). apply nth_In. lia.
Qed.
Lemma sort_len cps : length (sort cps) = length cps.
Proof. symmetry. apply Permutation_length, sort_perm. Qed.
Lemma top_ge c cps : In c cps -> (c <= fold_right Nat.max 0 cps)%nat.
Proof. induction cps as [|x l IH]; intros H; [destruct H|]. cbn. destruct H as [->|H]; [lia|]. specialize (IH H). lia. Qed.
Lemma top_in cps : (0 < length cps)%nat -> In (fold_right Nat.max 0%nat cps) cps.
Proof.
  induction cps as [|x l IH]; intros H; [cbn in H; lia|]. destruct l as [|y l]; [left; cbn; lia|]. specialize (IH ltac:(cbn; lia)).
  change (fold_right Nat.max 0%nat (x :: y :: l)) with (Nat.max x (fold_right Nat.max 0 (y :: l))%nat). destruct (Nat.max_spec x (fold_right Nat.max 0%nat (y :: l))) as [[_ ->]|[_ ->]]; [right; exact IH|left; reflexivity].
Qed.

(** A call succeeds, and leaves the simulator as it was, exactly with one level more than change points, all change points and
    anomalies inside the series, and as many z-scores as anomalies. *)
Theorem C153_accepted : forall normals s seed cps levels noise period magnitude anomalies zs s' r,
  level_shift_sim normals s seed cps levels noise period magnitude anomalies zs = (s', r) ->
  ((exists out, r = Some out) <-> length levels = S (length cps) /\ (forall c, In c cps -> (c < n_of s)%nat) /\
     length anomalies = length zs /\ (forall a, In a anomalies -> (a < n_of s)%nat)) /\
  forall out, r = Some out -> s' = s /\ length out = n_of s.
Proof.
  intros normals s seed cps levels noise period magnitude anomalies zs s' r. unfold level_shift_sim. intros H. injection H as HS HR.
  destruct (negb (length cps =? 0)%nat && (n_of s <? fold_right Nat.max 0 cps)%nat) eqn:AD.
  - apply andb_true_iff in AD. destruct AD as [A1 A2]. apply negb_true_iff, Nat.eqb_neq in A1. apply Nat.ltb_lt in A2.
    assert (N : r = None).
    { rewrite <- HR. unfold level_values, adjust_length. cbn [n_of]. destruct (negb (length levels =? _)%nat); [reflexivity|].
      match goal with |- (if ?b then _ else _) = _ => destruct b eqn:E end; [reflexivity|]. exfalso. rewrite sort_top in E. specialize (E _ (top_in cps ltac:(lia))). lia. }
    rewrite N. split; [|discriminate]. split; [intros [out X]; discriminate|]. intros (_ & X & _). specialize (X _ (top_in cps ltac:(lia))). lia.
  - rewrite <- HR, <- HS. clear HR HS r s'. unfold level_values. rewrite sort_len.
    destruct (Nat.eqb_spec (length levels) (S (length cps))) as [L|L]; cbn [negb]; [|split; [|discriminate]; split; [intros [out X]; discriminate|intros (X & _); lia]].
    rewrite <- (sort_len cps). match goal with |- context [if ?b then _ else _] => destruct b eqn:E end.
    { split; [|discriminate]. split; [intros [out X]; discriminate|]. intros (_ & X & _). apply sort_top in X. congruence. }
    rewrite sort_top in E. destruct (Nat.eqb_spec (length anomalies) (length zs)) as [Z|Z]; cbn [negb]; [|split; [|discriminate]; split; [intros [out X]; discriminate|intros (_ & _ & X & _); lia]].
    destruct (forallb (fun a => (a <? n_of s)%nat) anomalies) eqn:FA.
    + rewrite forallb_forall in FA. split.
      * split; [intros _|intros _; eexists; reflexivity]. rewrite sort_len. split; [exact L|]. split; [exact E|]. split; [exact Z|]. intros a A. apply Nat.ltb_lt, FA, A.
      * intros out X. injection X as <-. split; [reflexivity|]. rewrite add_slice_len. match goal with |- context [fold_left ?f (combine _ _) ?y] => pose proof (proj1 (points (fun az => level_before levels (find_seg (0%nat :: sort cps ++ [n_of s]) (fst az)) + snd az * noise) (combine anomalies zs) y)) as P end.
        cbv zeta in P. etransitivity; [exact P|]. rewrite passes_set_len. apply repeat_length.
    + split; [|discriminate]. split; [intros [out X]; discriminate|]. intros (_ & _ & _ & X). exfalso. assert (forallb (fun a => (a <? n_of s)%nat) anomalies = true) by (apply forallb_forall; intros a A; apply Nat.ltb_lt, X, A). congruence.
Qed.
(** The values: level of the segment plus noise plus season; *)
Lemma level_form : forall normals s seed cps levels noise period magnitude anomalies zs s' out,
  level_shift_sim normals s seed cps levels noise period magnitude anomalies zs = (s', Some out) ->
  (forall k, (k < n_of s)%nat -> ~ In k anomalies -> nth k out 0 = nth (segment cps k) levels 0 + noise * normals seed k + season magnitude period k) /\
  (forall i, NoDup anomalies -> (i < length anomalies)%nat -> let a := nth i anomalies 0%nat in
     nth a out 0 = level_before levels (find_seg (0%nat :: sort cps ++ [n_of s]) a) + nth i zs 0 * noise + season magnitude period a).
Proof.
  intros normals s seed cps levels noise period magnitude anomalies zs s' out H.
  destruct (C153_accepted _ _ _ _ _ _ _ _ _ _ _ _ H) as [A1 A2]. destruct (proj1 A1 (ex_intro _ out eq_refl)) as (L & C & Z & AN). destruct (A2 out eq_refl) as [_ LO]. clear A1 A2.
  unfold level_shift_sim in H. injection H as HS HR.
  destruct (negb (length cps =? 0)%nat && (n_of s <? fold_right Nat.max 0 cps)%nat) eqn:AD.
  { apply andb_true_iff in AD. destruct AD as [A1 A2]. apply negb_true_iff, Nat.eqb_neq in A1. apply Nat.ltb_lt in A2. specialize (C _ (top_in cps ltac:(lia))). lia. }
  unfold level_values in HR. rewrite sort_len, L, Nat.eqb_refl in HR. cbn [negb] in HR. rewrite <- (sort_len cps) in HR. rewrite (proj2 (sort_top cps (n_of s)) C) in HR. rewrite Z, Nat.eqb_refl in HR. cbn [negb] in HR.
  destruct (forallb (fun a => (a <? n_of s)%nat) anomalies); [|discriminate]. injection HR as HR.
  set (cuts := 0%nat :: sort cps ++ [n_of s]) in *.
  set (y0 := fold_left (fun y i => set_slice (nth i cuts 0%nat) (nth (S i) cuts 0%nat) (fun k => nth i levels 0 + noise * normals seed k) y) (seq 0 (length cuts - 1)) (repeat 1 (n_of s))) in HR.
  assert (L0 : length y0 = n_of s) by (unfold y0; rewrite passes_set_len; apply repeat_length).
  destruct (points (fun az => level_before levels (find_seg cuts (fst az)) + snd az * noise) (combine anomalies zs) y0) as (P1 & P2 & P3). rewrite combine_fst in * by exact Z.
  set (y1 := fold_left _ (combine anomalies zs) y0) in *. rewrite L0 in P1, P2, P3. assert (P1' : length y1 = n_of s) by exact P1.
  assert (C' : forall c, In c (sort cps) -> (c < n_of s)%nat) by (intros c X; apply C; apply (Permutation_in _ (Permutation_sym (sort_perm cps))); exact X).
  assert (OUT : forall k, (k < n_of s)%nat -> nth k out 0 = nth k y1 0 + season magnitude period k).
  { intros k K. assert (HR' : out = add_slice 0 (n_of s) (season magnitude period) y1) by (symmetry; exact HR). rewrite HR', add_slice_nth by lia. destruct (Nat.leb_spec 0 k), (Nat.ltb_spec k (n_of s)); try lia. reflexivity. }
  split.
  - intros k K N. rewrite OUT by exact K. f_equal. rewrite P2 by assumption. unfold y0.
    rewrite (passes_set (fun i => nth i cuts 0%nat) (fun i => nth (S i) cuts 0%nat) (fun i k => nth i levels 0 + noise * normals seed k) _ _ (segment cps k)); [reflexivity|rewrite repeat_length; exact K| |].
    + rewrite <- segment_sort. pose proof (seg_le (sort cps) (sort_sorted cps) k). unfold cuts. cbn [length]. rewrite app_length. cbn [length]. lia.
    + intros j J. unfold cuts in J. cbn [length] in J. rewrite app_length in J. cbn [length] in J. rewrite <- segment_sort. unfold cuts. rewrite (seg_iff (sort cps) (n_of s) (sort_sorted cps) k j K) by lia. split; congruence.
  - intros i ND I. cbv zeta. pose proof (AN _ (nth_In anomalies 0%nat I)) as AI. rewrite OUT by exact AI. f_equal. exact (P3 (nth i anomalies 0%nat, nth i zs 0) ND (combine_in _ _ _ I Z) AI).
Qed.
Lemma season_eq m p k : season m p k = m * sin (PI * INR k / INR p).
Proof. unfold season. f_equal. f_equal. unfold Rdiv. ring. Qed.
Theorem C153_levels : forall normals s seed cps levels noise period magnitude anomalies zs s' out,
  level_shift_sim normals s seed cps levels noise period magnitude anomalies zs = (s', Some out) ->
  forall k, (k < n_of s)%nat -> ~ In k anomalies ->
  nth k out 0 = nth (segment cps k) levels 0 + noise * normals seed k + magnitude * sin (PI * INR k / INR period).
Proof.
  intros normals s seed cps levels noise period magnitude anomalies zs s' out H k K N. rewrite (proj1 (level_form _ _ _ _ _ _ _ _ _ _ _ _ H) k K N). rewrite season_eq. reflexivity.
Qed.
(** at an anomaly that is not a change point and not the first row, the level of the segment plus z-score times noise; *)
Lemma seg_before cps n a : (forall c, In c cps -> (c < n)%nat) -> (0 < a < n)%nat -> find_seg (0%nat :: sort cps ++ [n]) a = S (length (filter (fun c => (c <? a)%nat) cps)).
Proof.
  intros C A. rewrite find_seg_count by (apply cuts_order; [apply sort_sorted|intros c X; apply C; apply (Permutation_in _ (Permutation_sym (sort_perm cps))); exact X]).
  cbn [filter]. destruct (Nat.ltb_spec 0 a); [|lia]. cbn [length]. f_equal. rewrite filter_app, app_length. cbn [filter]. destruct (Nat.ltb_spec n a); [lia|]. cbn [length]. rewrite Nat.add_0_r.
  symmetry. apply filter_perm, sort_perm.
Qed.
Theorem C153_anomaly_partial : forall normals s seed cps levels noise period magnitude anomalies zs s' out,
  level_shift_sim normals s seed cps levels noise period magnitude anomalies zs = (s', Some out) -> NoDup anomalies ->
  forall i, (i < length anomalies)%nat -> let a := nth i anomalies 0%nat in a <> 0%nat -> ~ In a cps ->
  nth a out 0 = nth (segment cps a) levels 0 + nth i zs 0 * noise + magnitude * sin (PI * INR a / INR period).
Proof.
  intros normals s seed cps levels noise period magnitude anomalies zs s' out H ND i I. cbv zeta. intros N0 NI.
  destruct (C153_accepted _ _ _ _ _ _ _ _ _ _ _ _ H) as [A1 _]. destruct (proj1 A1 (ex_intro _ out eq_refl)) as (_ & C & _ & AN).
  pose proof (AN _ (nth_In anomalies 0%nat I)) as AI. rewrite (proj2 (level_form _ _ _ _ _ _ _ _ _ _ _ _ H) i ND I). rewrite seg_before by (try exact C; lia). unfold level_before. rewrite season_eq.
  do 2 f_equal. f_equal. unfold segment. set (a := nth i anomalies 0%nat) in *. clear - NI. induction cps as [|x l IH]; [reflexivity|]. cbn [filter].
  specialize (IH (fun X => NI (or_intror X))). destruct (Nat.ltb_spec x a), (Nat.leb_spec x a); cbn [length]; try lia. exfalso. apply NI. left. lia.
Qed.
(** but an anomaly at a change point is placed on the level before it, and one at the first row on the last level. *)
Theorem C153_anomaly_refuted : forall normals s seed cps levels noise period magnitude anomalies zs s' out,
  level_shift_sim normals s seed cps levels noise period magnitude anomalies zs = (s', Some out) -> NoDup anomalies ->
  forall i, (i < length anomalies)%nat -> let a := nth i anomalies 0%nat in
  (a = 0%nat -> nth a out 0 = last levels 0 + nth i zs 0 * noise) /\
  ((0 < a)%nat -> In a cps -> NoDup cps -> nth a out 0 = nth (segment cps a - 1) levels 0 + nth i zs 0 * noise + magnitude * sin (PI * INR a / INR period)).
Proof.
  intros normals s seed cps levels noise period magnitude anomalies zs s' out H ND i I. cbv zeta.
  destruct (C153_accepted _ _ _ _ _ _ _ _ _ _ _ _ H) as [A1 _]. destruct (proj1 A1 (ex_intro _ out eq_refl)) as (_ & C & _ & AN).
  pose proof (AN _ (nth_In anomalies 0%nat I)) as AI. rewrite (proj2 (level_form _ _ _ _ _ _ _ _ _ _ _ _ H) i ND I). set (a := nth i anomalies 0%nat) in *. split.
  - intros ->. cbn [find_seg Nat.ltb Nat.leb level_before]. unfold season. cbn [INR]. rewrite Rmult_0_r, sin_0. lra.
  - intros A0 AC NC. rewrite seg_before by (try exact C; lia). unfold level_before. rewrite season_eq. do 2 f_equal. f_equal. unfold segment.
    assert (X : length (filter (fun c => (c <=? a)%nat) cps) = S (length (filter (fun c => (c <? a)%nat) cps))); [|lia].
    clear - AC NC. induction cps as [|x l IH]; [destruct AC|]. inversion NC; subst. cbn [filter]. destruct AC as [->|AC].
    + destruct (Nat.ltb_spec a a), (Nat.leb_spec a a); try lia. cbn [length]. f_equal. clear - H1. induction l as [|y l IH]; [reflexivity|]. cbn [filter].
      specialize (IH (fun X => H1 (or_intror X))). destruct (Nat.ltb_spec y a), (Nat.leb_spec y a); cbn [length]; try lia. exfalso. apply H1. left. lia.
    + specialize (IH AC H2). assert (x <> a) by (intros ->; contradiction). destruct (Nat.ltb_spec x a), (Nat.leb_spec x a); cbn [length]; lia.
Qed.
(** The season: after one period it is reversed; the period is twice the one asked for. *)
Theorem C153_period_refuted : forall magnitude period k, (0 < period)%nat ->
  season magnitude period (k + period) = - season magnitude period k /\ season magnitude period (k + 2 * period) = season magnitude period k.
Proof.
  intros m p k P. assert (P0 : INR p <> 0) by (apply not_0_INR; lia). unfold season. split.
  - rewrite plus_INR. replace (PI / INR p * (INR k + INR p)) with (PI / INR p * INR k + PI) by (field; exact P0). rewrite neg_sin. ring.
  - rewrite plus_INR, mult_INR. replace (PI / INR p * (INR k + INR 2 * INR p)) with (PI / INR p * INR k + 2 * INR 1 * PI) by (cbn [INR]; field; exact P0). now rewrite sin_period.
Qed.
(** A change point beyond the length: the simulator is lengthened, the call raises all the same, and afterwards the simulator
    cannot return its series. *)
Theorem C153_length_refuted : forall normals n seed cps levels noise period magnitude anomalies zs,
  (exists c, In c cps /\ (n < c)%nat) ->
  exists s', level_shift_sim normals (new_simulator n) seed cps levels noise period magnitude anomalies zs = (s', None) /\
    stl_sim (new_simulator n) <> None /\ stl_sim s' = None.
Proof.
  intros normals n seed cps levels noise period magnitude anomalies zs (c & C & N).
  destruct (level_shift_sim normals (new_simulator n) seed cps levels noise period magnitude anomalies zs) as [s' r] eqn:H. exists s'. split; [|split].
  - destruct r as [out|]; [|reflexivity]. destruct (C153_accepted _ _ _ _ _ _ _ _ _ _ _ _ H) as [A1 _]. destruct (proj1 A1 (ex_intro _ out eq_refl)) as (_ & X & _). specialize (X c C). cbn in X. lia.
  - unfold stl_sim, new_simulator. cbn. rewrite repeat_length, Nat.eqb_refl. discriminate.
  - unfold level_shift_sim in H. injection H as HS _. pose proof (top_ge c cps C) as T. cbn [n_of new_simulator] in HS.
    destruct (Nat.eqb_spec (length cps) 0) as [E|E]; [destruct cps; [destruct C|discriminate]|]. cbn [negb andb] in HS. destruct (Nat.ltb_spec n (fold_right Nat.max 0%nat cps)); [|lia].
    rewrite <- HS. unfold stl_sim, adjust_length, new_simulator. cbn. rewrite repeat_length. destruct (Nat.eqb_spec n (fold_right Nat.max 0%nat cps)); [lia|reflexivity].
Qed.
Example C153_case : exists s', level_shift_sim (fun _ _ => 0) (new_simulator 4) 7 [2]%nat [10; 20] 1 3 0 [0; 2]%nat [1; 1] = (s', Some [21; 10; 11; 20]).
Proof. eexists. unfold level_shift_sim. cbn. unfold season. repeat (f_equal; try lra). Qed.

(** The trend: starts at the intercept, rises by the trend of the segment, and repeats a value at every change point.  For
    change points other than the first row. *)
Theorem C154_trend_partial : forall draw s seed cps trends intercept noise period magnitude anomalies zs,
  ~ In 0%nat cps ->
  ((exists out, trend_shift_sim draw s seed cps trends intercept noise period magnitude anomalies zs = Some out) <->
     length trends = S (length cps) /\ (forall c, In c cps -> (c < n_of s)%nat) /\ length anomalies = length zs /\ (forall a, In a anomalies -> (a < n_of s)%nat)) /\
  forall out, trend_shift_sim draw s seed cps trends intercept noise period magnitude anomalies zs = Some out -> length out = n_of s /\
  exists base, ((0 < n_of s)%nat -> base 0%nat = intercept) /\
  (forall k, (S k < n_of s)%nat -> ~ In (S k) cps -> base (S k) - base k = nth (segment cps k) trends 0) /\
  (forall k, (S k < n_of s)%nat -> In (S k) cps -> base (S k) = base k) /\
  (forall k, (k < n_of s)%nat -> ~ In k anomalies -> nth k out 0 = base k + magnitude * sin (PI * INR k / INR period) + noise * draw k) /\
  (forall i, NoDup anomalies -> (i < length anomalies)%nat -> let a := nth i anomalies 0%nat in
     nth a out 0 = base a + magnitude * sin (PI * INR a / INR period) + nth i zs 0 * noise).
Proof.
  intros draw s seed cps trends intercept noise period magnitude anomalies zs NZ. unfold trend_shift_sim. rewrite sort_len.
  destruct (Nat.eqb_spec (length trends) (S (length cps))) as [L|L]; cbn [negb]; [|split; [|discriminate]; split; [intros [out X]; discriminate|intros (X & _); lia]].
  rewrite <- (sort_len cps). match goal with |- context [if ?b then _ else _] => destruct b eqn:E end.
  { split; [|discriminate]. split; [intros [out X]; discriminate|]. intros (_ & X & _). apply sort_top in X. congruence. }
  rewrite sort_top in E. destruct (Nat.eqb_spec (length anomalies) (length zs)) as [Z|Z]; cbn [negb]; [|split; [|discriminate]; split; [intros [out X]; discriminate|intros (_ & _ & X & _); lia]].
  destruct (forallb (fun a => (a <? n_of s)%nat) anomalies) eqn:FA.
  2: { split; [|discriminate]. split; [intros [out X]; discriminate|]. intros (_ & _ & _ & X). exfalso. assert (forallb (fun a => (a <? n_of s)%nat) anomalies = true) by (apply forallb_forall; intros a A; apply Nat.ltb_lt, X, A). congruence. }
  rewrite forallb_forall in FA. assert (AN : forall a, In a anomalies -> (a < n_of s)%nat) by (intros a A; apply Nat.ltb_lt, FA, A). clear FA.
  split. { rewrite sort_len. split; [intros _; split; [exact L|]; split; [exact E|]; split; assumption|intros _; eexists; reflexivity]. }
  intros out H. injection H as HR. set (n := n_of s) in *. set (l := sort cps) in *. set (cuts := 0%nat :: l ++ [n]) in *.
  assert (O : in_order l) by apply sort_sorted.
  assert (C' : forall c, In c l <-> In c cps) by (intros c; split; apply Permutation_in; [apply Permutation_sym|]; apply sort_perm).
  assert (CL : forall c, In c l -> (c < n)%nat) by (intros c X; apply E, C', X).
  assert (LL : length l = length cps) by apply sort_len.
  assert (CT : (length cuts - 1 = S (length l))%nat) by (unfold cuts; cbn [length]; rewrite app_length; cbn [length]; lia).
  set (noises := fold_left (fun v az => upd (fst az) (snd az * noise) v) (combine anomalies zs) (map (fun k => noise * draw k) (seq 0 n))) in HR.
  assert (HR' : out = add_slice 0 n (fun k => nth k noises 0) (add_slice 0 n (season magnitude period) (fold_left (trend_pass cuts trends) (seq 0 (S (length l))) (repeat intercept n)))) by (rewrite <- CT; symmetry; exact HR).
  clear HR.
  assert (INV : forall m, (m <= S (length l))%nat -> let y := fold_left (trend_pass cuts trends) (seq 0 m) (repeat intercept n) in
     length y = n /\ (forall k, (nth m cuts 0 <= k < n)%nat -> nth k y 0 = intercept) /\ ((0 < nth m cuts 0)%nat -> nth 0 y 0 = intercept) /\
     (forall k, (S k < nth m cuts 0)%nat -> ~ In (S k) cps -> nth (S k) y 0 - nth k y 0 = nth (segment cps k) trends 0) /\
     (forall k, (S k < nth m cuts 0)%nat -> In (S k) cps -> nth (S k) y 0 = nth k y 0)).
  { induction m as [|m IH]; intros M; cbv zeta.
    - cbn [seq fold_left]. rewrite repeat_length. split; [reflexivity|]. split; [intros k K; rewrite nth_indep with (d' := intercept) by (rewrite repeat_length; lia); apply nth_repeat|].
      unfold cuts. cbn [nth]. split; [lia|]. split; intros; lia.
    - destruct (IH ltac:(lia)) as (I1 & I2 & I3 & I4 & I5). clear IH. rewrite seq_S, fold_left_app. cbn [fold_left Nat.add].
      set (y := fold_left (trend_pass cuts trends) (seq 0 m) (repeat intercept n)) in *.
      assert (CLE : (nth m cuts 0 <= nth (S m) cuts 0)%nat) by (apply (cut_le l n O CL); lia).
      assert (CN : (nth (S m) cuts 0 <= n)%nat) by (apply (cut_n l n CL); lia).
      assert (SEG : forall k, (k < n)%nat -> (nth m cuts 0 <= k < nth (S m) cuts 0)%nat -> segment cps k = m).
      { intros k K R0. rewrite <- segment_sort. apply (seg_iff l n O k m K); [lia|exact R0]. }
      assert (NIN : forall k, (nth m cuts 0 <= k)%nat -> (S k < nth (S m) cuts 0)%nat -> ~ In (S k) cps).
      { intros k K1 K2. rewrite <- C'. apply (seg_S l k m); unfold l; rewrite segment_sort; apply SEG; lia. }
      assert (FORM : exists c, forall k, (k < n)%nat -> nth k (trend_pass cuts trends y m) 0 = (if (nth m cuts 0 <=? k)%nat && (k <? nth (S m) cuts 0)%nat then nth k y 0 + nth m trends 0 * INR k - c else nth k y 0) /\
          (m = 0%nat -> c = 0) /\ ((0 < m)%nat -> (nth m cuts 0 < nth (S m) cuts 0)%nat -> nth m trends 0 * INR (nth m cuts 0%nat) + intercept - c = nth (nth m cuts 0 - 1)%nat y 0)).
      { unfold trend_pass. destruct m as [|m'].
        - exists 0. intros k K. split; [|split; [reflexivity|lia]]. rewrite add_slice_nth by lia. destruct (_ && _); lra.
        - set (mm := S m') in *. set (b := nth mm cuts 0%nat) in *. set (e := nth (S mm) cuts 0%nat) in *.
          assert (BP : (0 < b)%nat). { unfold b, mm. unfold cuts. rewrite (cut_S l n m') by lia. assert (INB : In (nth m' l 0%nat) l) by (apply nth_In; lia). apply C' in INB. destruct (nth m' l 0%nat); [contradiction|lia]. }
          set (y' := add_slice b e (fun k => nth mm trends 0 * INR k) y).
          assert (Y' : forall k, (k < n)%nat -> nth k y' 0 = if (b <=? k)%nat && (k <? e)%nat then nth k y 0 + nth mm trends 0 * INR k else nth k y 0) by (intros k K; unfold y'; rewrite add_slice_nth by lia; reflexivity).
          assert (LY : length y' = n) by (unfold y'; rewrite add_slice_len; exact I1).
          replace (match b with O => last y' 0 | S b0 => nth b0 y' 0 end) with (nth (b - 1) y' 0) by (destruct b; [lia|]; cbn [Nat.sub]; rewrite Nat.sub_0_r; reflexivity).
          exists (nth b y' 0 - nth (b - 1) y' 0). intros k K. split; [|split; [discriminate|]].
          + rewrite add_slice_nth by lia. rewrite Y' by exact K. destruct (_ && _); lra.
          + intros _ BE. rewrite (Y' b), (Y' (b - 1)%nat) by lia. destruct (Nat.leb_spec b b), (Nat.ltb_spec b e), (Nat.leb_spec b (b - 1)); try lia. cbn [andb].
            rewrite (I2 b) by lia. lra. }
      destruct FORM as [c FORM]. set (z := trend_pass cuts trends y m) in *.
      assert (LZ : length z = n). { unfold z, trend_pass. destruct m; rewrite !add_slice_len; exact I1. }
      set (b := nth m cuts 0%nat) in *. set (e := nth (S m) cuts 0%nat) in *.
      assert (OLD : forall k, (k < b)%nat -> nth k z 0 = nth k y 0) by (intros k K; destruct (FORM k ltac:(lia)) as [-> _]; destruct (Nat.leb_spec b k); [lia|reflexivity]).
      assert (NEW : forall k, (b <= k < e)%nat -> nth k z 0 = intercept + nth m trends 0 * INR k - c).
      { intros k K. destruct (FORM k ltac:(lia)) as [-> _]. destruct (Nat.leb_spec b k), (Nat.ltb_spec k e); try lia. cbn [andb]. rewrite I2 by lia. reflexivity. }
      split; [exact LZ|]. split; [|split; [|split]].
      + intros k K. destruct (FORM k ltac:(lia)) as [-> _]. destruct (Nat.leb_spec b k), (Nat.ltb_spec k e); try lia. cbn [andb]. apply I2. lia.
      + intros E0. destruct (Nat.eq_dec b 0) as [B0|B0].
        * rewrite NEW by lia. destruct (FORM 0%nat ltac:(lia)) as (_ & F1 & _). cbn [INR]. destruct m as [|m']; [rewrite (F1 eq_refl); lra|]. exfalso.
          unfold b, cuts in B0. rewrite (cut_S l n m') in B0 by lia. apply NZ. apply C'. rewrite <- B0. apply nth_In. lia.
        * rewrite OLD by lia. apply I3. lia.
      + intros k K NI. destruct (Nat.lt_ge_cases (S k) b) as [X|X]; [rewrite !OLD by lia; apply I4; assumption|].
        destruct (Nat.eq_dec (S k) b) as [Y|Y].
        * exfalso. destruct m as [|m']; [unfold b, cuts in Y; cbn in Y; lia|]. apply NI. rewrite Y. unfold b, cuts. rewrite (cut_S l n m') by lia. apply C'. apply nth_In. lia.
        * rewrite !NEW by lia. rewrite (SEG k) by lia. rewrite S_INR. lra.
      + intros k K IN. destruct (Nat.lt_ge_cases (S k) b) as [X|X]; [rewrite !OLD by lia; apply I5; assumption|].
        destruct (Nat.eq_dec (S k) b) as [Y|Y]; [|exfalso; apply (NIN k); [lia|exact K|exact IN]].
        rewrite (NEW (S k)), (OLD k) by lia. destruct (FORM (S k) ltac:(lia)) as (_ & _ & F2). destruct m as [|m']; [unfold b, cuts in Y; cbn in Y; lia|].
        specialize (F2 ltac:(lia) ltac:(lia)). rewrite <- Y in F2. replace (S k - 1)%nat with k in F2 by lia. lra. }
  specialize (INV (S (length l)) (Nat.le_refl _)). cbv zeta in INV. set (y := fold_left (trend_pass cuts trends) (seq 0 (S (length l))) (repeat intercept n)) in *.
  assert (CLAST : nth (S (length l)) cuts 0%nat = n) by apply cut_last. rewrite CLAST in INV. destruct INV as (I1 & _ & I3 & I4 & I5).
  destruct (points (fun az => snd az * noise) (combine anomalies zs) (map (fun k => noise * draw k) (seq 0 n))) as (P1 & P2 & P3). rewrite combine_fst in * by exact Z. rewrite map_length, seq_length in P1, P2, P3.
  fold noises in P1, P2, P3.
  assert (OUT : forall k, (k < n)%nat -> nth k out 0 = nth k y 0 + season magnitude period k + nth k noises 0).
  { intros k K. rewrite HR', !add_slice_nth by (rewrite ?add_slice_len; lia). destruct (Nat.leb_spec 0 k), (Nat.ltb_spec k n); try lia. cbn [andb]. reflexivity. }
  split; [rewrite HR', !add_slice_len; exact I1|]. exists (fun k => nth k y 0). split; [exact I3|]. split; [exact I4|]. split; [exact I5|]. split.
  - intros k K N. rewrite OUT, season_eq by exact K. f_equal. rewrite P2 by assumption. now rewrite nth_tab.
  - intros i ND I. cbv zeta. pose proof (AN _ (nth_In anomalies 0%nat I)) as AI. rewrite OUT, season_eq by exact AI. f_equal. exact (P3 (nth i anomalies 0%nat, nth i zs 0) ND (combine_in _ _ _ I Z) AI).
Qed.
(** With the first row as a change point the series does not start at the intercept; *)
Theorem C154_first_row_refuted : forall s seed a b intercept period, n_of s = 2%nat -> b <> 0 ->
  trend_shift_sim (fun _ => 0) s seed [0]%nat [a; b] intercept 0 period 0 [] [] = Some [intercept + b; intercept + 2 * b] .
Proof.
  intros s seed a b c period N B. unfold trend_shift_sim. rewrite N. cbn. unfold season. f_equal. repeat (f_equal; try lra).
Qed.
(** and the seed has no effect: two calls with the same seed give different series if the generator is in different states. *)
Theorem C154_seed_refuted : forall (draw1 draw2 : nat -> R) s seed trend intercept noise period magnitude, (0 < n_of s)%nat -> noise <> 0 ->
  draw1 0%nat <> draw2 0%nat ->
  trend_shift_sim draw1 s seed [] [trend] intercept noise period magnitude [] [] <> trend_shift_sim draw2 s seed [] [trend] intercept noise period magnitude [] [].
Proof.
  intros d1 d2 s seed t c noise period m N NZ D H.
  assert (V : forall d, exists out, trend_shift_sim d s seed [] [t] c noise period m [] [] = Some out /\ nth 0 out 0 = c + noise * d 0%nat).
  { intros d. destruct (C154_trend_partial d s seed [] [t] c noise period m [] [] (fun x => x)) as [A B]. destruct (proj2 A) as [out E]; [repeat split; try reflexivity; intros ? []|].
    exists out. split; [exact E|]. destruct (B out E) as (_ & base & B1 & _ & _ & B4 & _). rewrite (B4 0%nat N (fun x => x)), (B1 N). cbn [INR]. rewrite Rmult_0_r. unfold Rdiv. rewrite Rmult_0_l, sin_0. lra. }
  destruct (V d1) as (o1 & E1 & F1), (V d2) as (o2 & E2 & F2). rewrite E1, E2 in H. injection H as H. rewrite H, F2 in F1. apply D. apply (Rmult_eq_reg_l noise); [lra|exact NZ].
Qed.
Example C154_case : trend_shift_sim (fun _ => 0) (new_simulator 5) 7 [2]%nat [1; 10] 100 1 3 0 [4]%nat [5] = Some [100; 101; 101; 111; 126].
Proof. unfold trend_shift_sim. cbn. unfold season. f_equal. repeat (f_equal; try lra). Qed.

Print Assumptions C153_accepted.
Print Assumptions C153_levels.
Print Assumptions C153_anomaly_partial.
Print Assumptions C153_anomaly_refuted.
Print Assumptions C153_period_refuted.
Print Assumptions C153_length_refuted.
Print Assumptions C154_trend_partial.
Print Assumptions C154_first_row_refuted.
Print Assumptions C154_seed_refuted.
