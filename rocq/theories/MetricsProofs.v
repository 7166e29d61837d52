(** Lemmas for C32-C34 and C80-C84. *)
From Verif Require Import Common BacktestModel MetricsModel MetricsSpec.
From Coq Require Import Lqa Lia.
Open Scope nat_scope.

Lemma qle_false x y : Qle_bool x y = false -> (y < x)%Q.
Proof. intros H. destruct (Qlt_le_dec y x) as [L|L]; [exact L|]. apply Qle_bool_iff in L. congruence. Qed.
Lemma qle_true x y : Qle_bool x y = true -> (x <= y)%Q.
Proof. apply Qle_bool_iff. Qed.
Lemma qlt_true x y : qlt x y = true <-> (x < y)%Q.
Proof.
  unfold qlt. rewrite negb_true_iff. split; [apply qle_false|].
  intros H. destruct (Qle_bool y x) eqn:E; [apply qle_true in E; lra|reflexivity].
Qed.
Lemma qlt_false x y : qlt x y = false <-> (y <= x)%Q.
Proof.
  unfold qlt. rewrite negb_false_iff. apply Qle_bool_iff.
Qed.
Lemma qeq_true x y : Qeq_bool x y = true -> (x == y)%Q.
Proof. apply Qeq_bool_iff. Qed.
Lemma qeq_false x y : Qeq_bool x y = false -> ~ (x == y)%Q.
Proof. intros H E. apply Qeq_bool_iff in E. congruence. Qed.

Lemma len_pos {A} (l : list A) : l <> [] -> (0 < inject_Z (Z.of_nat (length l)))%Q.
Proof. intros H. destruct l; [congruence|]. rewrite <- (Zlt_Qlt 0). cbn [length]. lia. Qed.
Lemma arrays2_eq {A B} (a : list A) (b : list B) : length a = length b -> arrays2 a b = Some (combine a b).
Proof. intros H. unfold arrays2. rewrite H, Nat.eqb_refl. reflexivity. Qed.
Lemma arrays2_neq {A B} (a : list A) (b : list B) : length a <> length b -> arrays2 a b = None.
Proof. intros H. unfold arrays2. apply Nat.eqb_neq in H. rewrite H. reflexivity. Qed.
Lemma arrays3_eq {A B C} (a : list A) (b : list B) (c : list C) : length a = length b -> length a = length c ->
  arrays3 a b c = Some (combine (combine a b) c).
Proof. intros H1 H2. unfold arrays3. rewrite <- H1, <- H2, Nat.eqb_refl. reflexivity. Qed.

(** *** nanmean *)
Lemma nanmean_is_mean l : is_mean (nanmean l) (non_nan l).
Proof.
  unfold nanmean. destruct (non_nan l) as [|x t]; [reflexivity|]. cbn [is_mean]. split; [discriminate|].
  rewrite Qmult_comm, Qmult_div_r; [reflexivity|].
  intros E. pose proof (len_pos (x :: t) ltac:(discriminate)) as P. rewrite E in P. lra.
Qed.
Lemma is_mean_bounds r l lo hi : is_mean r l -> (forall x, In x l -> lo <= x /\ x <= hi)%Q ->
  forall v, r = Some v -> (lo <= v /\ v <= hi)%Q.
Proof.
  intros M H v ->. destruct M as [N E]. pose proof (len_pos l N) as P.
  assert (G : (lo * inject_Z (Z.of_nat (length l)) <= qsum l <= hi * inject_Z (Z.of_nat (length l)))%Q).
  { clear - H. induction l as [|x t IH]; [change (inject_Z (Z.of_nat (length (@nil Q)))) with 0%Q; cbn [qsum]; lra|]. cbn [length qsum].
    rewrite Nat2Z.inj_succ. unfold Z.succ. rewrite inject_Z_plus. change (inject_Z 1) with 1%Q.
    specialize (IH (fun y Hy => H y (or_intror Hy))). specialize (H x (or_introl eq_refl)).
    set (k := inject_Z (Z.of_nat (length t))) in *. clearbody k. lra. }
  set (k := inject_Z (Z.of_nat (length l))) in *. clearbody k. split.
  - apply (Qmult_le_r lo v k P). lra.
  - apply (Qmult_le_r v hi k P). lra.
Qed.
Lemma is_mean_nonneg r l : is_mean r l -> (forall x, In x l -> 0 <= x)%Q ->
  forall v, r = Some v -> (0 <= v)%Q.
Proof.
  intros M H v ->. destruct M as [N E]. pose proof (len_pos l N) as P. pose proof (qsum_nonneg l H).
  apply (Qmult_le_r 0 v _ P). lra.
Qed.
Lemma qsum_zero_iff l : (forall x, In x l -> 0 <= x)%Q -> (qsum l == 0)%Q <-> (forall x, In x l -> x == 0)%Q.
Proof.
  induction l as [|x t IH]; intros H; cbn [qsum].
  - split; [intros _ x []|reflexivity].
  - pose proof (qsum_nonneg t (fun y Hy => H y (or_intror Hy))) as P.
    pose proof (H x (or_introl eq_refl)) as Px. specialize (IH (fun y Hy => H y (or_intror Hy))).
    split.
    + intros E y [<-|Hy]; [lra|]. apply IH; [lra|exact Hy].
    + intros G. rewrite (G x (or_introl eq_refl)). rewrite (proj2 IH); [ring|]. intros y Hy. apply G. right. exact Hy.
Qed.
Lemma is_mean_zero r l : is_mean r l -> (forall x, In x l -> 0 <= x)%Q ->
  forall v, r = Some v -> (v == 0 <-> forall x, In x l -> x == 0)%Q.
Proof.
  intros M H v ->. destruct M as [N E]. pose proof (len_pos l N) as P.
  rewrite <- (qsum_zero_iff l H), <- E. split; [intros ->; ring|].
  intros Z. apply Qmult_integral in Z as [Z|Z]; [exact Z|]. rewrite Z in P. lra.
Qed.

(** *** strict metrics look only at complete pairs *)
Definition strict (g : cell * cell -> cell) (h : Q -> Q -> Q) : Prop :=
  forall a b, g (a, b) = match a, b with Some x, Some y => Some (h x y) | _, _ => None end.
Lemma strict_values g h yt yp : strict g h ->
  non_nan (map g (combine yt yp)) = map (fun p => h (fst p) (snd p)) (present yt yp).
Proof.
  intros H. unfold present, non_nan. induction (combine yt yp) as [|[a b] t IH]; [reflexivity|].
  cbn [map flat_map]. rewrite IH, H, map_app. destruct a, b; reflexivity.
Qed.
Lemma strict_mean g h yt yp : strict g h ->
  is_mean (nanmean (map g (combine yt yp))) (map (fun p => h (fst p) (snd p)) (present yt yp)).
Proof. intros H. rewrite <- (strict_values g h) by exact H. apply nanmean_is_mean. Qed.
Lemma err1_strict : strict err1 Qminus.
Proof. intros [x|] [y|]; reflexivity. Qed.
Lemma abs_err1_strict : strict abs_err1 (fun x y => Qabs (x - y)).
Proof. intros [x|] [y|]; reflexivity. Qed.
Lemma sq_err1_strict : strict sq_err1 (fun x y => (x - y) * (x - y))%Q.
Proof. intros [x|] [y|]; reflexivity. Qed.
Lemma pinball1_strict t : strict (pinball1 t) (fun x y => qmax ((x - y) * t) ((x - y) * (t - 1))).
Proof. intros [x|] [y|]; reflexivity. Qed.
Lemma sym_strict g h : strict g h -> (forall x y, (Qabs x + Qabs y == 0)%Q -> h x y == 0)%Q ->
  strict (fun p => safe_divide (g p) (sym_denom p)) (fun x y => sym_rel (h x y) x y).
Proof.
  intros S Z a b. rewrite S. destruct a as [x|], b as [y|]; try reflexivity.
  unfold sym_denom, safe_divide, sym_rel. cbn [fst snd lift1 lift2 option_map].
  destruct (Qeq_bool (Qabs x + Qabs y) 0) eqn:E; [|reflexivity].
  apply qeq_true in E. specialize (Z x y E). apply Qeq_bool_iff in Z. rewrite Z. reflexivity.
Qed.
Lemma abs_zero x y : (Qabs x + Qabs y == 0)%Q -> (x == 0 /\ y == 0)%Q.
Proof.
  intros H. pose proof (Qabs_nonneg x). pose proof (Qabs_nonneg y).
  split; apply Qabs_case in H0 || idtac.
  all: revert H H0 H1; apply (Qabs_case x); apply (Qabs_case y); intros; lra.
Qed.
Lemma sym_abs_strict : strict (fun p => safe_divide (abs_err1 p) (sym_denom p)) (fun x y => sym_rel (Qabs (x - y)) x y).
Proof.
  apply sym_strict; [exact abs_err1_strict|]. intros x y H. apply abs_zero in H as [H1 H2].
  rewrite H1, H2. reflexivity.
Qed.
Lemma sym_err_strict : strict (fun p => safe_divide (err1 p) (sym_denom p)) (fun x y => sym_rel (x - y) x y).
Proof.
  apply sym_strict; [exact err1_strict|]. intros x y H. apply abs_zero in H as [H1 H2].
  rewrite H1, H2. reflexivity.
Qed.
Lemma sym_rel_bound x y : (-(1) <= sym_rel (x - y) x y <= 1)%Q.
Proof.
  unfold sym_rel. destruct (Qeq_bool (Qabs x + Qabs y) 0) eqn:E; [lra|]. apply qeq_false in E.
  pose proof (Qabs_nonneg x). pose proof (Qabs_nonneg y).
  assert (P : (0 < Qabs x + Qabs y)%Q) by (destruct (Qlt_le_dec 0 (Qabs x + Qabs y)); [assumption|exfalso; apply E; lra]).
  pose proof (Qabs_Qle_condition x (Qabs x)) as [C _]. pose proof (Qabs_Qle_condition y (Qabs y)) as [D _].
  specialize (C (Qle_refl _)). specialize (D (Qle_refl _)). split.
  - apply Qle_shift_div_l; [exact P|]. lra.
  - apply Qle_shift_div_r; [exact P|]. lra.
Qed.
Lemma sym_rel_abs_bound x y : (0 <= sym_rel (Qabs (x - y)) x y <= 1)%Q.
Proof.
  unfold sym_rel. destruct (Qeq_bool (Qabs x + Qabs y) 0) eqn:E; [lra|]. apply qeq_false in E.
  pose proof (Qabs_nonneg x). pose proof (Qabs_nonneg y).
  assert (P : (0 < Qabs x + Qabs y)%Q) by (destruct (Qlt_le_dec 0 (Qabs x + Qabs y)); [assumption|exfalso; apply E; lra]).
  pose proof (Qabs_nonneg (x - y)).
  assert (T : (Qabs (x - y) <= Qabs x + Qabs y)%Q).
  { setoid_replace (x - y)%Q with (x + - y)%Q by ring. pose proof (Qabs_triangle x (- y)). rewrite Qabs_opp in H2. exact H2. }
  split.
  - apply Qle_shift_div_l; [exact P|]. lra.
  - apply Qle_shift_div_r; [exact P|]. lra.
Qed.
Lemma sym_rel_zero x y : (sym_rel (Qabs (x - y)) x y == 0 <-> x == y)%Q.
Proof.
  unfold sym_rel. destruct (Qeq_bool (Qabs x + Qabs y) 0) eqn:E.
  - apply qeq_true, abs_zero in E as [E1 E2]. split; [lra|reflexivity].
  - apply qeq_false in E. split.
    + intros H. assert (Z : (Qabs (x - y) == 0)%Q).
      { rewrite <- (Qmult_div_r (Qabs (x - y)) (Qabs x + Qabs y)) by exact E. rewrite H. ring. }
      revert Z. apply (Qabs_case (x - y)); intros; lra.
    + intros H. assert (Z : (Qabs (x - y) == 0)%Q) by (setoid_replace (x - y)%Q with 0%Q by lra; reflexivity).
      rewrite Z. unfold Qdiv. ring.
Qed.
Lemma qabs_zero_iff x : (Qabs x == 0 <-> x == 0)%Q.
Proof. split; [apply (Qabs_case x); intros; lra|intros ->; reflexivity]. Qed.
Lemma sq_zero_iff z : (z * z == 0 <-> z == 0)%Q.
Proof. split; [intros H; apply Qmult_integral in H as [H|H]; exact H|intros ->; ring]. Qed.
Lemma sq_nonneg z : (0 <= z * z)%Q.
Proof. nra. Qed.

(** *** pinball *)
Lemma pinball_eq t y q : (0 <= t)%Q -> (t <= 1)%Q ->
  (qmax ((y - q) * t) ((y - q) * (t - 1)) == pinball_of t y q)%Q.
Proof.
  intros H0 H1. unfold qmax, pinball_of.
  destruct (Qle_bool q y) eqn:E; [apply qle_true in E|apply qle_false in E];
    destruct (Qle_bool ((y - q) * t) ((y - q) * (t - 1))) eqn:F; [apply qle_true in F|apply qle_false in F|apply qle_true in F|apply qle_false in F]; lra.
Qed.
Lemma pinball_nonneg t y q : (0 <= t)%Q -> (t <= 1)%Q -> (0 <= pinball_of t y q)%Q.
Proof.
  intros H0 H1. unfold pinball_of. destruct (Qle_bool q y) eqn:E; [apply qle_true in E|apply qle_false in E].
  - apply Qmult_le_0_compat; lra.
  - apply Qmult_le_0_compat; lra.
Qed.
(** the subgradient inequalities *)
Lemma pinball_right t y q c : (0 <= t)%Q -> (t <= 1)%Q -> (q <= c)%Q ->
  (pinball_of t y q + (c - q) * (b2q (Qle_bool y q) - t) <= pinball_of t y c)%Q.
Proof.
  intros H0 H1 H. unfold pinball_of, b2q.
  destruct (Qle_bool y q) eqn:A; [apply qle_true in A|apply qle_false in A];
  destruct (Qle_bool q y) eqn:B; [apply qle_true in B|apply qle_false in B|apply qle_true in B|apply qle_false in B];
  destruct (Qle_bool c y) eqn:C; first [apply qle_true in C|apply qle_false in C]; try lra.
Qed.
Lemma pinball_left t y q c : (0 <= t)%Q -> (t <= 1)%Q -> (c <= q)%Q ->
  (pinball_of t y q + (c - q) * (b2q (negb (Qle_bool q y)) - t) <= pinball_of t y c)%Q.
Proof.
  intros H0 H1 H. unfold pinball_of, b2q.
  destruct (Qle_bool q y) eqn:B; [apply qle_true in B|apply qle_false in B];
  destruct (Qle_bool c y) eqn:C; first [apply qle_true in C|apply qle_false in C]; cbn [negb]; try lra.
Qed.
Lemma b2q_count {A} (P : A -> bool) l : (qsum (map (fun x => b2q (P x)) l) == inject_Z (Z.of_nat (count P l)))%Q.
Proof.
  unfold count. induction l as [|x t IH]; [reflexivity|]. cbn [map qsum filter]. rewrite IH.
  destruct (P x); cbn [b2q length]; [|ring]. rewrite Nat2Z.inj_succ. unfold Z.succ. rewrite inject_Z_plus. ring.
Qed.
Lemma qsum_plus {A} (f g : A -> Q) l : (qsum (map (fun x => f x + g x) l) == qsum (map f l) + qsum (map g l))%Q.
Proof. induction l as [|x t IH]; cbn; [ring|]. rewrite IH. ring. Qed.
Lemma qsum_const {A} (c : Q) (l : list A) : (qsum (map (fun _ => c) l) == c * inject_Z (Z.of_nat (length l)))%Q.
Proof.
  induction l as [|x t IH]; [cbn; ring|]. cbn [map qsum length]. rewrite IH, Nat2Z.inj_succ. unfold Z.succ.
  rewrite inject_Z_plus. change (inject_Z 1) with 1%Q. ring.
Qed.
Lemma pinball_quantile_sum t q c ys : (0 <= t)%Q -> (t <= 1)%Q -> is_quantile t q ys ->
  (qsum (map (fun y => pinball_of t y q) ys) <= qsum (map (fun y => pinball_of t y c) ys))%Q.
Proof.
  intros H0 H1 [Q1 Q2].
  assert (G : forall P : Q -> bool,
    (forall y, pinball_of t y q + (c - q) * (b2q (P y) - t) <= pinball_of t y c)%Q ->
    (0 <= (c - q) * (inject_Z (Z.of_nat (count P ys)) - t * inject_Z (Z.of_nat (length ys))))%Q ->
    (qsum (map (fun y => pinball_of t y q) ys) <= qsum (map (fun y => pinball_of t y c) ys))%Q).
  { intros P HP Hs.
    pose proof (qsum_le (fun y => pinball_of t y q + (c - q) * (b2q (P y) - t))%Q (fun y => pinball_of t y c) ys
                  (fun y _ => HP y)) as L.
    rewrite qsum_plus in L.
    assert (E : (qsum (map (fun y => (c - q) * (b2q (P y) - t)) ys)
                 == (c - q) * (inject_Z (Z.of_nat (count P ys)) - t * inject_Z (Z.of_nat (length ys))))%Q).
    { rewrite (qsum_scale (c - q)%Q (fun y => b2q (P y) - t)%Q).
      rewrite (qsum_plus (fun y => b2q (P y)) (fun _ => - t)%Q), b2q_count, qsum_const. ring. }
    lra. }
  destruct (Qlt_le_dec c q) as [L|L].
  - apply (G (fun y => negb (Qle_bool q y))); [intros y; apply pinball_left; lra|].
    set (u := inject_Z (Z.of_nat (count _ ys))) in *. set (n := inject_Z (Z.of_nat (length ys))) in *. clearbody u n. nra.
  - apply (G (fun y => Qle_bool y q)); [intros y; apply pinball_right; lra|].
    set (u := inject_Z (Z.of_nat (count (fun y => Qle_bool y q) ys))) in *. set (n := inject_Z (Z.of_nat (length ys))) in *. clearbody u n. nra.
Qed.

(** *** complete series *)
Lemma present_full a b : present (full a) (full b) = combine a b.
Proof.
  unfold present, full. revert b. induction a as [|x t IH]; intros [|y u]; try reflexivity.
  cbn [map combine flat_map app]. rewrite IH. reflexivity.
Qed.
Lemma non_nan_full l : non_nan (full l) = l.
Proof. unfold non_nan, full. induction l as [|x t IH]; [reflexivity|]. cbn. rewrite IH. reflexivity. Qed.
Lemma nanmean_some_map {A} (f : A -> Q) l : is_mean (nanmean (map (fun x => Some (f x)) l)) (map f l).
Proof.
  pose proof (nanmean_is_mean (map (fun x => Some (f x)) l)) as H.
  replace (non_nan (map (fun x => Some (f x)) l)) with (map f l) in H; [exact H|].
  clear H. unfold non_nan. induction l as [|x t IH]; [reflexivity|]. cbn [map flat_map]. rewrite <- IH. reflexivity.
Qed.
Lemma b2q_range b : (0 <= b2q b <= 1)%Q.
Proof. destruct b; cbn; lra. Qed.
Lemma is_mean_le r r' l l' : is_mean r l -> is_mean r' l' -> length l = length l' ->
  (qsum l <= qsum l')%Q -> forall v v', r = Some v -> r' = Some v' -> (v <= v')%Q.
Proof.
  intros M M' L S v v' -> ->. destruct M as [N E], M' as [N' E']. rewrite <- L in E'.
  pose proof (len_pos l N) as P. apply (Qmult_le_r v v' _ P). lra.
Qed.
Lemma is_mean_eq r r' l l' : is_mean r l -> is_mean r' l' -> length l = length l' ->
  (qsum l == qsum l')%Q -> same_value r r'.
Proof.
  intros M M' L S. destruct r as [v|], r' as [v'|]; cbn in *; try exact I.
  - destruct M as [N E], M' as [N' E']. pose proof (len_pos l N) as P.
    rewrite <- L in E'. apply (Qmult_inj_r v v' (inject_Z (Z.of_nat (length l)))); [lra|]. rewrite E, E'. exact S.
  - destruct M as [N _]. subst l'. destruct l; [congruence|discriminate].
  - destruct M' as [N _]. subst l. destruct l'; [congruence|discriminate].
Qed.

(** *** ecdf *)
Lemma ecdf_range s x : (0 <= ecdf s x <= 1)%Q.
Proof.
  unfold ecdf. destruct s as [|y t]; [vm_compute; split; discriminate|].
  pose proof (len_pos (y :: t) ltac:(discriminate)) as P. rewrite b2q_count.
  assert (C : count (fun y => Qle_bool y x) (y :: t) <= length (y :: t)).
  { unfold count. clear. induction (y :: t) as [|z r IH]; [reflexivity|]. cbn. destruct (Qle_bool z x); cbn; lia. }
  split.
  - apply Qle_shift_div_l; [exact P|]. rewrite Qmult_0_l, <- (Zle_Qle 0). lia.
  - apply Qle_shift_div_r; [exact P|]. rewrite Qmult_1_l, <- Zle_Qle. lia.
Qed.
