(** C99, C100: how the rolling scores react to shifts and changes of scale, and what their sign says. *)
From Verif Require Import Common PySlice TSDataModel BacktestModel MetricsModel MedianSpec MedianProofs RollingModel RollingSpec RollingProofs.
From Coq Require Import Permutation Sorted.
Open Scope nat_scope.

(** ** uniqueness *)
Lemma mean_unique l u v : l <> [] -> mean_of l u -> mean_of l v -> (u == v)%Q.
Proof.
  unfold mean_of. intros Hl A B. rewrite <- B in A. apply Qmult_inj_r in A; [exact A|].
  destruct l; [contradiction|]. unfold Qeq. cbn. lia.
Qed.
Lemma quartile_unique k l u v : quartile_of k l u -> quartile_of k l v -> (u == v)%Q.
Proof.
  intros (s & i & r & P & Hs & Ek & Hr & E) (s' & i' & r' & P' & Hs' & Ek' & Hr' & E'). rewrite E, E'.
  assert (i = i' /\ r = r') as [<- <-] by (rewrite Ek in Ek'; lia).
  assert (PP : Permutation s s') by (eapply perm_trans; [apply Permutation_sym, P|exact P']).
  rewrite (sorted_perm_nth_eq s s' i PP Hs Hs'), (sorted_perm_nth_eq s s' (S i) PP Hs Hs'). reflexivity.
Qed.
Lemma iqr_unique l u v : iqr_of l u -> iqr_of l v -> (u == v)%Q.
Proof.
  intros (a & b & A & B & E) (a' & b' & A' & B' & E'). rewrite E, E', (quartile_unique _ _ _ _ A A'), (quartile_unique _ _ _ _ B B'). reflexivity.
Qed.
Lemma nth_forall2 l l' i : Forall2 Qeq l l' -> (nth i l 0 == nth i l' 0)%Q.
Proof. intros H. revert i. induction H as [|x y l l' E H IH]; intros [|i]; cbn; try reflexivity; [exact E|apply IH]. Qed.
Lemma forall2_len {A B} (R : A -> B -> Prop) l l' : Forall2 R l l' -> length l = length l'.
Proof. induction 1; cbn; congruence. Qed.
Lemma sorted_forall2 l l' : Forall2 Qeq l l' -> StronglySorted Qle l -> StronglySorted Qle l'.
Proof.
  induction 1 as [|x y l l' E H IH]; intros HS; [constructor|]. inversion HS as [|? ? H1 H2]; subst. constructor; [auto|].
  clear - E H H2. induction H as [|a b l l' E' H IH]; [constructor|]. inversion H2; subst. constructor; [rewrite <- E, <- E'; assumption|auto].
Qed.
Lemma median_ext l l' v v' : Forall2 Qeq l l' -> (v == v')%Q -> median_of l v -> median_of l' v'.
Proof.
  intros F E (s & P & Hs & Ev). destruct (Permutation_Forall2 P F) as (s' & P' & F'). exists s'. split; [exact P'|].
  split; [exact (sorted_forall2 _ _ F' Hs)|]. rewrite <- E, Ev, (forall2_len _ _ _ F).
  rewrite (nth_forall2 _ _ _ F'), (nth_forall2 _ _ (length l' / 2) F'). reflexivity.
Qed.
Lemma forall2_map {A} (f g : A -> Q) l : (forall x, In x l -> f x == g x)%Q -> Forall2 Qeq (map f l) (map g l).
Proof. induction l; cbn; intros H; constructor; [apply H; left; reflexivity|apply IHl; intros; apply H; right; assumption]. Qed.
Lemma mad_unique l u v : mad_of l u -> mad_of l v -> (u == v)%Q.
Proof.
  intros (m & A & B) (m' & A' & B'). apply (median_unique (map (fun x => Qabs (x - m')) l)); [|exact B'].
  eapply median_ext; [|reflexivity|exact B]. apply forall2_map. intros x _. rewrite (median_unique _ _ _ A A'). reflexivity.
Qed.
Lemma mean_ext l l' v v' : Forall2 Qeq l l' -> (v == v')%Q -> mean_of l v -> mean_of l' v'.
Proof.
  unfold mean_of. intros F E H. rewrite <- E, <- (forall2_len _ _ _ F), H. clear - F. induction F as [|x y l l' E F IH]; cbn; [reflexivity|]. rewrite E, IH. reflexivity.
Qed.
Lemma variance_unique l u v : l <> [] -> variance_of l u -> variance_of l v -> (u == v)%Q.
Proof.
  intros Hl (m & A & B) (m' & A' & B'). apply (mean_unique (map (fun x => (x - m') * (x - m'))%Q l)); [destruct l; [contradiction|discriminate]| |exact B'].
  eapply mean_ext; [|reflexivity|exact B]. apply forall2_map. intros x _. rewrite (mean_unique l m m' Hl A A'). reflexivity.
Qed.

(** ** affine maps *)
Section Affine.
Variables (a b : Q).
Hypothesis Ha : (0 < a)%Q.
Let f (x : Q) : Q := (a * x + b)%Q.

Lemma sorted_affine s : StronglySorted Qle s -> StronglySorted Qle (map f s).
Proof.
  induction 1 as [|x t Ht IH Hx]; cbn; constructor; [exact IH|]. rewrite Forall_forall in *. intros y Hy.
  apply in_map_iff in Hy as (z & <- & Hz). specialize (Hx z Hz). unfold f. nra.
Qed.
Lemma nth_affine i s : i < length s -> nth i (map f s) 0%Q = f (nth i s 0%Q).
Proof. intros H. rewrite (nth_indep _ 0%Q (f 0%Q)) by (rewrite map_length; exact H). apply map_nth. Qed.
Lemma median_affine l m : l <> [] -> median_of l m -> median_of (map f l) (f m).
Proof.
  intros Hl (s & P & Hs & E). exists (map f s). split; [apply Permutation_map, P|]. split; [apply sorted_affine, Hs|].
  rewrite map_length. pose proof (Permutation_length P) as L. assert (1 <= length l) by (destruct l; [contradiction|cbn; lia]).
  destruct (half_bounds (length l) H) as (A1 & B1 & C1). rewrite !nth_affine by lia. unfold f. rewrite E. field.
Qed.
Lemma quartile_affine k l q : k <= 3 -> l <> [] -> quartile_of k l q -> quartile_of k (map f l) (f q).
Proof.
  intros Hk Hl (s & i & r & P & Hs & Ek & Hr & E). exists (map f s), i, r. split; [apply Permutation_map, P|]. split; [apply sorted_affine, Hs|].
  rewrite map_length. split; [exact Ek|]. split; [exact Hr|]. pose proof (Permutation_length P) as L.
  assert (1 <= length l) by (destruct l; [contradiction|cbn; lia]).
  assert (i < length s) by nia. rewrite (nth_affine i) by lia. destruct r as [|r].
  - change (inject_Z (Z.of_nat 0)) with 0%Q in *. unfold f. rewrite E. field.
  - assert (S i < length s) by nia. rewrite (nth_affine (S i)) by lia. unfold f. rewrite E. field.
Qed.
Lemma mean_affine l m : mean_of l m -> mean_of (map f l) (f m).
Proof.
  unfold mean_of, f. intros H. rewrite map_length.
  assert (E : (qsum (map (fun x => a * x + b) l) == a * qsum l + b * inject_Z (Z.of_nat (length l)))%Q).
  { clear. induction l as [|x t IH]; [cbn; change (inject_Z 0) with 0%Q; ring|]. cbn [map qsum length]. rewrite IH, Nat2Z.inj_succ. unfold Z.succ. rewrite inject_Z_plus. change (inject_Z 1) with 1%Q. ring. }
  rewrite E, <- H. ring.
Qed.
Lemma mean_scale c l m : mean_of l m -> mean_of (map (fun x => c * x)%Q l) (c * m)%Q.
Proof.
  unfold mean_of. intros H. rewrite map_length, (qsum_scale c (fun x => x)), map_id, <- H. ring.
Qed.
Lemma variance_affine l v : variance_of l v -> variance_of (map f l) (a * a * v)%Q.
Proof.
  intros (m & A & B). exists (f m). split; [apply mean_affine, A|]. apply (mean_scale (a * a)) in B.
  eapply mean_ext; [|reflexivity|exact B]. rewrite !map_map. apply forall2_map. intros x _. unfold f. ring.
Qed.
Lemma mad_affine l v : l <> [] -> mad_of l v -> mad_of (map f l) (a * v)%Q.
Proof.
  intros Hl (m & A & B). exists (f m). split; [apply median_affine; assumption|].
  rewrite map_map.
  assert (E : median_of (map (fun x => a * x)%Q (map (fun x => Qabs (x - m)) l)) (a * v)%Q).
  { assert (Hl' : map (fun x => Qabs (x - m)) l <> []) by (destruct l; [contradiction|discriminate]).
    destruct B as (s & P & Hs & E). exists (map (fun x => a * x)%Q s). split; [apply Permutation_map, P|]. split.
    - clear - Hs Ha. induction Hs as [|x t Ht IH Hx]; cbn; constructor; [exact IH|]. rewrite Forall_forall in *. intros y Hy.
      apply in_map_iff in Hy as (z & <- & Hz). specialize (Hx z Hz). nra.
    - rewrite map_length. assert (Z0 : forall i, (nth i (map (fun x => a * x)%Q s) 0 == a * nth i s 0)%Q).
      { intros i. destruct (Nat.lt_ge_cases i (length s)).
        - rewrite (nth_indep _ 0%Q (a * 0)%Q) by (rewrite map_length; assumption). rewrite (map_nth (fun x => a * x)%Q). reflexivity.
        - rewrite !nth_overflow by (rewrite ?map_length; lia). ring. }
      rewrite !Z0, E. field. }
  eapply median_ext; [|reflexivity|exact E]. rewrite map_map. apply forall2_map. intros x _. unfold f.
  setoid_replace (a * x + b - (a * m + b))%Q with (a * (x - m))%Q by ring. rewrite Qabs_Qmult, (Qabs_pos a) by lra. reflexivity.
Qed.
Lemma iqr_affine l v : l <> [] -> iqr_of l v -> iqr_of (map f l) (a * v)%Q.
Proof.
  intros Hl (p & q & A & B & E). exists (f p), (f q). split; [apply quartile_affine; auto|]. split; [apply quartile_affine; auto|].
  unfold f. rewrite E. ring.
Qed.

Lemma observed_map l : observed (map (option_map f) l) = map f (observed l).
Proof. induction l as [|[x|] t IH]; cbn; [reflexivity|f_equal; exact IH|exact IH]. Qed.
Lemma removelast_map {A B} (g : A -> B) l : removelast (map g l) = map g (removelast l).
Proof. induction l as [|x [|y t] IH]; [reflexivity|reflexivity|]. change (map g (x :: y :: t)) with (g x :: map g (y :: t)).
  change (removelast (x :: y :: t)) with (x :: removelast (y :: t)). cbn [map]. rewrite <- IH. reflexivity. Qed.
Lemma last_map l : last (map (option_map f) l) None = option_map f (last l None).
Proof. induction l as [|x [|y t] IH]; [reflexivity|reflexivity|]. change (map (option_map f) (x :: y :: t)) with (option_map f x :: map (option_map f) (y :: t)).
  cbn [last map] in *. exact IH. Qed.

Lemma ratio_unique num num' d d' v v' (c : Q) : (0 < c)%Q -> (d' == c * d)%Q ->
  same num' (option_map (Qmult c) num) -> ratio num d v -> ratio num' d' v' -> same v v'.
Proof.
  intros Hc Hd Hn [[Z V]|[Z V]] [[Z' V']|[Z' V']].
  - destruct v, v'; cbn in *; try contradiction. lra.
  - exfalso. apply Z'. rewrite Hd, Z. ring.
  - exfalso. apply Z. rewrite Hd in Z'. destruct (Qeq_dec d 0); [assumption|]. exfalso. apply Qmult_integral in Z'. destruct Z'; [lra|contradiction].
  - destruct num as [n|], v as [v|], num' as [n'|], v' as [v'|]; cbn in *; try contradiction; try exact I.
    assert (Z2 : ~ (c * d == 0)%Q) by (rewrite <- Hd; exact Z'). rewrite Hd in V'.
    assert (v * (c * d) == v' * (c * d))%Q by (rewrite V', Hn, <- V; ring).
    apply Qmult_inj_r in H; assumption.
Qed.

Lemma map_nil {A B} (g : A -> B) l : map g l = [] -> l = [].
Proof. destruct l; [reflexivity|discriminate]. Qed.

(** z-scores *)
Lemma standard_affine st ib win v v' : st = ZScore \/ st = ModZMad \/ st = ModZIqr ->
  statistic_of st ib win v -> statistic_of st ib (map (option_map f) win) v' -> same v v'.
Proof.
  intros K H H'. destruct K as [->|[->| ->]]; cbn [statistic_of] in H, H'; cbv zeta in H, H'; rewrite removelast_map, last_map, observed_map in H'.
  - destruct H as [[N ->]|[N (m & s2 & M & V & R)]], H' as [[N' ->]|[N' (m' & s2' & M' & V' & R')]].
    + exact I.
    + rewrite N in N'. contradiction.
    + apply map_nil in N'. contradiction.
    + pose proof (mean_unique _ _ _ N' M' (mean_affine _ _ M)) as Em.
      pose proof (variance_unique _ _ _ N' V' (variance_affine _ _ V)) as Ev.
      apply (ratio_unique _ _ _ _ _ _ (a * a)%Q ltac:(nra) Ev) with (2 := R) (3 := R').
      destruct (last win None) as [x|]; cbn [same option_map difference]; [|exact I].
      assert (E : (f x - m' == a * (x - m))%Q) by (rewrite Em; unfold f; ring).
      rewrite E, Qabs_Qmult, (Qabs_pos a) by lra. ring.
  - destruct H as [[N ->]|[N (m & s2 & M & V & R)]], H' as [[N' ->]|[N' (m' & s2' & M' & V' & R')]].
    + exact I.
    + rewrite N in N'. contradiction.
    + apply map_nil in N'. contradiction.
    + pose proof (median_unique _ _ _ M' (median_affine _ _ N M)) as Em.
      pose proof (mad_unique _ _ _ V' (mad_affine _ _ N V)) as Ev.
      apply (ratio_unique _ _ _ _ _ _ a Ha Ev) with (2 := R) (3 := R').
      destruct (last win None) as [x|]; cbn [same option_map difference]; [|exact I]. rewrite Em. unfold f. ring.
  - destruct H as [[N ->]|[N (m & s2 & M & V & R)]], H' as [[N' ->]|[N' (m' & s2' & M' & V' & R')]].
    + exact I.
    + rewrite N in N'. contradiction.
    + apply map_nil in N'. contradiction.
    + pose proof (median_unique _ _ _ M' (median_affine _ _ N M)) as Em.
      pose proof (iqr_unique _ _ _ V' (iqr_affine _ _ N V)) as Ev.
      apply (ratio_unique _ _ _ _ _ _ a Ha Ev) with (2 := R) (3 := R').
      destruct (last win None) as [x|]; cbn [same option_map difference]; [|exact I]. rewrite Em. unfold f. ring.
Qed.
Lemma spread_affine st ib win v v' : st = Iqr \/ st = Mad ->
  statistic_of st ib win v -> statistic_of st ib (map (option_map f) win) v' -> same v' (option_map (Qmult a) v).
Proof.
  intros K H H'. destruct K as [->| ->]; cbn [statistic_of] in H, H'; cbv zeta in H, H'; rewrite observed_map in H'.
  - destruct H as [[N ->]|[N (u & -> & V)]], H' as [[N' ->]|[N' (u' & -> & V')]].
    + exact I.
    + rewrite N in N'. contradiction.
    + apply map_nil in N'. contradiction.
    + cbn. exact (iqr_unique _ _ _ V' (iqr_affine _ _ N V)).
  - destruct H as [[N ->]|[N (u & -> & V)]], H' as [[N' ->]|[N' (u' & -> & V')]].
    + exact I.
    + rewrite N in N'. contradiction.
    + apply map_nil in N'. contradiction.
    + cbn. exact (mad_unique _ _ _ V' (mad_affine _ _ N V)).
Qed.
End Affine.

(** ** C99: units *)
From Verif Require Import TSDataSpec RollingProps.
Open Scope nat_scope.

(** the series in other units *)
Definition in_units (a b : Q) (s : series cell) : series cell :=
  MkSeries (map (fun r => (fst r, option_map (fun x => a * x + b)%Q (snd r))) (rows s)) (sort_flag s).

Lemma in_units_snd a b l : map snd (map (fun r : Z * cell => (fst r, option_map (fun x => a * x + b)%Q (snd r))) l) = map (option_map (fun x => a * x + b)%Q) (map snd l).
Proof. rewrite !map_map. reflexivity. Qed.
Lemma in_units_fst a b l : map fst (map (fun r : Z * cell => (fst r, option_map (fun x => a * x + b)%Q (snd r))) l) = map fst l.
Proof. rewrite map_map. reflexivity. Qed.
Lemma trailing_map {A B} (g : A -> B) k l p : trailing k (map g l) p = map g (trailing k l p).
Proof. unfold trailing. rewrite firstn_map. apply skipn_map. Qed.
Lemma same_trans x y z : same x y -> same y z -> same x z.
Proof. destruct x, y, z; cbn; try contradiction; try trivial. intros -> ->. reflexivity. Qed.
Lemma same_sym x y : same x y -> same y x.
Proof. destruct x, y; cbn; try contradiction; try trivial. intros ->. reflexivity. Qed.
Lemma same_map g x y : (forall a b, a == b -> g a == g b)%Q -> same x y -> same (option_map g x) (option_map g y).
Proof. intros H. destruct x, y; cbn; auto. Qed.

Theorem C99_units : forall infer_freq deseason c data hist a b,
  point_based c = true -> remove_seasonality c = false -> (1 <= rolling_window c)%Z -> in_time_order (rows data) ->
  (0 < a)%Q -> stat c <> IqrMedianDeviation ->
  match fst (fit_predict infer_freq deseason c data hist),
        fst (fit_predict infer_freq deseason c (in_units a b data) (option_map (in_units a b) hist)) with
  | None, None => True
  | Some s, Some s' =>
      times s' = times s /\
      forall j, j < length (rows data) ->
        same (nth j (map snd (rows s')) None)
             (match stat c with
              | Iqr | Mad => option_map (Qmult a) (nth j (map snd (rows s)) None)
              | _ => nth j (map snd (rows s)) None
              end)
  | _, _ => False
  end.
Proof.
  intros inf des c data hist a b Hp Hr Hw Hs Ha Hst.
  assert (Hs' : in_time_order (rows (in_units a b data))) by (unfold in_time_order; cbn [rows in_units]; rewrite in_units_fst; exact Hs).
  pose proof (C35_scores inf des c data hist Hp Hr Hw Hs) as P.
  pose proof (C35_scores inf des c (in_units a b data) (option_map (in_units a b) hist) Hp Hr Hw Hs') as P'. cbv zeta in P, P'.
  assert (Lp : past_of (option_map (in_units a b) hist) = map (fun r => (fst r, option_map (fun x => a * x + b)%Q (snd r))) (past_of hist))
    by (destruct hist; reflexivity).
  rewrite Lp, !map_length in P'.
  destruct (fst (fit_predict inf des c data hist)) as [s|], (fst (fit_predict inf des c (in_units a b data) (option_map (in_units a b) hist))) as [s'|].
  - destruct P as [_ [T P]], P' as [_ [T' P']]. split; [rewrite T, T'; cbn [rows in_units]; apply in_units_fst|].
    intros j Hj. specialize (P j Hj). specialize (P' j ltac:(cbn [rows in_units]; rewrite map_length; exact Hj)).
    rewrite map_length in P'. cbn [rows in_units] in P'. rewrite <- map_app, in_units_snd, trailing_map in P'.
    set (w := trailing _ _ _) in *. destruct P as (u & U & V), P' as (u' & U' & V').
    set (k := (match stat c with ZScore => score_base c * Qabs (score_base c) | _ => score_base c end)%Q) in *.
    assert (Hk : forall x y, (x == y -> k * x == k * y)%Q) by (intros x y ->; reflexivity).
    eapply same_trans; [exact V'|].
    assert (C : (stat c = ZScore \/ stat c = ModZMad \/ stat c = ModZIqr) \/ (stat c = Iqr \/ stat c = Mad))
      by (destruct (stat c); auto; contradiction).
    destruct C as [C|C].
    + assert (E : (match stat c with Iqr | Mad => option_map (Qmult a) (nth j (map snd (rows s)) None) | _ => nth j (map snd (rows s)) None end) = nth j (map snd (rows s)) None)
        by (destruct C as [->|[->| ->]]; reflexivity).
      rewrite E. eapply same_trans; [|apply same_sym, V]. apply same_map; [exact Hk|]. apply same_sym.
      exact (standard_affine a b Ha _ _ _ _ _ C U U').
    + assert (E : (match stat c with Iqr | Mad => option_map (Qmult a) (nth j (map snd (rows s)) None) | _ => nth j (map snd (rows s)) None end) = option_map (Qmult a) (nth j (map snd (rows s)) None))
        by (destruct C as [->| ->]; reflexivity).
      rewrite E. pose proof (spread_affine a b Ha _ _ _ _ _ C U U') as SA.
      eapply same_trans; [apply (same_map _ _ _ Hk SA)|]. apply same_sym.
      eapply same_trans; [apply (same_map (Qmult a) _ _ ltac:(intros x y ->; reflexivity) V)|].
      destruct u as [u|]; cbn [same option_map]; [ring|exact I].
  - destruct P as [[P|P] _], P' as [P' P'']; [congruence|lia].
  - destruct P as [P P''], P' as [[P'|P'] _]; [congruence|lia].
  - exact I.
Qed.

(** The relative deviation from the median does not depend on the unit, but it does on the origin. *)
Lemma rule_sign_unique base q1 q3 x s s' : rule_sign base q1 q3 x s -> rule_sign base q1 q3 x s' -> s = s'.
Proof. intros [[A ->]|[(A & B & ->)|(A & B & ->)]] [[A' ->]|[(A' & B' & ->)|(A' & B' & ->)]]; try reflexivity; exfalso; lra. Qed.
Lemma rule_sign_scale a base q1 q3 x s p1 p3 y : (0 < a)%Q -> (p1 == a * q1)%Q -> (p3 == a * q3)%Q -> (y == a * x)%Q ->
  rule_sign base q1 q3 x s -> rule_sign base p1 p3 y s.
Proof.
  intros Ha E1 E3 Ey [[A ->]|[(A & B & ->)|(A & B & ->)]].
  - left. split; [|reflexivity]. rewrite E1, E3, Ey. setoid_replace (a * q1 - base * (a * q3 - a * q1))%Q with (a * (q1 - base * (q3 - q1)))%Q by ring. nra.
  - right. left. split; [|split; [|reflexivity]]; rewrite E1, E3, Ey.
    + setoid_replace (a * q1 - base * (a * q3 - a * q1))%Q with (a * (q1 - base * (q3 - q1)))%Q by ring. nra.
    + setoid_replace (a * q3 + base * (a * q3 - a * q1))%Q with (a * (q3 + base * (q3 - q1)))%Q by ring. nra.
  - right. right. split; [|split; [|reflexivity]]; rewrite E1, E3, Ey.
    + setoid_replace (a * q1 - base * (a * q3 - a * q1))%Q with (a * (q1 - base * (q3 - q1)))%Q by ring. nra.
    + setoid_replace (a * q3 + base * (a * q3 - a * q1))%Q with (a * (q3 + base * (q3 - q1)))%Q by ring. nra.
Qed.
Lemma deviation_scale a ib win v v' : (0 < a)%Q ->
  statistic_of IqrMedianDeviation ib win v -> statistic_of IqrMedianDeviation ib (map (option_map (fun x => a * x + 0)%Q) win) v' -> same v v'.
Proof.
  intros Ha H H'. cbn [statistic_of] in H, H'. cbv zeta in H, H'. rewrite removelast_map, last_map, observed_map in H'.
  destruct H as [[N ->]|[N (m & q1 & q3 & u & M & Q1 & Q3 & R & V)]], H' as [[N' ->]|[N' (m' & q1' & q3' & u' & M' & Q1' & Q3' & R' & V')]].
  - exact I.
  - rewrite N in N'. contradiction.
  - apply map_nil in N'. contradiction.
  - pose proof (median_unique _ _ _ M' (median_affine a 0 Ha _ _ N M)) as Em.
    pose proof (quartile_unique _ _ _ _ Q1' (quartile_affine a 0 Ha 1 _ _ ltac:(lia) N Q1)) as E1.
    pose proof (quartile_unique _ _ _ _ Q3' (quartile_affine a 0 Ha 3 _ _ ltac:(lia) N Q3)) as E3.
    assert (Eu : same u u').
    { apply (ratio_unique _ _ m m' _ _ a Ha ltac:(rewrite Em; ring)) with (2 := R) (3 := R').
      destruct (last win None) as [x|]; cbn [same option_map difference]; [|exact I].
      assert (E : (a * x + 0 - m' == a * (x - m))%Q) by (rewrite Em; ring). rewrite E, Qabs_Qmult, (Qabs_pos a) by lra. reflexivity. }
    destruct (last win None) as [x|]; cbn [option_map] in V'.
    + destruct V as (s & S1 & V), V' as (s' & S2 & V').
      assert (s = s') as <-.
      { eapply rule_sign_unique; [|exact S2]. apply (rule_sign_scale a _ q1 q3 x); [exact Ha|rewrite E1; ring|rewrite E3; ring|ring|exact S1]. }
      eapply same_trans; [exact V|]. eapply same_trans; [|apply same_sym, V']. apply same_map; [intros ? ? ->; reflexivity|exact Eu].
    + eapply same_trans; [exact V|]. eapply same_trans; [|apply same_sym, V']. apply same_map; [intros ? ? ->; reflexivity|exact Eu].
Qed.
Theorem C99_relative : forall infer_freq deseason c data hist a s s' j,
  point_based c = true -> remove_seasonality c = false -> (1 <= rolling_window c)%Z -> in_time_order (rows data) ->
  (0 < a)%Q -> stat c = IqrMedianDeviation ->
  fst (fit_predict infer_freq deseason c data hist) = Some s ->
  fst (fit_predict infer_freq deseason c (in_units a 0 data) (option_map (in_units a 0) hist)) = Some s' ->
  j < length (rows data) -> same (nth j (map snd (rows s')) None) (nth j (map snd (rows s)) None).
Proof.
  intros inf des c data hist a s s' j Hp Hr Hw Hs Ha Hst E E' Hj.
  assert (Hs' : in_time_order (rows (in_units a 0 data))) by (unfold in_time_order; cbn [rows in_units]; rewrite in_units_fst; exact Hs).
  pose proof (C35_scores inf des c data hist Hp Hr Hw Hs) as P.
  pose proof (C35_scores inf des c (in_units a 0 data) (option_map (in_units a 0) hist) Hp Hr Hw Hs') as P'. cbv zeta in P, P'.
  rewrite E in P. rewrite E' in P'. destruct P as [_ [_ P]], P' as [_ [_ P']].
  assert (Lp : past_of (option_map (in_units a 0) hist) = map (fun r => (fst r, option_map (fun x => a * x + 0)%Q (snd r))) (past_of hist))
    by (destruct hist; reflexivity).
  specialize (P j Hj). specialize (P' j ltac:(cbn [rows in_units]; rewrite map_length; exact Hj)).
  rewrite Lp, map_length in P'. cbn [rows in_units] in P'. rewrite <- map_app, in_units_snd, trailing_map in P'.
  set (w := trailing _ _ _) in *. rewrite Hst in P, P'. destruct P as (u & U & V), P' as (u' & U' & V').
  eapply same_trans; [exact V'|]. eapply same_trans; [|apply same_sym, V]. apply same_map; [intros ? ? ->; reflexivity|].
  apply same_sym, (deviation_scale a (iqr_base c) w u u' Ha U U').
Qed.

(** ** C100: direction *)
Lemma nonneg_median l v : l <> [] -> (forall x, In x l -> 0 <= x)%Q -> median_of l v -> (0 <= v)%Q.
Proof.
  intros Hl H (s & P & Hs & E).
  assert (N : forall i, (0 <= nth i s 0)%Q).
  { intros i. destruct (Nat.lt_ge_cases i (length s)) as [Hi|Hi]; [|rewrite nth_overflow by exact Hi; lra].
    apply H, (Permutation_in _ (Permutation_sym P)), nth_In, Hi. }
  rewrite E. pose proof (N ((length l - 1) / 2)) as A. pose proof (N (length l / 2)) as B. revert A B.
  generalize (nth ((length l - 1) / 2) s 0%Q) (nth (length l / 2) s 0%Q). clear. intros a b A B. apply Qle_shift_div_l; [reflexivity|]. lra.
Qed.
Lemma mad_nonneg l v : l <> [] -> mad_of l v -> (0 <= v)%Q.
Proof.
  intros Hl (m & _ & H). apply (nonneg_median (map (fun x => Qabs (x - m)) l)); [destruct l; [contradiction|discriminate]| |exact H].
  intros x Hx. apply in_map_iff in Hx as (y & <- & _). apply Qabs_nonneg.
Qed.
Lemma mean_nonneg l v : l <> [] -> (forall x, In x l -> 0 <= x)%Q -> mean_of l v -> (0 <= v)%Q.
Proof.
  unfold mean_of. intros Hl H E. pose proof (qsum_nonneg l H) as N. rewrite <- E in N.
  assert (0 < inject_Z (Z.of_nat (length l)))%Q by (destruct l; [contradiction|]; unfold Qlt; cbn; lia).
  destruct (Qlt_le_dec v 0) as [C|C]; [|exact C]. nra.
Qed.
Lemma variance_nonneg l v : l <> [] -> variance_of l v -> (0 <= v)%Q.
Proof.
  intros Hl (m & _ & H). apply (mean_nonneg (map (fun x => (x - m) * (x - m))%Q l)); [destruct l; [contradiction|discriminate]| |exact H].
  intros x Hx. apply in_map_iff in Hx as (y & <- & _). cbn beta.
  destruct (Qlt_le_dec (y - m) 0) as [C|C]; set (e := (y - m)%Q) in *; clearbody e; nra.
Qed.
Lemma iqr_nonneg l v : l <> [] -> iqr_of l v -> (0 <= v)%Q.
Proof.
  intros Hl (p & q & (s & i & r & P & Hs & Ek & Hr & E) & (s' & i' & r' & P' & Hs' & Ek' & Hr' & E') & ->).
  assert (PP : Permutation s' s) by (eapply perm_trans; [apply Permutation_sym, P'|exact P]).
  rewrite (sorted_perm_nth_eq s' s i' PP Hs' Hs), (sorted_perm_nth_eq s' s (S i') PP Hs' Hs) in E'.
  pose proof (Permutation_length P) as L. assert (1 <= length l) by (destruct l; [contradiction|cbn; lia]).
  assert (Hi : i < length s) by lia. assert (Hi' : i' < length s) by lia.
  set (x := nth i s 0%Q) in *. set (x' := nth i' s 0%Q) in *.
  assert (F : forall r, r < 4 -> (0 <= inject_Z (Z.of_nat r) <= 3)%Q).
  { intros q0 H0. split; [unfold Qle; cbn; lia|]. change 3%Q with (inject_Z 3). rewrite <- Zle_Qle. lia. }
  pose proof (F r Hr) as [F1 F2]. pose proof (F r' Hr') as [F1' F2'].
  set (y := nth (S i) s 0%Q) in *. set (y' := nth (S i') s 0%Q) in *.
  assert (E4 : (4 * p == 4 * x + inject_Z (Z.of_nat r) * (y - x))%Q) by (rewrite E; field).
  assert (E4' : (4 * q == 4 * x' + inject_Z (Z.of_nat r') * (y' - x'))%Q) by (rewrite E'; field).
  clear E E'. destruct (Nat.eq_dec i i') as [Ei|Ni].
  - assert (r <= r') by lia. assert (Exx : x' = x) by (unfold x, x'; congruence). assert (Eyy : y' = y) by (unfold y, y'; congruence). rewrite Exx, Eyy in E4'.
    destruct r' as [|r'].
    + assert (r = 0) by lia. subst r. change (inject_Z (Z.of_nat 0)) with 0%Q in *. clearbody x y. lra.
    + assert (Hn : S i < length s) by lia. pose proof (sorted_nth_mono s i (S i) Hs ltac:(lia) Hn) as Mo. fold x y in Mo.
      assert (G : (inject_Z (Z.of_nat r) <= inject_Z (Z.of_nat (S r')))%Q) by (rewrite <- Zle_Qle; lia).
      revert F1 F2 F1' F2' G E4 E4'. generalize (inject_Z (Z.of_nat r)) (inject_Z (Z.of_nat (S r'))). clearbody x y. clear - Mo. intros f1 f2. intros. nra.
  - assert (Hlt : S i <= i') by lia. pose proof (sorted_nth_mono s (S i) i' Hs Hlt Hi') as M1. pose proof (sorted_nth_mono s i (S i) Hs ltac:(lia) ltac:(lia)) as M2.
    fold x x' y in M1, M2.
    assert (A : (p <= y)%Q).
    { revert F1 F2 E4 M2. generalize (inject_Z (Z.of_nat r)). clearbody x y. clear. intros f1. intros. nra. }
    assert (B : (x' <= q)%Q).
    { destruct r' as [|r']; [change (inject_Z (Z.of_nat 0)) with 0%Q in *; clearbody x x' y y'; lra|].
      pose proof (sorted_nth_mono s i' (S i') Hs ltac:(lia) ltac:(lia)) as M3. fold x' y' in M3.
      revert F1' F2' E4' M3. generalize (inject_Z (Z.of_nat (S r'))). clearbody x' y'. clear. intros f1. intros. nra. }
    clearbody x x' y y'. lra.
Qed.

(** what a score is measured from, and in units of what *)
Definition centre_of (st : statistic) (h : list Q) (c : Q) : Prop := match st with ZScore => mean_of h c | _ => median_of h c end.
Definition spread_of (st : statistic) (h : list Q) (d : Q) : Prop :=
  match st with ZScore => variance_of h d | ModZMad => mad_of h d | _ => iqr_of h d end.

Lemma ratio_direction e d v b : (0 <= d)%Q -> (0 < b)%Q -> ratio (Some e) d v ->
  exists y, same (option_map (Qmult b) v) (Some y) /\ ((0 < y)%Q <-> (0 < d)%Q /\ (0 < e)%Q) /\ ((y < 0)%Q <-> (0 < d)%Q /\ (e < 0)%Q).
Proof.
  intros Hd Hb [[Z V]|[Z V]].
  - destruct v as [v|]; [|contradiction V]. cbn in V. exists (b * v)%Q. split; [cbn; reflexivity|]. rewrite V.
    split; split; try (intros [H _]; exfalso; lra); intros H; exfalso; lra.
  - destruct v as [v|]; [|contradiction V]. exists (b * v)%Q. split; [cbn; reflexivity|].
    assert (0 < d)%Q by (destruct (Qlt_le_dec 0 d); [assumption|exfalso; apply Z; lra]).
    split; split.
    + intros H0. split; [assumption|]. assert (0 < v)%Q by nra. rewrite <- V. nra.
    + intros [_ H0]. assert (0 < v)%Q; [|nra]. destruct (Qlt_le_dec 0 v); [assumption|exfalso]. rewrite <- V in H0. nra.
    + intros H0. split; [assumption|]. assert (v < 0)%Q by nra. rewrite <- V. nra.
    + intros [_ H0]. assert (v < 0)%Q; [|nra]. destruct (Qlt_le_dec v 0); [assumption|exfalso]. rewrite <- V in H0. nra.
Qed.
Theorem C100_direction_partial : forall st ib b win x v, st = ZScore \/ st = ModZMad \/ st = ModZIqr ->
  (0 < b)%Q -> last win None = Some x -> observed (removelast win) <> [] -> score_of st ib b win v ->
  exists y c d, same v (Some y) /\ centre_of st (observed (removelast win)) c /\ spread_of st (observed (removelast win)) d /\ (0 <= d)%Q /\
    ((0 < y)%Q <-> (0 < d)%Q /\ (c < x)%Q) /\ ((y < 0)%Q <-> (0 < d)%Q /\ (x < c)%Q).
Proof.
  intros st ib b win x v K Hb Hx Hh (u & U & V). destruct K as [->|[->| ->]]; cbn [statistic_of] in U; cbv zeta in U; rewrite Hx in U.
  - destruct U as [[N _]|[_ (m & d & M & D & R)]]; [contradiction|]. pose proof (variance_nonneg _ _ Hh D) as Nd.
    cbn [difference option_map] in R.
    assert (Hb2 : (0 < b * Qabs b)%Q) by (rewrite (Qabs_pos b) by lra; nra).
    destruct (ratio_direction _ _ _ _ Nd Hb2 R) as (y & Ey & P & Q0). exists y, m, d. split; [eapply same_trans; [exact V|exact Ey]|].
    split; [exact M|]. split; [exact D|]. split; [exact Nd|].
    assert (A : (0 < (x - m) * Qabs (x - m) <-> m < x)%Q).
    { destruct (Qlt_le_dec (x - m) 0) as [C|C]; [rewrite Qabs_neg by lra; split; intros; exfalso; nra|rewrite Qabs_pos by lra; split; intros; nra]. }
    assert (B : ((x - m) * Qabs (x - m) < 0 <-> x < m)%Q).
    { destruct (Qlt_le_dec (x - m) 0) as [C|C]; [rewrite Qabs_neg by lra; split; intros; nra|rewrite Qabs_pos by lra; split; intros; exfalso; nra]. }
    rewrite P, Q0, A, B. tauto.
  - destruct U as [[N _]|[_ (m & d & M & D & R)]]; [contradiction|]. pose proof (mad_nonneg _ _ Hh D) as Nd.
    destruct (ratio_direction _ _ _ _ Nd Hb R) as (y & Ey & P & Q0). exists y, m, d. split; [eapply same_trans; [exact V|exact Ey]|].
    split; [exact M|]. split; [exact D|]. split; [exact Nd|]. rewrite P, Q0. split; split; intros [? ?]; split; lra.
  - destruct U as [[N _]|[_ (m & d & M & D & R)]]; [contradiction|]. pose proof (iqr_nonneg _ _ Hh D) as Nd.
    destruct (ratio_direction _ _ _ _ Nd Hb R) as (y & Ey & P & Q0). exists y, m, d. split; [eapply same_trans; [exact V|exact Ey]|].
    split; [exact M|]. split; [exact D|]. split; [exact Nd|]. rewrite P, Q0. split; split; intros [? ?]; split; lra.
Qed.

(** After a constant stretch a jump of any size is scored 0, like no jump at all. *)
Theorem C100_constant_refuted : forall st x, st = ZScore \/ st = ModZMad \/ st = ModZIqr -> exists s,
  fst (fit_predict regular no_season (ex_point st) (minutes [x] 3) (Some (minutes [5; 5; 5]%Q 0))) = Some s /\
  same (nth 0 (map snd (rows s)) None) (Some 0%Q).
Proof.
  intros st x [->|[->| ->]]; eexists; (split; [vm_compute; reflexivity|]); vm_compute; reflexivity.
Qed.
(** The relative deviation has the wrong sign below zero: a point far above a negative window is negative. *)
Theorem C100_negative_refuted : exists s,
  fst (fit_predict regular no_season (ex_point IqrMedianDeviation) (minutes [50]%Q 3) (Some (minutes [-10; -11; -9]%Q 0))) = Some s /\
  same (nth 0 (map snd (rows s)) None) (Some (-6)%Q).
Proof. eexists. split; [vm_compute; reflexivity|]. vm_compute. reflexivity. Qed.
Lemma rule_sign_total base q1 q3 x s : rule_sign base q1 q3 x s -> s = (-1)%Q \/ s = 1%Q \/ s = 0%Q.
Proof. intros [[_ ->]|[(_ & _ & ->)|(_ & _ & ->)]]; auto. Qed.
(** above zero it is right: with a positive median, positive only at or above the upper fence and negative only below the lower one *)
Theorem C100_relative_partial : forall ib b win x v, (0 < b)%Q -> (0 <= ib)%Q -> last win None = Some x -> observed (removelast win) <> [] ->
  score_of IqrMedianDeviation ib b win v ->
  exists y m q1 q3, same v (Some y) /\ median_of (observed (removelast win)) m /\
    quartile_of 1 (observed (removelast win)) q1 /\ quartile_of 3 (observed (removelast win)) q3 /\
    ((0 < m)%Q -> ((0 < y)%Q -> (q3 + ib * (q3 - q1) <= x)%Q) /\ ((y < 0)%Q -> (x < q1 - ib * (q3 - q1))%Q) /\
                  ((q3 + ib * (q3 - q1) <= x)%Q -> ~ (x == m)%Q -> (0 < y)%Q) /\
                  ((x < q1 - ib * (q3 - q1))%Q -> ~ (x == m)%Q -> (y < 0)%Q)).
Proof.
  intros ib b win x v Hb Hib Hx Hh (u & U & V). cbn [statistic_of] in U. cbv zeta in U. rewrite Hx in U.
  destruct U as [[N _]|[_ (m & q1 & q3 & w & M & Q1 & Q3 & R & s & S1 & W)]]; [contradiction|].
  cbn [option_map difference] in R.
  destruct w as [w|]; [|destruct R as [[_ R]|[_ R]]; contradiction R]. destruct u as [u|]; [|contradiction W]. destruct v as [v|]; [|contradiction V].
  cbn [same option_map] in W, V. exists v, m, q1, q3. split; [reflexivity|]. split; [exact M|]. split; [exact Q1|]. split; [exact Q3|].
  intros Hm. destruct R as [[Z _]|[_ R]]; [exfalso; lra|].
  assert (Hw : (0 <= w)%Q). { pose proof (Qabs_nonneg (x - m)). destruct (Qlt_le_dec w 0); [exfalso; nra|assumption]. }
  assert (Iq : (0 <= q3 - q1)%Q) by (apply (iqr_nonneg (observed (removelast win)) _ Hh); exists q1, q3; repeat split; auto; reflexivity).
  assert (Hw2 : ~ (x == m)%Q -> (0 < w)%Q).
  { intros Hne. destruct (Qlt_le_dec 0 w) as [L|L]; [exact L|]. exfalso. assert (E0 : (w == 0)%Q) by lra. rewrite E0 in R.
    assert (A0 : (Qabs (x - m) == 0)%Q) by lra. apply Hne.
    destruct (Qlt_le_dec (x - m) 0); [rewrite Qabs_neg in A0 by lra|rewrite Qabs_pos in A0 by lra]; lra. }
  assert (Ev : (v == s * (b * w))%Q) by (rewrite V, W; ring).
  assert (Hbw : (0 <= b * w)%Q) by nra.
  destruct S1 as [[A ->]|[(A & B & ->)|(A & B & ->)]].
  - split; [intros P; exfalso; lra|]. split; [intros _; exact A|]. split; [intros B; exfalso; nra|]. intros _ Ne. specialize (Hw2 Ne). nra.
  - split; [intros _; exact B|]. split; [intros P; exfalso; lra|]. split; [intros _ Ne; specialize (Hw2 Ne); nra|]. intros C; exfalso; lra.
  - split; [intros P; exfalso; lra|]. split; [intros P; exfalso; lra|]. split; [intros C; exfalso; lra|]. intros C; exfalso; lra.
Qed.

Example C99_case : values (fst (fit_predict regular no_season (ex_point ModZMad) (in_units (3 # 2) 7 ex_data) (Some (in_units (3 # 2) 7 ex_hist)))) = Some [Some 1; Some 2; Some (-5 # 2)]%Q
  /\ values (fst (fit_predict regular no_season (ex_point Mad) (in_units (3 # 2) 7 ex_data) (Some (in_units (3 # 2) 7 ex_hist)))) = Some [Some 3; Some 3; Some (9 # 2)]%Q.
Proof. split; vm_compute; reflexivity. Qed.
Example C100_case : observed (removelast [Some 3; None; Some 7; Some 5; Some 9]%Q) = [3; 7; 5]%Q
  /\ score_of ModZMad (3 # 2) 1 [Some 3; None; Some 7; Some 5; Some 9]%Q (Some 2%Q).
Proof. split; [reflexivity|]. destruct (score_ok ModZMad (3 # 2) 1 [Some 3; None; Some 7; Some 5; Some 9]%Q) as (u & U & V). exists u. split; [exact U|].
  eapply same_trans; [|exact V]. vm_compute. reflexivity. Qed.

Print Assumptions C99_units.
Print Assumptions C99_relative.
Print Assumptions C100_direction_partial.
Print Assumptions C100_constant_refuted.
Print Assumptions C100_negative_refuted.
Print Assumptions C100_relative_partial.
