(** C120: Tau, and units of measurement. *)
From Verif Require Import Common TrendModel TrendSpec TrendProofs TrendProps TrendScanProps.
From Coq Require Import String Sorted Permutation.
Open Scope Z_scope.

(** ** Tau of one window *)
Lemma kendall_neg x : kendall (map Qopp x) = - kendall x.
Proof.
  replace (- kendall x) with ((-1) * kendall x) by ring. apply kendall_ext; [apply map_length|]. rewrite map_length. intros i j H.
  change 0%Q with (Qopp 0) at 1 2. rewrite !map_nth. rewrite (sign_ext _ (nth i x 0 - nth j x 0)%Q) by ring. rewrite sign_opp. ring.
Qed.
Section Tau.
Variables (init : list Q -> Q) (tail crit : Q -> Q).
Lemma single_tau threshold x k : tested tail crit (5 # 100) threshold [x] k -> (2 <= List.length x)%nat ->
  (-1 <= k_tau k <= 1)%Q /\
  ((k_tau k == 1)%Q <-> forall i j, (i < j < List.length x)%nat -> (nth i x 0 < nth j x 0)%Q) /\
  ((k_tau k == -1)%Q <-> forall i j, (i < j < List.length x)%nat -> (nth j x 0 < nth i x 0)%Q).
Proof.
  intros (T & _) L. unfold sumz in T. cbn [map List.length total nth] in T. rewrite !Z.add_0_l in T.
  pose proof (kendall_bound x) as B. pose proof (choose2_pos x L) as P. pose proof (zlt0 _ P) as PQ.
  assert (B1 : (2 * inject_Z (kendall x) <= inject_Z (choose2 x))%Q) by (change 2%Q with (inject_Z 2); rewrite <- inject_Z_mult, <- Zle_Qle; lia).
  assert (B2 : (- inject_Z (choose2 x) <= 2 * inject_Z (kendall x))%Q) by (change 2%Q with (inject_Z 2); rewrite <- inject_Z_mult, <- inject_Z_opp, <- Zle_Qle; lia).
  assert (E1 : (k_tau k == 1)%Q <-> 2 * kendall x = choose2 x).
  { split; intros E.
    - rewrite E in T. apply (proj1 (inject_Z_injective _ _)). rewrite inject_Z_mult. change (inject_Z 2) with 2%Q. lra.
    - assert (Q : (2 * inject_Z (kendall x) == inject_Z (choose2 x))%Q) by (change 2%Q with (inject_Z 2); rewrite <- inject_Z_mult, E; reflexivity). nra. }
  assert (E2 : (k_tau k == -1)%Q <-> 2 * kendall (map Qopp x) = choose2 x).
  { rewrite kendall_neg. split; intros E.
    - rewrite E in T. apply (proj1 (inject_Z_injective _ _)). rewrite inject_Z_mult, inject_Z_opp. change (inject_Z 2) with 2%Q. lra.
    - assert (Q : (2 * - inject_Z (kendall x) == inject_Z (choose2 x))%Q) by (change 2%Q with (inject_Z 2); rewrite <- inject_Z_opp, <- inject_Z_mult, E; reflexivity). nra. }
  split; [split; nra|]. split.
  - rewrite E1. apply kendall_full.
  - rewrite E2. replace (choose2 x) with (choose2 (map Qopp x)) by (unfold choose2; rewrite map_length; reflexivity). rewrite kendall_full, map_length.
    assert (NO : forall i, nth i (map Qopp x) 0%Q = (- nth i x 0)%Q) by (intros i; exact (map_nth Qopp x 0%Q i)).
    split; intros H i j Hij; specialize (H i j Hij); rewrite !NO in *; lra.
Qed.
(** Tau lies between -1 and 1, and is 1 (-1) exactly for a strictly increasing (decreasing) window. *)
Theorem C120_tau : forall threshold alpha w s data st c y,
  regular data -> (1 <= w)%nat -> f_cols data = [(c, map Some y)] ->
  statistics init tail crit false threshold alpha w None s data = Some st ->
  exists sm, cleaned init s y sm /\
    forall i row, nth_error st i = Some row ->
      (-1 <= k_tau (s_all row) <= 1)%Q /\
      ((k_tau (s_all row) == 1)%Q <-> forall a b, (a < b < w)%nat -> (nth (S i + a) sm 0 < nth (S i + b) sm 0)%Q) /\
      ((k_tau (s_all row) == -1)%Q <-> forall a b, (a < b < w)%nat -> (nth (S i + b) sm 0 < nth (S i + a) sm 0)%Q).
Proof.
  intros threshold alpha w s data st c y R Hw HC H. destruct (C43_univariate init tail crit _ _ _ _ _ _ _ _ R Hw HC H) as (sm & C & L & A). exists sm. split; [exact C|].
  intros i row E. destruct (A i row E) as (_ & _ & T). pose proof (nth_error_nth'' _ _ _ row E) as [Li _].
  assert (W2 : (2 <= w)%nat).
  { destruct (Nat.eq_dec w 1) as [->|]; [|lia]. exfalso. assert (N : statistics init tail crit false threshold alpha 1 None s data = None); [|congruence].
    apply (C43_raises init tail crit threshold alpha 1 s data c y R Hw HC). right. right. split; [reflexivity|lia]. }
  destruct (single_tau _ _ _ T ltac:(rewrite window_length; exact W2)) as (B & P & N). split; [exact B|]. rewrite P, N, window_length.
  split; split; intros G a b Hab; specialize (G a b Hab); rewrite ?window_nth in * by lia; exact G.
Qed.
(** The overall Tau is the mean of the metrics' Taus. *)
Theorem C120_overall : forall threshold alpha w s data st cs,
  regular data -> (2 <= w)%nat -> complete_columns data cs -> cs <> [] ->
  statistics init tail crit true threshold alpha w None s data = Some st ->
  forall row, In row st -> List.length (s_metrics row) = List.length cs /\
    (k_tau (s_all row) * inject_Z (Z.of_nat (List.length cs)) == qsum (map (fun m => k_tau (snd m)) (s_metrics row)))%Q.
Proof.
  intros threshold alpha w s data st cs R Hw HC NC H row I. apply In_nth_error in I as (i & I).
  assert (Hw1 : (1 <= w)%nat) by lia. destruct (C43_multivariate init tail crit _ _ _ _ _ _ _ R Hw1 HC NC H) as (sms & F & _ & A). destruct (A i row I) as (_ & T & N & FM).
  pose proof (forall2_len _ _ _ F) as L1. pose proof (forall2_len _ _ _ FM) as L2. split; [congruence|]. destruct T as (T & _). rewrite !sumz_zsum, !map_map in T.
  set (D := Z.of_nat w * (Z.of_nat w - 1)). assert (PD : (0 < inject_Z D)%Q) by (apply zlt0; subst D; clear - Hw; apply Z.mul_pos_pos; lia).
  rewrite (zsum_const (fun x => choose2 (window (S i) w x)) D) in T by (intros; unfold choose2; rewrite window_length; reflexivity).
  assert (S : (qsum (map (fun m => k_tau (snd m)) (s_metrics row)) * inject_Z D == 2 * inject_Z (zsum (map (fun x => kendall (window (S i) w x)) sms)))%Q).
  { clear - FM. induction FM as [|x m l ms (T & _) FM IH]; [reflexivity|]. cbn [map zsum qsum]. unfold sumz in T. cbn [map List.length total nth] in T. rewrite !Z.add_0_l in T.
    assert (CD : choose2 (window (S i) w x) = D) by (unfold choose2; rewrite window_length; reflexivity). rewrite CD in T. rewrite inject_Z_plus, Qmult_plus_distr_l, Qmult_plus_distr_r, IH, T. reflexivity. }
  rewrite <- S in T. rewrite inject_Z_mult in T. rewrite <- L1 in T.
  set (q := qsum (map (fun m => k_tau (snd m)) (s_metrics row))) in *. set (m := inject_Z (Z.of_nat (List.length cs))) in *. set (t := k_tau (s_all row)) in *. set (d := inject_Z D) in *.
  clearbody q m t d. assert (d * (t * m) == d * q)%Q by (rewrite <- (Qmult_comm q), <- T; ring). apply (Qmult_inj_l _ _ d); [lra|exact H0].
Qed.
End Tau.

(** ** Units *)
Definition aff (a b : Q) (x x' : Q) : Prop := (x' == a * x + b)%Q.
Lemma aff_nth a b l l' i : Forall2 (aff a b) l l' -> (i < List.length l)%nat -> (nth i l' 0 == a * nth i l 0 + b)%Q.
Proof. intros F. revert i. induction F as [|x y l l' H F IH]; intros [|i] L; cbn in *; try lia; [exact H|apply IH; lia]. Qed.
Lemma sign_scale c a x : c = 1 \/ c = -1 -> (0 < inject_Z c * a)%Q -> sign (a * x)%Q = c * sign x.
Proof.
  intros Hc Ha. destruct Hc as [-> | ->].
  - change (inject_Z 1) with 1%Q in Ha. rewrite Z.mul_1_l.
    unfold sign. cbn [Qmult Qnum]. rewrite Z.sgn_mul. assert (0 < Qnum a) by (assert (0 < a)%Q by lra; unfold Qlt in *; cbn in *; lia). rewrite (Z.sgn_pos (Qnum a)) by assumption. ring.
  - change (inject_Z (-1)) with (-(1))%Q in Ha.
    unfold sign. cbn [Qmult Qnum]. rewrite Z.sgn_mul. assert (Qnum a < 0) by (assert (a < 0)%Q by lra; unfold Qlt in *; cbn in *; lia). rewrite (Z.sgn_neg (Qnum a)) by assumption. ring.
Qed.
Lemma score_aff c a b l l' : c = 1 \/ c = -1 -> (0 < inject_Z c * a)%Q -> Forall2 (aff a b) l l' -> score l' = c * score l.
Proof.
  intros Hc Ha F. rewrite !score_kendall. pose proof (forall2_len _ _ _ F) as L. apply kendall_ext; [congruence|]. intros i j H.
  rewrite (sign_ext _ (a * (nth j l 0 - nth i l 0))%Q); [apply sign_scale; assumption|].
  rewrite (aff_nth a b l l' i F), (aff_nth a b l l' j F) by lia. ring.
Qed.
Lemma variance_aff a b l l' : ~ (a == 0)%Q -> Forall2 (aff a b) l l' -> variance l' = variance l.
Proof.
  intros Ha F. pose proof (forall2_len _ _ _ F) as L. unfold variance. rewrite !ties_total, <- L. do 3 f_equal. apply total_ext. intros i Hi.
  assert (O : occurs l' i = occurs l i).
  { unfold occurs. rewrite <- L. apply total_ext. intros j Hj. replace (Qeq_bool (nth j l' 0%Q) (nth i l' 0%Q)) with (Qeq_bool (nth j l 0%Q) (nth i l 0%Q)); [reflexivity|].
    apply eq_true_iff_eq. rewrite !Qeq_bool_iff, (aff_nth a b l l' i F Hi), (aff_nth a b l l' j F Hj). split; intros H; [rewrite H; reflexivity|].
    assert (H' : (a * nth j l 0 == a * nth i l 0)%Q) by lra. apply Qmult_inj_l in H'; assumption. }
  rewrite O. reflexivity.
Qed.
Definition flip (t : trend) : trend := match t with Increasing => Decreasing | Decreasing => Increasing | NoTrend => NoTrend end.
Definition kr (c : Z) (k k' : mk) : Prop :=
  k_p k' = k_p k /\ (k_tau k' == inject_Z c * k_tau k)%Q /\ k_trend k' = (if c =? 1 then k_trend k else flip (k_trend k)).
Lemma decide_aff tail crit c al s v d : c = 1 \/ c = -1 -> kr c (decide tail crit al s v d) (decide tail crit al (c * s) v d).
Proof.
  intros Hc. unfold kr, decide. cbn [k_p k_tau k_trend].
  assert (Z2 : zsq (c * s) v = zsq s v) by (destruct Hc as [-> | ->]; unfold zsq; [rewrite Z.mul_1_l; reflexivity|]; replace (-1 * s =? 0) with (s =? 0) by (apply eq_true_iff_eq; rewrite !Z.eqb_eq; lia); replace (Z.abs (-1 * s)) with (Z.abs s) by lia; reflexivity).
  rewrite Z2. split; [reflexivity|]. split; [rewrite inject_Z_mult; unfold Qdiv; ring|].
  destruct (negb (Qle_bool (zsq s v) (crit al))); [|destruct (c =? 1); reflexivity].
  destruct Hc as [-> | ->]; [rewrite Z.mul_1_l; reflexivity|]. change (-1 =? 1) with false. cbn match.
  destruct (0 <? s) eqn:A, (s <? 0) eqn:B, (0 <? -1 * s) eqn:C, (-1 * s <? 0) eqn:D; try reflexivity;
    rewrite ?Z.ltb_lt, ?Z.ltb_ge in *; lia.
Qed.
Lemma threshold_aff c thr k k' : c = 1 \/ c = -1 -> kr c k k' -> kr c (threshold_trend thr k) (threshold_trend thr k').
Proof.
  intros Hc (P & T & R). unfold threshold_trend. assert (A : (Qabs (k_tau k') == Qabs (k_tau k))%Q).
  { rewrite T, Qabs_Qmult. destruct Hc as [-> | ->]; [change (Qabs (inject_Z 1)) with 1%Q|change (Qabs (inject_Z (-1))) with 1%Q]; ring. }
  replace (Qle_bool (Qabs (k_tau k')) thr) with (Qle_bool (Qabs (k_tau k)) thr) by (apply eq_true_iff_eq; rewrite !Qle_bool_iff, A; reflexivity).
  destruct (Qle_bool (Qabs (k_tau k)) thr); unfold kr; cbn [k_p k_tau k_trend]; repeat split; auto. destruct (c =? 1); reflexivity.
Qed.
Definition orel {A B} (R : A -> B -> Prop) (a : option A) (b : option B) : Prop :=
  match a, b with Some x, Some y => R x y | None, None => True | _, _ => False end.
(** a column in other units: [c] is the sign of the factor *)
Definition colrel (c : Z) (l l' : list Q) : Prop := exists a b, (0 < inject_Z c * a)%Q /\ Forall2 (aff a b) l l'.
Lemma colrel_nz c a : c = 1 \/ c = -1 -> (0 < inject_Z c * a)%Q -> ~ (a == 0)%Q.
Proof. intros Hc Ha E. rewrite E in Ha. lra. Qed.
Lemma colrel_stats c l l' : c = 1 \/ c = -1 -> colrel c l l' -> score l' = c * score l /\ variance l' = variance l /\ pairs l' = pairs l /\ List.length l' = List.length l.
Proof.
  intros Hc (a & b & Ha & F). pose proof (forall2_len _ _ _ F) as L. repeat split.
  - apply (score_aff c a b); assumption.
  - apply (variance_aff a b); [eapply colrel_nz; eassumption|exact F].
  - unfold pairs. rewrite L. reflexivity.
  - congruence.
Qed.
Lemma original_aff tail crit c l l' : c = 1 \/ c = -1 -> colrel c l l' -> orel (kr c) (original_test tail crit l) (original_test tail crit l').
Proof.
  intros Hc R. destruct (colrel_stats _ _ _ Hc R) as (S & V & P & L). unfold original_test. rewrite L, S, V, P. destruct (List.length l <? 2)%nat; [exact I|]. apply decide_aff, Hc.
Qed.
Lemma multi_aff tail crit c ls ls' : c = 1 \/ c = -1 -> Forall2 (colrel c) ls ls' -> orel (kr c) (multivariate_test tail crit ls) (multivariate_test tail crit ls').
Proof.
  intros Hc F. unfold multivariate_test.
  assert (E : existsb (fun x => (List.length x <? 2)%nat) ls' = existsb (fun x => (List.length x <? 2)%nat) ls /\ zsum (map score ls') = c * zsum (map score ls) /\
              qsum (map variance ls') = qsum (map variance ls) /\ qsum (map pairs ls') = qsum (map pairs ls)).
  { induction F as [|l l' ls ls' R F IH]; [cbn; repeat split; lia|]. destruct (colrel_stats _ _ _ Hc R) as (S & V & P & L). destruct IH as (I1 & I2 & I3 & I4). cbn [existsb map zsum qsum]. rewrite S, V, P, L, I1, I2, I3, I4. repeat split. ring. }
  destruct E as (E1 & E2 & E3 & E4). rewrite E1, E2, E3, E4. destruct (existsb _ ls); [exact I|]. apply decide_aff, Hc.
Qed.
(** frames in other units, column by column *)
Definition frel (c : Z) (f f' : frame Q) : Prop :=
  f_times f' = f_times f /\ Forall2 (fun p q => fst q = fst p /\ colrel c (snd p) (snd q)) (f_cols f) (f_cols f').
Definition statrel (c : Z) (r r' : stat) : Prop :=
  s_ds r' = s_ds r /\ kr c (s_all r) (s_all r') /\ Forall2 (fun m m' => fst m' = fst m /\ kr c (snd m) (snd m')) (s_metrics r) (s_metrics r').
Lemma forall2_skipn {A B} (R : A -> B -> Prop) n l r : Forall2 R l r -> Forall2 R (skipn n l) (skipn n r).
Proof. intros F. revert n. induction F as [|x y l r H F IH]; intros [|n]; cbn; try constructor; auto. Qed.
Lemma forall2_firstn {A B} (R : A -> B -> Prop) n l r : Forall2 R l r -> Forall2 R (firstn n l) (firstn n r).
Proof. intros F. revert n. induction F as [|x y l r H F IH]; intros [|n]; cbn; try constructor; auto. Qed.
Lemma forall2_last (R : Q -> Q -> Prop) w l r : Forall2 R l r -> Forall2 R (last_rows w l) (last_rows w r).
Proof. intros F. unfold last_rows. destruct (w =? 0)%nat; [exact F|]. rewrite (forall2_len _ _ _ F). apply forall2_skipn, F. Qed.
Lemma forall2_keep {A B} (R : A -> B -> Prop) (g : Z -> bool) times l r : Forall2 R l r ->
  Forall2 R (map snd (filter (fun p => g (fst p)) (combine times l))) (map snd (filter (fun p => g (fst p)) (combine times r))).
Proof. intros F. revert times. induction F as [|x y l r H F IH]; intros [|t times]; try constructor. cbn. destruct (g t); cbn; [constructor; auto|auto]. Qed.
Lemma forall2_maps {A B C D} (R : C -> D -> Prop) (f : A -> C) (g : B -> D) l r : Forall2 (fun x y => R (f x) (g y)) l r -> Forall2 R (map f l) (map g r).
Proof. induction 1; constructor; auto. Qed.
Lemma frel_cols c (h : list Q -> list Q) ts f f' : frel c f f' -> (forall l l', colrel c l l' -> colrel c (h l) (h l')) ->
  frel c (Frame ts (map (fun p => (fst p, h (snd p))) (f_cols f))) (Frame ts (map (fun p => (fst p, h (snd p))) (f_cols f'))).
Proof.
  intros [_ F] H. split; [reflexivity|]. cbn [f_cols]. apply forall2_maps. apply (forall2_imp _ _ _ _ F). intros p q _ [E R]. cbn [fst snd]. auto.
Qed.
Lemma colrel_lift c (h : list Q -> list Q) : (forall (R : Q -> Q -> Prop) l l', Forall2 R l l' -> Forall2 R (h l) (h l')) -> forall l l', colrel c l l' -> colrel c (h l) (h l').
Proof. intros H l l' (a & b & Ha & F). exists a, b. auto. Qed.
Lemma upto_frel c t f f' : frel c f f' -> frel c (upto t f) (upto t f').
Proof.
  intros R. unfold upto. rewrite (proj1 R). apply (frel_cols c (fun l => map snd (filter (fun p => fst p <=? t) (combine (f_times f) l))) _ _ _ R). apply colrel_lift. intros R0 l l' F. apply (forall2_keep R0 (fun z => z <=? t)), F.
Qed.
Lemma between_frel c x y f f' : frel c f f' -> frel c (between x y f) (between x y f').
Proof.
  intros R. unfold between. rewrite (proj1 R). apply (frel_cols c (fun l => map snd (filter (fun p => (x <=? fst p) && (fst p <=? y)) (combine (f_times f) l))) _ _ _ R). apply colrel_lift.
  intros R0 l l' F. apply (forall2_keep R0 (fun z => (x <=? z) && (z <=? y))), F.
Qed.
Lemma qsum_aff a b l l' : Forall2 (aff a b) l l' -> (qsum l' == a * qsum l + inject_Z (Z.of_nat (List.length l)) * b)%Q.
Proof.
  induction 1 as [|x y l l' H F IH]; [cbn; ring|]. cbn [qsum List.length]. unfold aff in H. rewrite H, IH, Nat2Z.inj_succ. unfold Z.succ. rewrite inject_Z_plus. change (inject_Z 1) with 1%Q. ring.
Qed.
Lemma mean_aff a b l l' : l <> [] -> Forall2 (aff a b) l l' -> aff a b (mean l) (mean l').
Proof.
  intros N F. unfold aff, mean. rewrite (qsum_aff a b l l' F), <- (forall2_len _ _ _ F). field. apply Qnot_eq_sym, Qlt_not_eq, zlt0. destruct l; [congruence|cbn; lia].
Qed.
Lemma rolling_aff a b w l l' : (1 <= w)%nat -> Forall2 (aff a b) l l' -> Forall2 (aff a b) (rolling w l) (rolling w l').
Proof.
  intros Hw F. unfold rolling. rewrite <- (forall2_len _ _ _ F). apply forall2_maps.
  assert (G : forall s, (forall i, In i s -> (i < List.length l)%nat) -> Forall2 (fun x y => aff a b (mean (firstn w (skipn x l))) (mean (firstn w (skipn y l')))) s s).
  { induction s as [|i s IH]; intros Hs; constructor; [|apply IH; intros; apply Hs; right; assumption]. apply mean_aff; [|apply forall2_firstn, forall2_skipn, F].
    intros C. apply (f_equal (@List.length Q)) in C. rewrite firstn_length, skipn_length in C. cbn in C. specialize (Hs i (or_introl eq_refl)). lia. }
  apply G. intros i I. apply in_seq in I. lia.
Qed.
Section Units.
Variables (init : list Q -> Q) (tail crit : Q -> Q).
Hypothesis init_aff : forall a b l l', l <> [] -> Forall2 (fun x x' => x' == a * x + b)%Q l l' -> (init l' == a * init l + b)%Q.
Lemma ses_aff a b l l' v v' : aff a b v v' -> Forall2 (aff a b) l l' -> Forall2 (aff a b) (ses v l) (ses v' l').
Proof. intros H F. revert v v' H. induction F as [|x y l l' Hx F IH]; intros v v' H; cbn [ses]; constructor; [exact H|]. apply IH. unfold aff in *. rewrite Hx, H. ring. Qed.
Lemma smoothing_frel c f f' : frel c f f' -> orel (frel c) (smoothing init f) (smoothing init f').
Proof.
  intros R. pose proof R as [T F]. unfold smoothing. rewrite T. inversion F as [E1 E2|p q l l' Rpq F' E1 E2].
  - cbn. split; [reflexivity|constructor].
  - rewrite E1, E2. destruct (f_times f) as [|t ts]; [exact I|]. cbn [orel]. apply (frel_cols c (fun y => ses (init y) y) _ _ _ R).
    intros x x' (a & b & Ha & G). exists a, b. split; [exact Ha|]. destruct x as [|x0 xs]; [inversion G; constructor|]. apply ses_aff; [apply init_aff; [discriminate|exact G]|exact G].
Qed.
Lemma deseason_frel c s f f' : frel c f f' -> frel c (deseason s f) (deseason s f').
Proof.
  intros R. destruct s as [s|]; [|exact R]. cbn [deseason]. rewrite (proj1 R). apply (frel_cols c (rolling (season_days s)) _ _ _ R).
  intros x x' (a & b & Ha & G). exists a, b. split; [exact Ha|]. apply rolling_aff; [rewrite <- lost_days; lia|exact G].
Qed.
Lemma mapM_rel {A B C D} (RA : A -> B -> Prop) (R : C -> D -> Prop) f g l r : Forall2 RA l r -> (forall x y, RA x y -> orel R (f x) (g y)) -> orel (Forall2 R) (mapM f l) (mapM g r).
Proof.
  intros F H. induction F as [|x y l r Hxy F IH]; [cbn; constructor|]. cbn [mapM]. specialize (H x y Hxy). destruct (f x), (g y); try contradiction; [|exact I].
  cbn in H. destruct (mapM f l), (mapM g r); try contradiction; [|exact I]. cbn. constructor; assumption.
Qed.
Lemma run_frel c multi thr w f f' : c = 1 \/ c = -1 -> frel c f f' -> orel (statrel c) (run_detector tail crit multi thr w f) (run_detector tail crit multi thr w f').
Proof.
  intros Hc [T F]. unfold run_detector. rewrite T. destruct (rev (f_times f)) as [|t r]; [exact I|].
  assert (LA : forall l l', colrel c l l' -> colrel c (last_rows w l) (last_rows w l')) by (apply colrel_lift; intros; apply forall2_last; assumption).
  assert (O : forall p q : string * list Q, colrel c (snd p) (snd q) -> orel (kr c) (original_test tail crit (last_rows w (snd p))) (original_test tail crit (last_rows w (snd q)))) by (intros p q H; apply original_aff; auto).
  assert (BIG : orel (statrel c)
      (if multi then match multivariate_test tail crit (map (fun c => last_rows w (snd c)) (f_cols f)), mapM (fun c => option_map (fun k => (fst c, threshold_trend thr k)) (original_test tail crit (last_rows w (snd c)))) (f_cols f) with Some k, Some ms => Some (Stat t (threshold_trend thr k) ms) | _, _ => None end else None)
      (if multi then match multivariate_test tail crit (map (fun c => last_rows w (snd c)) (f_cols f')), mapM (fun c => option_map (fun k => (fst c, threshold_trend thr k)) (original_test tail crit (last_rows w (snd c)))) (f_cols f') with Some k, Some ms => Some (Stat t (threshold_trend thr k) ms) | _, _ => None end else None)).
  { destruct multi; [|exact I].
    assert (M : orel (kr c) (multivariate_test tail crit (map (fun c => last_rows w (snd c)) (f_cols f))) (multivariate_test tail crit (map (fun c => last_rows w (snd c)) (f_cols f')))).
    { apply multi_aff; [exact Hc|]. apply forall2_maps. apply (forall2_imp _ _ _ _ F). intros p q _ [_ R]. auto. }
    assert (MM : orel (Forall2 (fun m m' : string * mk => fst m' = fst m /\ kr c (snd m) (snd m')))
       (mapM (fun c => option_map (fun k => (fst c, threshold_trend thr k)) (original_test tail crit (last_rows w (snd c)))) (f_cols f))
       (mapM (fun c => option_map (fun k => (fst c, threshold_trend thr k)) (original_test tail crit (last_rows w (snd c)))) (f_cols f'))).
    { eapply mapM_rel; [exact F|]. intros p q [E R]. specialize (O p q R). destruct (original_test tail crit (last_rows w (snd p))), (original_test tail crit (last_rows w (snd q))); try contradiction; [|exact I].
      cbn. split; [exact E|]. apply threshold_aff; assumption. }
    destruct (multivariate_test tail crit (map (fun c => last_rows w (snd c)) (f_cols f))), (multivariate_test tail crit (map (fun c => last_rows w (snd c)) (f_cols f'))); try contradiction; [|exact I].
    destruct (mapM _ (f_cols f)), (mapM _ (f_cols f')); try contradiction; [|exact I]. cbn. split; [reflexivity|]. split; [apply threshold_aff; assumption|exact MM]. }
  inversion F as [E1 E2|p q l l' [E R] F' E1 E2].
  - rewrite <- E1, <- E2 in BIG. exact BIG.
  - inversion F' as [E3 E4|p' q' m m' Rp F'' E3 E4].
    + destruct multi; [exact I|]. specialize (O p q R). destruct (original_test tail crit (last_rows w (snd p))), (original_test tail crit (last_rows w (snd q))); try contradiction; [|exact I].
      cbn. split; [reflexivity|]. split; [apply threshold_aff; assumption|constructor].
    + rewrite <- E1, <- E2, <- E3, <- E4 in BIG. exact BIG.
Qed.
(** the data in other units: each metric [x] is replaced by [a x + b]; all factors have sign [c] *)
Definition rescaled (c : Z) (data data' : frame (option Q)) : Prop :=
  f_times data' = f_times data /\
  Forall2 (fun p q => fst q = fst p /\ exists a b, (0 < inject_Z c * a)%Q /\ snd q = map (option_map (fun x => a * x + b)%Q) (snd p)) (f_cols data) (f_cols data').
Lemma all_some_scale (g : Q -> Q) l : all_some (map (option_map g) l) = option_map (map g) (all_some l).
Proof. induction l as [|[x|] l IH]; cbn; [reflexivity| |reflexivity]. rewrite IH. destruct (all_some l); reflexivity. Qed.
Lemma dropna_frel c data data' : rescaled c data data' -> frel c (dropna data) (dropna data').
Proof.
  intros [T F]. split; [exact T|]. unfold dropna. cbn [f_cols]. induction F as [|p q l l' (E & a & b & Ha & Es) F IH]; [constructor|]. cbn [flat_map].
  rewrite Es, all_some_scale. destruct (all_some (snd p)) as [x|]; cbn [option_map app]; [|exact IH]. constructor; [|exact IH]. cbn [fst snd]. split; [exact E|]. exists a, b. split; [exact Ha|].
  clear. induction x; constructor; [unfold aff; reflexivity|exact IHx].
Qed.
(** In other units the tests come out the same; with all metrics reversed in sign the same times are
    reported with the opposite direction and Tau. *)
Theorem C120_units : forall c multi threshold alpha w tr s data data',
  c = 1 \/ c = -1 -> rescaled c data data' ->
  match statistics init tail crit multi threshold alpha w tr s data, statistics init tail crit multi threshold alpha w tr s data' with
  | Some st, Some st' => Forall2 (statrel c) st st'
  | None, None => True
  | _, _ => False
  end.
Proof.
  intros c multi threshold alpha w tr s data data' Hc R. pose proof (dropna_frel _ _ _ R) as D. pose proof (proj1 D) as T. unfold statistics. cbv zeta. rewrite T. destruct tr as [d|].
  - destruct (d <? w)%nat; [exact I|]. destruct (List.length (f_times (dropna data)) <? d)%nat; [exact I|]. destruct (rev (f_times (dropna data))) as [|last r]; [exact I|].
    pose proof (smoothing_frel _ _ _ (deseason_frel _ s _ _ (between_frel _ (last - Z.of_nat d * day) last _ _ D))) as SM.
    destruct (smoothing init (deseason s (between (last - Z.of_nat d * day) last (dropna data)))) as [sm|], (smoothing init (deseason s (between (last - Z.of_nat d * day) last (dropna data')))) as [sm'|]; try contradiction; [|exact I].
    cbn in SM. pose proof (run_frel _ multi threshold w _ _ Hc SM) as RF. destruct (run_detector tail crit multi threshold w sm), (run_detector tail crit multi threshold w sm'); try contradiction; [|exact I].
    cbn. constructor; [exact RF|constructor].
  - destruct (List.length (f_times (dropna data)) <? w)%nat; [exact I|].
    pose proof (smoothing_frel _ _ _ (deseason_frel _ s _ _ D)) as SM.
    destruct (smoothing init (deseason s (dropna data))) as [sm|], (smoothing init (deseason s (dropna data'))) as [sm'|]; try contradiction; [|exact I]. cbn in SM. rewrite (proj1 SM).
    apply (mapM_rel eq (statrel c)).
    + induction (skipn w (f_times sm)); constructor; auto.
    + intros t t' <-. apply run_frel; [exact Hc|]. apply upto_frel, SM.
Qed.
End Units.
Lemma first_aff a b l l' : l <> [] -> Forall2 (fun x x' => x' == a * x + b)%Q l l' -> (first_value l' == a * first_value l + b)%Q.
Proof. intros N F. destruct F; [congruence|exact H]. Qed.

Print Assumptions C120_tau.
Print Assumptions C120_overall.
Print Assumptions C120_units.
