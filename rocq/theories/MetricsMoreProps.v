(** C32: what the remaining metrics compute. *)
From Verif Require Import Common BacktestModel MetricsModel MetricsSpec MetricsProofs MedianSpec MedianProofs.
From Coq Require Import Lqa Lia.
Open Scope nat_scope.

Lemma full_len (a b : list Q) : length a = length b -> length (full a) = length (full b).
Proof. unfold full. rewrite !map_length. auto. Qed.
Lemma map_full_combine {B} (g : cell * cell -> B) (h : Q * Q -> B) a b :
  (forall x y, g (Some x, Some y) = h (x, y)) -> map g (combine (full a) (full b)) = map h (combine a b).
Proof.
  intros H. revert b. unfold full. induction a as [|x a IH]; intros [|y b]; try reflexivity. cbn [map combine]. rewrite H, IH. reflexivity.
Qed.

(** relative errors are relative to the actual value *)
Theorem C32_percentages : forall a b, length a = length b ->
  (exists r, mape (full a) (full b) = Some r
     /\ is_mean r (map (fun p => relative (Qabs (fst p - snd p)) (fst p)) (combine a b)))
  /\ (exists r, mpe (full a) (full b) = Some r
     /\ is_mean r (map (fun p => relative (fst p - snd p) (fst p)) (combine a b)))
  /\ (exists r, mspe (full a) (full b) = Some r
     /\ is_mean r (map (fun p => (relative (fst p - snd p) (fst p) * relative (fst p - snd p) (fst p))%Q) (combine a b))).
Proof.
  intros a b L. unfold mape, mpe, mspe, percentage_error. rewrite arrays2_eq by (apply full_len, L). cbn [option_map].
  assert (R : forall n d, safe_divide (Some n) (Some d) = Some (relative n d)).
  { intros n d. unfold safe_divide, relative. destruct (Qeq_bool d 0), (Qeq_bool n 0), (Qle_bool 0 n); reflexivity. }
  split; [|split].
  - eexists. split; [reflexivity|].
    rewrite (map_full_combine abs_pct_err1 (fun p => Some (relative (Qabs (fst p - snd p)) (fst p)))) by (intros; apply R).
    apply nanmean_some_map.
  - eexists. split; [reflexivity|].
    rewrite (map_full_combine pct_err1 (fun p => Some (relative (fst p - snd p) (fst p)))) by (intros; apply R).
    apply nanmean_some_map.
  - destruct a as [|a0 a]; [eexists; split; [reflexivity|destruct b; [reflexivity|discriminate]]|].
    replace (Nat.eqb (length (full (a0 :: a))) 0) with false by reflexivity.
    eexists. split; [reflexivity|].
    rewrite (map_full_combine _ (fun p => Some (relative (fst p - snd p) (fst p) * relative (fst p - snd p) (fst p))%Q)).
    + apply nanmean_some_map.
    + intros x y. unfold pct_err1, err1. cbn [fst snd lift2]. rewrite R. reflexivity.
Qed.
(** the median metrics report the median error over the complete pairs *)
Theorem C32_medians : forall yt yp, length yt = length yp ->
  match mdae yt yp with
  | Some None => present yt yp = []
  | Some (Some v) => present yt yp <> [] /\ median_of (map (fun p => Qabs (fst p - snd p)) (present yt yp)) v
                     /\ halves (map (fun p => Qabs (fst p - snd p)) (present yt yp)) v
  | None => False
  end.
Proof.
  intros yt yp L. unfold mdae. rewrite arrays2_eq by exact L. cbn [option_map]. unfold nanmedian.
  rewrite (strict_values abs_err1 (fun x y => Qabs (x - y)) yt yp abs_err1_strict).
  destruct (present yt yp) as [|p l] eqn:E; [reflexivity|]. cbn [map]. split; [discriminate|].
  split; [apply qmedian_spec|]. apply median_halves, qmedian_spec.
Qed.
Theorem C32_median_percentage : forall a b, length a = length b -> a <> [] ->
  exists v, mdape (full a) (full b) = Some (Some v)
    /\ median_of (map (fun p => relative (Qabs (fst p - snd p)) (fst p)) (combine a b)) v.
Proof.
  intros a b L N. unfold mdape. rewrite arrays2_eq by (apply full_len, L). cbn [option_map]. unfold nanmedian.
  rewrite (map_full_combine abs_pct_err1 (fun p => Some (relative (Qabs (fst p - snd p)) (fst p)))).
  - rewrite <- (map_map (fun p => relative (Qabs (fst p - snd p)) (fst p)) Some).
    change (map Some ?l) with (full l). rewrite non_nan_full.
    destruct a as [|x a]; [congruence|]. destruct b as [|y b]; [discriminate|]. cbn [combine map]. eexists. split; [reflexivity|]. apply qmedian_spec.
  - intros x y. unfold abs_pct_err1, abs_err1, err1, safe_divide, relative. cbn [fst snd lift2 lift1 option_map].
    destruct (Qeq_bool x 0), (Qeq_bool (Qabs (x - y)) 0), (Qle_bool 0 (Qabs (x - y))); reflexivity.
Qed.
(** sMAPE and the symmetric bias: twice the mean relative error, and minus twice the signed one *)
Theorem C32_symmetric : forall yt yp, length yt = length yp ->
  (exists r, is_mean r (map (fun p => sym_rel (Qabs (fst p - snd p)) (fst p) (snd p)) (present yt yp))
     /\ exists v, smape yt yp = Some v /\ same_value v (option_map (Qmult 2) r))
  /\ (exists r, is_mean r (map (fun p => sym_rel (snd p - fst p) (fst p) (snd p)) (present yt yp))
     /\ exists v, sbias yt yp = Some v /\ same_value v (option_map (Qmult 2) r)).
Proof.
  intros yt yp L. unfold smape, scaled_smape, sbias. rewrite arrays2_eq by exact L. cbn [option_map]. split.
  - eexists. split; [apply (strict_mean _ _ yt yp sym_abs_strict)|]. eexists. split; [reflexivity|].
    destruct (nanmean _); cbn; [reflexivity|exact I].
  - pose proof (strict_mean _ _ yt yp sym_err_strict) as M. cbn beta in M.
    exists (option_map Qopp (nanmean (map (fun p => safe_divide (err1 p) (sym_denom p)) (combine yt yp)))). split.
    + destruct (nanmean _) as [m|]; cbn [option_map is_mean] in *.
      * destruct M as [N M]. split; [intros C; apply N; apply map_eq_nil in C; rewrite C; reflexivity|].
        rewrite map_length in *.
        assert (E : (qsum (map (fun p => sym_rel (snd p - fst p) (fst p) (snd p)) (present yt yp))
                     == - qsum (map (fun p => sym_rel (fst p - snd p) (fst p) (snd p)) (present yt yp)))%Q).
        { generalize (present yt yp). intros l. induction l as [|p l IH]; [reflexivity|]. cbn [map qsum]. rewrite IH.
          unfold sym_rel. destruct (Qeq_bool _ 0) eqn:Z; [ring|]. apply qeq_false in Z. field. exact Z. }
        rewrite E, <- M. ring.
      * apply map_eq_nil in M. rewrite M. reflexivity.
    + eexists. split; [reflexivity|]. destruct (nanmean _); cbn; [ring|exact I].
Qed.
(** the scaled error: mean error over the mean error of repeating the last value *)
Lemma diffs_full a : diffs (full a) = full (steps_of a).
Proof.
  unfold full, steps_of. induction a as [|x a IH]; [reflexivity|]. destruct a as [|y a]; [reflexivity|].
  cbn [map]. cbn [map] in IH. change (diffs (Some x :: Some y :: map Some a)) with (Some (y - x)%Q :: diffs (Some y :: map Some a)). rewrite IH. cbn [length]. rewrite !Nat.sub_succ, !Nat.sub_0_r.
  cbn [seq map]. f_equal. rewrite <- seq_shift, !map_map. reflexivity.
Qed.
Theorem C32_scaled_error : forall a b e d, length a = length b ->
  is_mean (Some e) (map (fun p => Qabs (fst p - snd p)) (combine a b)) ->
  is_mean (Some d) (map Qabs (steps_of a)) -> (1 # 100000000 < d)%Q ->
  exists v, mase (full a) (full b) = Some (Some v) /\ (v == e / d)%Q.
Proof.
  intros a b e d L He Hd Hp. unfold mase. rewrite arrays2_eq by (apply full_len, L). cbn [option_map].
  rewrite diffs_full. assert (E1 : map (lift1 Qabs) (full (steps_of a)) = map (fun x => Some (Qabs x)) (steps_of a)).
  { unfold full. rewrite map_map. reflexivity. }
  rewrite E1. pose proof (nanmean_some_map Qabs (steps_of a)) as M1.
  pose proof (strict_mean _ _ (full a) (full b) abs_err1_strict) as M2. rewrite present_full in M2.
  pose proof (is_mean_eq _ _ _ _ M1 Hd eq_refl) as Q1. pose proof (is_mean_eq _ _ _ _ M2 He eq_refl) as Q2.
  destruct (nanmean (map (fun x => Some (Qabs x)) (steps_of a))) as [d'|]; [|exfalso; cbn in M1; destruct Hd as [N _]; apply N; exact M1].
  destruct (nanmean (map abs_err1 (combine (full a) (full b)))) as [e'|]; [|exfalso; cbn in M2; destruct He as [N _]; apply N; exact M2].
  assert (Ed : (d' == d)%Q).
  { destruct M1 as [N1 M1], Hd as [_ Hd]. apply (Qmult_inj_r _ _ (inject_Z (Z.of_nat (length (map Qabs (steps_of a)))))).
    - pose proof (len_pos (map Qabs (steps_of a)) N1). lra.
    - rewrite M1, Hd. reflexivity. }
  assert (Ee : (e' == e)%Q).
  { destruct M2 as [N1 M2], He as [_ He]. set (l := map (fun p => Qabs (fst p - snd p)) (combine a b)) in *.
    apply (Qmult_inj_r _ _ (inject_Z (Z.of_nat (length l)))).
    - pose proof (len_pos l N1). lra.
    - rewrite M2, He. reflexivity. }
  assert (T : Qle_bool (Qabs d') tiny = false).
  { destruct (Qle_bool (Qabs d') tiny) eqn:E; [|reflexivity]. apply qle_true in E. pose proof (Qle_Qabs d'). unfold tiny in E. lra. }
  rewrite T. eexists. split; [reflexivity|]. rewrite Ed, Ee. reflexivity.
Qed.
(** the probability scores compare ranks of prediction and observation within the observations *)
Theorem C32_probability_scores : forall a b, length a = length b ->
  (exists r, crps a (full b) = Some r
     /\ is_mean r (map (fun p => ((share_below a (snd p) - share_below a (fst p)) * (share_below a (snd p) - share_below a (fst p)))%Q) (combine a b)))
  /\ (exists r, leps a (full b) = Some r
     /\ is_mean r (map (fun p => Qabs (share_below a (snd p) - share_below a (fst p))) (combine a b))).
Proof.
  intros a b L. unfold crps, leps, prob_score. rewrite arrays2_eq by (unfold full; rewrite map_length; exact L). cbn [option_map].
  assert (P : predicted a (full b) = combine a b).
  { clear. revert b. unfold predicted, full. induction a as [|x a IH]; intros [|y b]; try reflexivity. cbn [map combine flat_map fst snd app].
    rewrite IH. reflexivity. }
  rewrite P. assert (F : map fst (combine a b) = a).
  { clear P. revert b L. induction a as [|x a IH]; intros [|y b] L; try discriminate; [reflexivity|]. cbn. rewrite IH by (cbn in L; lia). reflexivity. }
  rewrite F. assert (E : forall x, (ecdf a x == share_below a x)%Q).
  { intros x. unfold ecdf, share_below. rewrite b2q_count. reflexivity. }
  assert (K : forall (f g : Q * Q -> Q), (forall p, f p == g p)%Q -> is_mean (nanmean (map (fun p => Some (f p)) (combine a b))) (map g (combine a b))).
  { intros f g H. pose proof (nanmean_some_map f (combine a b)) as M. destruct (nanmean _) as [m|]; cbn [is_mean] in *.
    - destruct M as [N M]. split; [intros C; apply N; apply map_eq_nil in C; rewrite C; reflexivity|]. rewrite map_length in *. rewrite M.
      apply qsum_ext. intros; apply H.
    - apply map_eq_nil in M. rewrite M. reflexivity. }
  split.
  - eexists. split; [reflexivity|]. apply (K (fun p => (ecdf a (snd p) - ecdf a (fst p)) * (ecdf a (snd p) - ecdf a (fst p)))%Q).
    intros p. rewrite !E. reflexivity.
  - eexists. split; [reflexivity|]. apply (K (fun p => Qabs (ecdf a (snd p) - ecdf a (fst p)))%Q).
    intros p. rewrite !E. reflexivity.
Qed.
(** a point without a prediction does not count, neither among the errors nor among the observations they are ranked in *)
Theorem C32_probability_missing : forall a ya x b yb, length a = length ya -> length b = length yb ->
  crps (a ++ x :: b) (ya ++ None :: yb) = crps (a ++ b) (ya ++ yb) /\ leps (a ++ x :: b) (ya ++ None :: yb) = leps (a ++ b) (ya ++ yb).
Proof.
  intros a ya x b yb L M.
  assert (P : predicted (a ++ x :: b) (ya ++ None :: yb) = predicted (a ++ b) (ya ++ yb)).
  { unfold predicted. revert ya L. induction a as [|u a IH]; intros [|v ya] L; try discriminate; [reflexivity|].
    cbn [app combine flat_map]. rewrite IH by (cbn in L; lia). reflexivity. }
  unfold crps, leps, prob_score. rewrite !arrays2_eq by (rewrite !app_length; cbn; lia). rewrite P. split; reflexivity.
Qed.
Example C32_probability_missing_case : crps [1; 9; 2]%Q [Some 2; None; Some 1]%Q = crps [1; 2]%Q [Some 2; Some 1]%Q /\ crps [1; 2]%Q [Some 2; Some 1]%Q <> Some None.
Proof. split; [reflexivity|discriminate]. Qed.
(** share of points whose observation is at least [t] times the prediction *)
Theorem C32_frequency : forall a b t, length a = length b ->
  exists r, freq_exceeds (full a) (full b) t = Some r
    /\ match r with
       | None => a = []
       | Some v => (v * inject_Z (Z.of_nat (length a)) == inject_Z (Z.of_nat (count (fun p => Qle_bool (t * snd p) (fst p)) (combine a b))))%Q
       end.
Proof.
  intros a b t L. unfold freq_exceeds. rewrite arrays2_eq by (apply full_len, L). cbn [option_map]. eexists. split; [reflexivity|].
  rewrite (map_full_combine _ (fun p => Some (b2q (Qle_bool (t * snd p) (fst p))))) by (intros; reflexivity).
  pose proof (nanmean_some_map (fun p => b2q (Qle_bool (t * snd p) (fst p))) (combine a b)) as M.
  destruct (nanmean _) as [v|]; cbn [is_mean] in M.
  - destruct M as [_ M]. rewrite map_length, combine_length, <- L, Nat.min_id in M. rewrite M. apply b2q_count.
  - apply map_eq_nil in M. destruct a as [|x a]; [reflexivity|]. destruct b; discriminate.
Qed.
(** the loss of a quantile forecast, for any level *)
Theorem C32_pinball : forall yt yp t, length yt = length yp -> (0 <= t <= 1)%Q ->
  exists r, pinball_loss yt yp t = Some r
    /\ is_mean r (map (fun p => pinball_of t (fst p) (snd p)) (present yt yp)).
Proof.
  intros yt yp t L [T0 T1]. unfold pinball_loss. rewrite arrays2_eq by exact L.
  rewrite (proj2 (qlt_false t 0) T0), (proj2 (qlt_false 1 t) T1). cbn [orb]. eexists. split; [reflexivity|].
  pose proof (strict_mean _ _ yt yp (pinball1_strict t)) as M. destruct (nanmean _) as [m|]; cbn [is_mean] in *.
  - destruct M as [N M]. split; [intros C; apply N; apply map_eq_nil in C; rewrite C; reflexivity|]. rewrite map_length in *. rewrite M.
    apply qsum_ext. intros p _. apply pinball_eq; assumption.
  - apply map_eq_nil in M. rewrite M. reflexivity.
Qed.
Theorem C32_pinball_levels : forall yt yp t, (t < 0 \/ 1 < t)%Q -> pinball_loss yt yp t = None.
Proof.
  intros yt yp t H. unfold pinball_loss. destruct (arrays2 yt yp); [|reflexivity].
  destruct H as [H|H]; [rewrite (proj2 (qlt_true t 0) H)|rewrite (proj2 (qlt_true 1 t) H), orb_true_r]; reflexivity.
Qed.
(** the pointwise coverage *)
Theorem C34_pointwise : forall y lo up, length y = length lo -> length y = length up ->
  mult_coverage (full y) (full lo) (full up) None
  = Some (map (fun t => b2q (inside (fst (fst t)) (snd (fst t)) (snd t))) (combine (combine y lo) up)).
Proof.
  intros y lo up L1 L2. unfold mult_coverage. rewrite arrays3_eq by (unfold full; rewrite !map_length; assumption). cbn [option_map].
  f_equal. clear. revert lo up. unfold full. induction y as [|a y IH]; intros [|b lo] [|c up]; try reflexivity.
  cbn [map combine]. rewrite IH. reflexivity.
Qed.
Example C32_more_case :
  mape (full [2; 0]%Q) (full [1; 5]%Q) = Some (Some ((1 / 2 + (1 + 0)) / 2)%Q)
  /\ option_map (option_map Qred) (mdae (full [1; 2; 3; 9]%Q) (full [1; 1; 1; 1]%Q)) = Some (Some (3 # 2)%Q)
  /\ option_map (option_map Qred) (mase (full [1; 2; 4]%Q) (full [1; 2; 2]%Q)) = Some (Some (4 # 9)%Q)
  /\ option_map (option_map Qred) (leps [1; 2; 3]%Q (full [3; 2; 3]%Q)) = Some (Some (2 # 9)%Q)
  /\ option_map (option_map Qred) (sbias (full [1; 1]%Q) (full [3; 1]%Q)) = Some (Some (1 # 2)%Q).
Proof. repeat split; vm_compute; reflexivity. Qed.

Print Assumptions C32_percentages.
Print Assumptions C32_medians.
Print Assumptions C32_median_percentage.
Print Assumptions C32_symmetric.
Print Assumptions C32_scaled_error.
Print Assumptions C32_probability_scores.
Print Assumptions C32_frequency.
Print Assumptions C32_pinball.
Print Assumptions C32_pinball_levels.
Print Assumptions C34_pointwise.

Print Assumptions C32_probability_missing.
