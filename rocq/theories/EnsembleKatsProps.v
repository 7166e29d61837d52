(** C47, C48, C49, C94, C96, C97: the decomposition based ensemble. *)
From Verif Require Import Common MedianSpec MedianProofs EnsembleModel EnsembleSpec EnsembleProofs EnsembleProps.
From Verif Require MetricsModel.
From Coq Require Import String Ascii Permutation Sorted.
Open Scope nat_scope.

(** ** names *)
Lemma marked n : contains "_smodel" (n ++ "_smodel") = true.
Proof. induction n as [|c n IH]; [reflexivity|]. cbn [append contains]. rewrite IH. apply orb_true_r. Qed.
Fixpoint has_us (s : string) : bool :=
  match s with EmptyString => false | String c r => Ascii.eqb c "_" || has_us r end.
Lemma has_us_lower s : has_us s = true -> has_us (lower s) = true.
Proof.
  induction s as [|c r IH]; [discriminate|]. cbn [has_us lower]. intros H. apply orb_true_iff in H as [H|H].
  - apply Ascii.eqb_eq in H. subst. reflexivity.
  - rewrite IH by exact H. apply orb_true_r.
Qed.
Lemma until_us s r : has_us s = false -> until_underscore (s ++ String "_" r) = s.
Proof.
  induction s as [|c t IH]; intros H; [reflexivity|]. cbn [has_us] in H. apply orb_false_iff in H as [H1 H2].
  cbn [append until_underscore]. rewrite H1, IH by exact H2. reflexivity.
Qed.
Lemma until_none s : has_us s = false -> until_underscore s = s.
Proof.
  induction s as [|c t IH]; intros H; [reflexivity|]. cbn [has_us] in H. apply orb_false_iff in H as [H1 H2].
  cbn [until_underscore]. rewrite H1, IH by exact H2. reflexivity.
Qed.
Lemma smodel_name n : In (lower n) s_models -> has_us n = false.
Proof.
  intros H. destruct (has_us n) eqn:E; [|reflexivity]. apply has_us_lower in E.
  destruct H as [H|[H|[]]]; rewrite <- H in E; discriminate.
Qed.
Lemma smodel_class n : In (lower n) s_models ->
  kats_class n = Some (lower n) /\ kats_class (n ++ "_smodel") = Some (lower n).
Proof.
  intros H. pose proof (smodel_name n H) as U. unfold kats_class.
  rewrite (until_none n U). change ("_smodel"%string) with (String "_" "smodel"). rewrite (until_us n _ U).
  assert (E : mem (lower n) kats_models = true) by (destruct H as [<-|[<-|[]]]; reflexivity).
  rewrite E. split; reflexivity.
Qed.
Lemma append_inj a b c : (a ++ c = b ++ c)%string -> a = b.
Proof.
  intros H. assert (L : String.length a = String.length b).
  { assert (forall x y, String.length (x ++ y) = String.length x + String.length y) as A.
    { induction x as [|ch x IH]; intros y; cbn; [reflexivity|]. rewrite IH. reflexivity. }
    pose proof (f_equal String.length H) as K. rewrite !A in K. lia. }
  revert b H L; induction a as [|ch a IH]; intros [|ch' b] H L; cbn in *; try discriminate; [reflexivity|].
  inversion H; subst. f_equal. apply IH; [assumption|lia].
Qed.

(** ** C96: putting the seasonal component back *)
Lemma nth_concat_repeat {A} (u : list A) n i d : u <> [] -> i < n * List.length u ->
  nth i (List.concat (repeat u n)) d = nth (i mod List.length u) u d.
Proof.
  intros Hu. assert (Hl : List.length u <> 0) by (destruct u; [contradiction|discriminate]).
  revert i; induction n as [|n IH]; intros i Hi; [lia|]. cbn [repeat List.concat].
  destruct (Nat.lt_ge_cases i (List.length u)) as [C|C].
  - rewrite app_nth1 by exact C. rewrite Nat.mod_small by exact C. reflexivity.
  - rewrite app_nth2 by exact C. rewrite IH by (cbn in Hi; lia).
    replace (i mod List.length u) with ((i - List.length u) mod List.length u); [reflexivity|].
    replace i with (i - List.length u + 1 * List.length u) at 2 by lia. rewrite Nat.mod_add by exact Hl. reflexivity.
Qed.
Lemma nth_firstn_lt' {A} n : forall i (l : list A) d, i < n -> nth i (firstn n l) d = nth i l d.
Proof. induction n as [|n IH]; intros [|i] [|x l] d H; cbn; try reflexivity; try lia. apply IH; lia. Qed.
Lemma nth_skip {A} n : forall i (l : list A) d, nth i (skipn n l) d = nth (n + i) l d.
Proof. induction n as [|n IH]; intros i [|x l] d; cbn; try reflexivity; [destruct i; reflexivity|apply IH]. Qed.
Lemma concat_repeat_length {A} (u : list A) n : List.length (List.concat (repeat u n)) = n * List.length u.
Proof. induction n as [|n IH]; cbn; [reflexivity|]. rewrite app_length, IH. reflexivity. Qed.
Lemma tile_spec L steps sea : 1 <= L <= List.length sea ->
  List.length (tile L steps sea) = steps /\ forall j, j < steps -> nth j (tile L steps sea) None = continued L sea j.
Proof.
  intros HL. set (u := skipn (List.length sea - L) sea).
  assert (Lu : List.length u = L) by (unfold u; rewrite skipn_length; lia).
  assert (B : steps < (1 + steps / L) * L).
  { pose proof (Nat.div_mod steps L ltac:(lia)). pose proof (Nat.mod_upper_bound steps L ltac:(lia)). nia. }
  unfold tile. fold u. split.
  - rewrite firstn_length, concat_repeat_length, Lu. lia.
  - intros j J. rewrite nth_firstn_lt' by exact J.
    rewrite nth_concat_repeat; [|intros C; rewrite C in Lu; cbn in Lu; lia|rewrite Lu; lia]. rewrite Lu. unfold continued, u.
    apply nth_skip.
Qed.
Lemma map2_length {A B C} (f : A -> B -> C) x y : List.length x = List.length y -> List.length (map2 f x y) = List.length y.
Proof. intros H. unfold map2. rewrite map_length, combine_length. lia. Qed.
Lemma map2_nth {A B C} (f : A -> B -> C) x y a b c j : List.length x = List.length y -> f a b = c ->
  nth j (map2 f x y) c = f (nth j x a) (nth j y b).
Proof.
  intros H E. unfold map2. set (g := fun p => f (fst p) (snd p)). change c with c. replace c with (g (a, b)) by exact E.
  rewrite map_nth. rewrite combine_nth by exact H. reflexivity.
Qed.
Lemma op_recombine mult x y : op mult x y = recombine mult x y. Proof. destruct x, y; reflexivity. Qed.
Lemma op_none mult : op mult None None = None. Proof. reflexivity. Qed.

(** Every forecast table keeps its name and gets, at step j, the value of the last seasonal cycle
    at the position j modulo the season length, in the point forecast and in native intervals;
    learners without interval get NaN bounds (additive) or zero bounds (multiplicative). *)
Theorem C96_reseasonalize : forall mult L steps sea (d p : dict frame),
  1 <= L <= List.length sea -> reseasonalize mult L steps sea d = Some p ->
  names p = names d /\
  forall n fr, entry n fr d -> List.length (fc fr) = steps /\
    exists fr', entry n fr' p /\ List.length (fc fr') = steps /\
      (forall j, j < steps -> nth j (fc fr') None = recombine mult (nth j (fc fr) None) (continued L sea j)) /\
      match ci fr with
      | None => ci fr' = Some (repeat (if mult then Some 0%Q else None) steps, repeat (if mult then Some 0%Q else None) steps)
      | Some (lo, hi) => List.length lo = steps -> List.length hi = steps -> exists lo' hi', ci fr' = Some (lo', hi') /\
          List.length lo' = steps /\ List.length hi' = steps /\
          forall j, j < steps -> nth j lo' None = recombine mult (nth j lo None) (continued L sea j) /\
                                 nth j hi' None = recombine mult (nth j hi None) (continued L sea j)
      end.
Proof.
  intros mult L steps sea d p HL H. unfold reseasonalize in H. destruct L as [|L']; [lia|]. set (L := S L') in *.
  destruct (tile_spec L steps sea HL) as [TL TN].
  split; [exact (dmap_keys _ _ _ H)|]. intros n fr I.
  destruct (dmap_image _ _ _ _ _ H I) as (fr' & I' & E). unfold reseason1 in E.
  destruct (List.length (fc fr) =? List.length (tile L steps sea)) eqn:EL; [|discriminate]. apply Nat.eqb_eq in EL.
  split; [lia|]. exists fr'. split; [exact I'|].
  assert (X : forall x, List.length x = steps -> List.length (map2 (op mult) x (tile L steps sea)) = steps /\
     forall j, j < steps -> nth j (map2 (op mult) x (tile L steps sea)) None = recombine mult (nth j x None) (continued L sea j)).
  { intros x Lx. split; [rewrite map2_length; lia|]. intros j J.
    rewrite (map2_nth _ _ _ None None) by (try reflexivity; lia). rewrite (TN j J). apply op_recombine. }
  destruct (X (fc fr) ltac:(lia)) as [X1 X2].
  destruct (ci fr) as [[lo hi]|]; inversion E; subst fr'; cbn [fc ci].
  - split; [exact X1|]. split; [exact X2|]. intros Hlo Hhi. destruct (X lo Hlo) as [A1 A2]. destruct (X hi Hhi) as [B1 B2].
    do 2 eexists. split; [reflexivity|]. split; [exact A1|]. split; [exact B1|]. intros j J. split; [apply A2, J|apply B2, J].
  - split; [exact X1|]. split; [exact X2|].
    assert (R : map (fun _ : oQ => if mult then Some 0%Q else None) (fc fr) = repeat (if mult then Some 0%Q else None) steps).
    { rewrite <- TL, <- EL. clear. induction (fc fr) as [|x t IH]; [reflexivity|]. cbn. f_equal. exact IH. }
    rewrite R. reflexivity.
Qed.

(** A deseasonalised forecast that is exact, that is, equal to the future value with the continued
    seasonal component taken out, becomes the future value. *)
Theorem C96_exact : forall mult L steps sea (d p : dict frame) n fr (actual season : nat -> Q),
  1 <= L <= List.length sea -> reseasonalize mult L steps sea d = Some p -> NoDup (names d) -> entry n fr d ->
  (forall j, j < steps -> continued L sea j = Some (season j)) ->
  (mult = true -> forall j, j < steps -> ~ (season j == 0)%Q) ->
  (forall j, j < steps -> nth j (fc fr) None = remove_season mult (Some (actual j)) (Some (season j))) ->
  exists fr', entry n fr' p /\ forall j, j < steps -> holds (nth j (fc fr') None) (actual j).
Proof.
  intros mult L steps sea d p n fr actual season HL H N I Hs Hz Hf.
  destruct (C96_reseasonalize mult L steps sea d p HL H) as [_ C]. destruct (C n fr I) as (_ & fr' & I' & _ & X & _).
  exists fr'. split; [exact I'|]. intros j J. rewrite (X j J), (Hf j J), (Hs j J). unfold remove_season, recombine, holds. destruct mult.
  - rewrite qeq_false by (apply (Hz eq_refl j J)). eexists. split; [reflexivity|]. field. apply (Hz eq_refl j J).
  - eexists. split; [reflexivity|]. ring.
Qed.

(** ** C49: which data the learners are trained on *)
Lemma desea_eq mult data (seasonal : bool -> list oQ -> list oQ) :
  deseasonalize seasonal mult data = (seasonal mult data, map2 (remove_season mult) data (seasonal mult data)).
Proof.
  reflexivity.
Qed.

Section C49.
Variables (P F M : Type).
Variable train : string -> P -> list oQ -> option F.
Variable predict : F -> nat -> option frame.
Variable backtest : string -> P -> list oQ -> M -> option Q.
Variable detect : list oQ -> bool.
Variable seasonal : bool -> list oQ -> list oQ.

Lemma fit_all_entry cls (ms : list (spec P)) data f m : NoDup (map (sname P) ms) ->
  fit_all P F train cls ms data = Some f -> In m ms ->
  exists c g, cls (sname P m) = Some c /\ train c (sparams P m) data = Some g /\ In (sname P m, g) f.
Proof.
  intros N H I. unfold fit_all in H. destruct (submit P cls ms []) as [js|] eqn:Es; [|discriminate].
  assert (Hc : forall s, In s ms -> cls (sname P s) <> None).
  { clear -Es. revert Es. generalize (@nil (string * job P)). induction ms as [|s r IH]; intros d Es s' I; [destruct I|].
    cbn in Es. destruct (cls (sname P s)) as [c|] eqn:E; [|discriminate].
    destruct I as [<-|I]; [congruence|]. eapply IH; [exact Es|exact I]. }
  rewrite submit_distinct in Es; [|exact N|intros ? ? []|exact Hc]. cbn [app] in Es. inversion Es; subst js; clear Es.
  destruct (cls (sname P m)) as [c|] eqn:E; [|exfalso; apply (Hc m I); exact E].
  assert (J : In (sname P m, (c, sparams P m)) (map (fun m0 => (sname P m0, (match cls (sname P m0) with Some c => c | None => EmptyString end, sparams P m0))) ms)).
  { apply in_map_iff. exists m. rewrite E. auto. }
  destruct (dmap_image _ _ _ _ _ H J) as (g & Ig & Eg). exists c, g. auto.
Qed.
Lemma extra_nodup (ms : list (spec P)) : NoDup (map (sname P) ms) -> NoDup (map (sname P) (extra P ms)).
Proof.
  unfold extra. induction ms as [|m r IH]; cbn [map filter]; intros N; [constructor|]. inversion N as [|? ? Hm Hr]; subst.
  destruct (is_smodel P m); cbn [map filter]; [|auto]. constructor; [|auto]. intros C. apply Hm.
  apply in_map_iff in C as (x & E & I). apply in_map_iff in I as (y & <- & I). apply filter_In in I as [I _].
  cbn [suffixed sname] in E. apply append_inj in E. rewrite <- E. apply in_map, I.
Qed.
Lemma extra_marked (ms : list (spec P)) m : In m (extra P ms) -> contains "_smodel" (sname P m) = true.
Proof. intros H. apply in_map_iff in H as (x & <- & _). apply marked. Qed.
Lemma extra_in (ms : list (spec P)) m : In m ms -> In (lower (sname P m)) s_models ->
  In (suffixed P m) (extra P ms).
Proof. intros I H. apply in_map, filter_In. split; [exact I|]. apply mem_in, H. Qed.

Lemma fit_all_keys cls (ms : list (spec P)) data f n : fit_all P F train cls ms data = Some f -> In n (keys f) ->
  exists m, In m ms /\ sname P m = n.
Proof.
  unfold fit_all. destruct (submit P cls ms []) as [js|] eqn:Es; [|discriminate]. intros H I.
  rewrite (dmap_keys _ _ _ H) in I. apply keys_entry in I as (j & I).
  destruct (submit_entry cls ms [] js n j Es I) as [[]|(m & Im & E & _)]. eauto.
Qed.
Lemma dupdate_split (p e : dict frame) : NoDup (keys e) -> (forall n, In n (keys p) -> contains "_smodel" n = false) ->
  (forall n, In n (keys e) -> contains "_smodel" n = true) -> dupdate p e = p ++ e.
Proof. intros N H1 H2. apply dupdate_new; [exact N|]. intros k I C. specialize (H1 k C). specialize (H2 k I). congruence. Qed.

(** forecast: every learner is trained on the deseasonalised series and its forecast gets the
    seasonal component back; every learner that handles seasonality is also trained on the
    original series, and its forecast is used as it is.  Names are distinct and do not contain
    the reserved mark. *)
Theorem C49_forecast_partial : forall (mape : M) (k : kparams P) data steps p w L,
  detect data = true -> k_len P k = Some L -> 1 <= L <= List.length (seasonal (k_mult P k) data) ->
  NoDup (map (sname P) (k_models P k)) ->
  (forall m, In m (k_models P k) -> contains "_smodel" (sname P m) = false) ->
  kats_forecast P F M train predict backtest detect seasonal mape k data steps = Some (p, w) ->
  let sea := seasonal (k_mult P k) data in
  let adjusted := map2 (remove_season (k_mult P k)) data sea in
  forall m, In m (k_models P k) ->
    (exists c g fr fr', kats_class (sname P m) = Some c /\ train c (sparams P m) adjusted = Some g /\
       predict g steps = Some fr /\ entry (sname P m) fr' p /\
       forall j, j < steps -> nth j (fc fr') None = recombine (k_mult P k) (nth j (fc fr) None) (continued L sea j)) /\
    (In (lower (sname P m)) s_models ->
     exists g fr, train (lower (sname P m)) (sparams P m) data = Some g /\ predict g steps = Some fr /\
       entry (sname P m ++ "_smodel")%string fr p).
Proof.
  intros mape k data steps p w L Hd HL HLb N Hm H sea adjusted.
  unfold kats_forecast in H. rewrite Hd, HL, desea_eq in H. fold sea adjusted in H.
  destruct (forecast_executor P F M train predict backtest mape data adjusted (k_models P k) steps (negb (k_median P k))) as [[dp de]|] eqn:E1; [|discriminate].
  destruct (reseasonalize (k_mult P k) L steps sea dp) as [p1|] eqn:E2; [|discriminate].
  destruct (forecast_executor P F M train predict backtest mape data data (extra P (k_models P k)) steps (negb (k_median P k))) as [[ep ee]|] eqn:E3; [|discriminate].
  assert (Hp : p = dupdate p1 ep).
  { destruct (negb (k_median P k)); [|inversion H; reflexivity].
    destruct (merge_errors de ee); [|discriminate]. destruct (weights_of d); [|discriminate]. inversion H; reflexivity. }
  clear H. unfold forecast_executor in E1, E3.
  destruct (fit_all P F train kats_class (k_models P k) adjusted) as [f1|] eqn:F1; [|discriminate].
  destruct (predict_all F predict f1 steps) as [q1|] eqn:Q1; [|discriminate].
  destruct (fit_all P F train kats_class (extra P (k_models P k)) data) as [f2|] eqn:F2; [|discriminate].
  destruct (predict_all F predict f2 steps) as [q2|] eqn:Q2; [|discriminate].
  assert (q1 = dp /\ q2 = ep) as [-> ->].
  { destruct (negb (k_median P k)).
    - destruct (errors_all P M backtest kats_class (k_models P k) data mape); [|discriminate].
      destruct (errors_all P M backtest kats_class (extra P (k_models P k)) data mape); [|discriminate].
      inversion E1; inversion E3; auto.
    - inversion E1; inversion E3; auto. }
  clear E1 E3. destruct (C96_reseasonalize _ _ _ _ _ _ HLb E2) as [K2 R2]. change (keys p1 = keys dp) in K2.
  pose proof (dmap_keys _ _ _ Q1) as KQ1. pose proof (dmap_keys _ _ _ Q2) as KQ2.
  rewrite dupdate_split in Hp.
  - intros m Im. split.
    + destruct (fit_all_entry kats_class _ _ _ _ N F1 Im) as (c & g & C1 & C2 & C3).
      destruct (dmap_image _ _ _ _ _ Q1 C3) as (fr & I & E). destruct (R2 _ _ I) as (_ & fr' & I' & _ & X & _).
      exists c, g, fr, fr'. repeat split; try assumption. unfold entry. rewrite Hp. apply in_app_iff; left; exact I'.
    + intros Hs. pose proof (extra_in _ _ Im Hs) as Ie.
      destruct (fit_all_entry kats_class _ _ _ _ (extra_nodup _ N) F2 Ie) as (c & g & C1 & C2 & C3).
      cbn [suffixed sname sparams] in C1, C2, C3. rewrite (proj2 (smodel_class _ Hs)) in C1. inversion C1; subst c.
      destruct (dmap_image _ _ _ _ _ Q2 C3) as (fr & I & E). exists g, fr. repeat split; try assumption.
      unfold entry. rewrite Hp. apply in_app_iff; right; exact I.
  - rewrite KQ2. eapply fit_all_nodup. exact F2.
  - intros n I. rewrite K2, KQ1 in I. destruct (fit_all_keys _ _ _ _ _ F1 I) as (m & Im & <-). apply Hm, Im.
  - intros n I. rewrite KQ2 in I. destruct (fit_all_keys _ _ _ _ _ F2 I) as (m & Im & <-). eapply extra_marked, Im.
Qed.

(** fit: whatever their name, all the learners are trained on the deseasonalised series when
    seasonality is detected, and on the original one otherwise. *)
Theorem C49_fit_partial : forall (mape : M) (k : kparams P) data m st n g,
  kats_fit P F M train backtest detect seasonal mape k data m = Some st -> entry n g (st_fitted F st) ->
  exists s, In s (k_models P k) /\ (n = sname P s \/ (n = (sname P s ++ "_smodel")%string /\ detect data = true)) /\
    exists c, kats_class n = Some c /\
      train c (sparams P s) (if detect data then map2 (remove_season (k_mult P k)) data (seasonal (k_mult P k) data) else data) = Some g.
Proof.
  intros mape k data m st n g H I. unfold kats_fit in H.
  assert (G : forall ms d f w auto mm, fit_executor P F M train backtest data d ms auto mm = Some (f, w) -> In (n, g) f ->
    exists s c, In s ms /\ sname P s = n /\ kats_class n = Some c /\ train c (sparams P s) d = Some g).
  { intros ms d f w auto mm E In_. unfold fit_executor in E. destruct (fit_all P F train kats_class ms d) as [f0|] eqn:Ef; [|discriminate].
    assert (f0 = f) as ->.
    { destruct auto; [|inversion E; reflexivity]. destruct (errors_all P M backtest kats_class ms data mm); [|discriminate].
      destruct (weights_of d0); [|discriminate]. inversion E; reflexivity. }
    unfold fit_all in Ef. destruct (submit P kats_class ms []) as [js|] eqn:Es; [|discriminate].
    destruct (dmap_entry _ _ _ _ _ Ef In_) as (j & Ij & Ej).
    destruct (submit_entry _ _ _ _ _ _ Es Ij) as [[]|(s & Is & E1 & E2 & E3)].
    exists s, (fst j). rewrite <- E3. auto. }
  destruct (detect data) eqn:D.
  - destruct (k_len P k) as [L|]; [|discriminate]. rewrite desea_eq in H.
    destruct (fit_executor P F M train backtest data _ (k_models P k ++ extra P (k_models P k)) _ mape) as [[f w]|] eqn:E; [|discriminate].
    inversion H; subst st. cbn in I. destruct (G _ _ _ _ _ _ E I) as (s & c & Is & <- & Ec & Et).
    apply in_app_iff in Is as [Is|Is].
    + exists s. split; [exact Is|]. split; [auto|]. exists c. auto.
    + apply in_map_iff in Is as (s' & <- & Is). apply filter_In in Is as [Is _]. exists s'. split; [exact Is|].
      split; [right; auto|]. exists c. auto.
  - destruct (fit_executor P F M train backtest data data (k_models P k) _ m) as [[f w]|] eqn:E; [|discriminate].
    inversion H; subst st. cbn in I. destruct (G _ _ _ _ _ _ E I) as (s & c & Is & <- & Ec & Et).
    exists s. split; [exact Is|]. split; [auto|]. exists c. auto.
Qed.
End C49.

(** The same parameters and data: forecast uses the original series for the extra seasonal learner,
    fit uses the deseasonalised one, so the two entry points give different forecasts. *)
Definition toy_sea (mult : bool) (d : list oQ) : list oQ := map (fun i => Some (if Nat.even i then 1 else -1)%Q) (seq 0 (List.length d)).
(** repeats the last value of its training data *)
Definition naive_predict (g : toy_F) (steps : nat) : option frame :=
  let '(c, p, d) := g in Some (Frame (repeat (List.last d None) steps) (Some (repeat (List.last d None) steps, repeat (List.last d None) steps))).
Definition toy_k (median : bool) := KParams Q median false (Some 2) [Spec Q "theta" 1%Q].
Definition toy_season_data : list oQ := [Some 6; Some 4; Some 6; Some 4]%Q.
Theorem C49_fit_refuted : exists p q st fr fr',
  kats_forecast Q toy_F unit toy_train naive_predict toy_backtest (fun _ => true) toy_sea tt (toy_k true) toy_season_data 2 = Some (p, None) /\
  kats_fit Q toy_F unit toy_train toy_backtest (fun _ => true) toy_sea tt (toy_k true) toy_season_data tt = Some st /\
  kats_predict Q toy_F naive_predict (toy_k true) st 2 = Some q /\
  entry "theta_smodel" fr p /\ entry "theta_smodel" fr' q /\
  nth 0 (fc fr) None = Some 4%Q /\ holds (nth 0 (fc fr') None) 5 /\
  (forall g, entry "theta_smodel" g (st_fitted toy_F st) -> snd g <> toy_season_data).
Proof.
  do 5 eexists. split; [vm_compute; reflexivity|]. split; [vm_compute; reflexivity|]. split; [vm_compute; reflexivity|].
  split; [right; left; reflexivity|]. split; [right; left; reflexivity|]. split; [reflexivity|].
  split; [eexists; split; [reflexivity|reflexivity]|].
  intros g I. unfold entry in I. cbn in I. destruct I as [I|[I|[]]]; inversion I; subst; discriminate.
Qed.

Print Assumptions C96_reseasonalize.
Print Assumptions C96_exact.
Print Assumptions C49_forecast_partial.
Print Assumptions C49_fit_partial.
Print Assumptions C49_fit_refuted.
