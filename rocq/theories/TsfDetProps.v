(** C288: features from the outputs of detectors. *)
From Coq Require Import String.
From Verif Require Import Common TsfDetModel.
From Coq Require Import Qabs Lqa.
From Coq Require Import List Lia.
Import ListNotations.
Open Scope Q_scope.

(** ** Specification *)
(** every feature asked for *)
Definition all_on : switch := Some (fun _ => Some true).
(** m is the mean of l *)
Definition mean_of (l : list Q) (m : Q) : Prop := m * inject_Z (Z.of_nat (length l)) == qsum l.
Definition is_count (v : option Q) (n : nat) : Prop := v = Some (inject_Z (Z.of_nat n)).

Lemma count_pos {A} (a : A) l : 0 < count (a :: l).
Proof. unfold count. rewrite <- (inject_Z_Zlt 0) || idtac. unfold Qlt. cbn. lia. Qed.
Lemma count_nonzero {A} (a : A) l : ~ count (a :: l) == 0.
Proof. pose proof (count_pos a l). intros E. rewrite E in H. apply (Qlt_irrefl 0 H). Qed.
Lemma fold_plus l : forall s, fold_left Qplus l s == s + qsum l.
Proof.
  induction l as [|a l IH]; intros s; cbn [fold_left]; [unfold qsum; cbn; ring|]. rewrite IH. unfold qsum. cbn. ring.
Qed.

(** C288: with every feature switched on the numbers are the numbers of what was detected. *)
Theorem C288_counts : forall len (cusums : list cusum_cp) (metrics confidences : list Q) (A : Type) (first : list A) rest points default,
  is_count (f_num (cusum all_on default len (Some cusums))) (length cusums)
  /\ is_count (fst (robust all_on default (Some metrics))) (length metrics)
  /\ is_count (fst (fst (bocp all_on default (Some confidences)))) (length confidences)
  /\ is_count (outlier all_on default (Some (first :: rest))) (length first)
  /\ is_count (fst (fst (trend all_on default (Some points)))) (length points)
  /\ exists rising, is_count (snd (fst (trend all_on default (Some points)))) (length rising)
       /\ (length rising <= length points)%nat /\ forall p, In p rising <-> In p points /\ increasing p = true.
Proof.
  intros. repeat split; try reflexivity. exists (filter increasing points). split; [reflexivity|]. split.
  - induction points as [|p l IH]; [cbn; lia|]. cbn. destruct (increasing p); cbn; lia.
  - intros p. apply filter_In.
Qed.

(** C288: the features of CUSUM are those of the first change point, its position as a share of the length. *)
Theorem C288_first : forall len cp rest default, (0 < len)%Z ->
  let f := cusum all_on default len (Some (cp :: rest)) in
  f_conf f = Some (c_conf cp) /\ f_delta f = Some (c_delta cp) /\ f_llr f = Some (c_llr cp) /\ f_p f = Some (c_p cp)
  /\ f_regression f = Some (if c_regression cp then 1 else 0) /\ f_stable f = Some (if c_stable cp then 1 else 0)
  /\ exists i, f_index f = Some i /\ i * inject_Z len == c_index cp
       /\ (0 <= c_index cp < inject_Z len -> 0 <= i < 1).
Proof.
  intros len cp rest default Hl f. repeat split. exists (c_index cp / inject_Z len).
  assert (0 < inject_Z len) as P by (unfold Qlt; cbn; lia).
  split; [reflexivity|]. split; [field; lra|]. intros [L U]. split.
  - apply Qle_shift_div_l; [exact P|]. rewrite Qmult_0_l. exact L.
  - apply Qlt_shift_div_r; [exact P|]. rewrite Qmult_1_l. exact U.
Qed.

(** C288: nothing detected gives zeros. *)
Theorem C288_nothing : forall len default,
  cusum all_on default len (Some []) = CusumF (Some 0) (Some 0) (Some 0) (Some 0) (Some 0) (Some 0) (Some 0) (Some 0)
  /\ bocp all_on default (Some []) = (Some 0, Some 0, Some 0) /\ trend all_on default (Some []) = (Some 0, Some 0, Some 0)
  /\ robust all_on default (Some []) = (Some 0, None).
Proof. intros. repeat split. Qed.

(** C288 refuted: the p-value of no change point is below that of any change point. *)
Theorem C288_pvalue_refuted : forall len cp rest default, 0 < c_p cp ->
  exists none some, f_p (cusum all_on default len (Some [])) = Some none
    /\ f_p (cusum all_on default len (Some (cp :: rest))) = Some some /\ none < some.
Proof. intros len cp rest default H. exists 0, (c_p cp). repeat split. exact H. Qed.

(** C288: the mean metric, and the mean and greatest confidence. *)
Theorem C288_means : forall a l default,
  exists m n g, snd (robust all_on default (Some (a :: l))) = Some m /\ mean_of (a :: l) m
    /\ bocp all_on default (Some (a :: l)) = (Some (inject_Z (Z.of_nat (length (a :: l)))), Some g, Some n)
    /\ mean_of (a :: l) n /\ In g (a :: l) /\ (forall v, In v (a :: l) -> v <= g) /\ n <= g.
Proof.
  intros a l default. exists (fold_left Qplus (a :: l) 0 / count (a :: l)), (qsum (a :: l) / count (a :: l)), (qmaximum (a :: l)).
  pose proof (count_nonzero a l) as NZ.
  assert (mean_of (a :: l) (qsum (a :: l) / count (a :: l))) as M. { unfold mean_of. fold (count (a :: l)). field. exact NZ. }
  assert (forall l a, let g := fold_left (fun m v => if Qle_bool m v then v else m) l a in
    (g = a \/ In g l) /\ a <= g /\ forall v, In v l -> v <= g) as G.
  { clear. induction l as [|b l IH]; intros a; [cbn; repeat split; [left; reflexivity|lra|intros v []]|]. cbn [fold_left].
    destruct (Qle_bool a b) eqn:E.
    - apply Qle_bool_iff in E. destruct (IH b) as (I1 & I2 & I3). cbv zeta in *. repeat split.
      + destruct I1 as [-> | I1]; [right; left; reflexivity|right; right; exact I1].
      + lra.
      + intros v [<-|Hv]; [exact I2|apply I3; exact Hv].
    - assert (b < a) as Lt. { apply Qnot_le_lt. intros K. apply Qle_bool_iff in K. congruence. }
      destruct (IH a) as (I1 & I2 & I3). cbv zeta in *. repeat split.
      + destruct I1 as [-> | I1]; [left; reflexivity|right; right; exact I1].
      + exact I2.
      + intros v [<-|Hv]; [lra|apply I3; exact Hv]. }
  destruct (G l a) as (G1 & G2 & G3). cbv zeta in *. change (fold_left _ l a) with (qmaximum (a :: l)) in *.
  assert (forall v, In v (a :: l) -> v <= qmaximum (a :: l)) as Max by (intros v [<-|Hv]; [exact G2|apply G3; exact Hv]).
  split; [reflexivity|]. split.
  { unfold mean_of. fold (count (a :: l)). rewrite fold_plus. field. exact NZ. }
  split; [reflexivity|]. split; [exact M|]. split; [destruct G1 as [E|E]; [left; symmetry; exact E|right; exact E]|]. split; [exact Max|].
  apply Qle_shift_div_r; [apply count_pos|]. set (g := qmaximum (a :: l)) in *. clearbody g. revert Max. generalize (a :: l) as m. clear.
  induction m as [|v m IH]; intros H; [change (count (@nil Q)) with 0; change (qsum []) with 0; rewrite Qmult_0_r; apply Qle_refl|].
  assert (count (v :: m) == 1 + count m) as ->. { unfold count. cbn [length]. rewrite Nat2Z.inj_succ. unfold Z.succ. rewrite inject_Z_plus. ring. }
  assert (qsum (v :: m) == v + qsum m) as -> by (unfold qsum; cbn; ring).
  pose proof (H v (or_introl eq_refl)). specialize (IH (fun w Hw => H w (or_intror Hw))). lra.
Qed.

(** C288: the average of |tau| when every point has a tau; it lies between the bounds of the |tau|. *)
Theorem C288_tau_partial : forall p l default, (forall q, In q (p :: l) -> tau q <> None) ->
  exists m taus, snd (trend all_on default (Some (p :: l))) = Some m /\ Forall2 (fun q t => exists v, tau q = Some v /\ t = Qabs v) (p :: l) taus
    /\ mean_of taus m /\ forall lo hi, (forall t, In t taus -> lo <= t <= hi) -> lo <= m <= hi.
Proof.
  intros p l default H. set (ps := p :: l) in *. set (f := fun q => match tau q with Some v => Qabs v | None => 0 end).
  set (S' := fold_left (fun s q => match tau q with Some t => s + Qabs t | None => s end) ps 0).
  exists (S' / count ps), (map f ps).
  assert (S' == qsum (map f ps)) as ES.
  { unfold S'. assert (forall m s, (forall q, In q m -> tau q <> None) -> fold_left (fun s q => match tau q with Some t => s + Qabs t | None => s end) m s == s + qsum (map f m)) as G.
    { induction m as [|q m IH]; intros s Hm; cbn [fold_left map]; [unfold qsum; cbn; ring|].
      destruct (tau q) as [t|] eqn:E; [|exfalso; apply (Hm q (or_introl eq_refl)); exact E].
      rewrite IH by (intros r Hr; apply Hm; right; exact Hr). unfold qsum. cbn [fold_right]. unfold f at 2. rewrite E. ring. }
    rewrite (G ps 0 H). ring. }
  assert (count (map f ps) = count ps) as CM by (unfold count; rewrite map_length; reflexivity).
  assert (mean_of (map f ps) (S' / count ps)) as M. { unfold mean_of. fold (count (map f ps)). rewrite CM, <- ES. field. apply count_nonzero. }
  split; [reflexivity|]. split.
  - clear -H. induction ps as [|q m IH]; [constructor|]. cbn [map]. constructor; [|apply IH; intros r Hr; apply H; right; exact Hr].
    specialize (H q (or_introl eq_refl)). unfold f. destruct (tau q) as [v|]; [exists v; split; reflexivity|congruence].
  - split; [exact M|]. intros lo hi B.
    assert (forall m, (forall t, In t m -> lo <= t <= hi) -> lo * count m <= qsum m <= hi * count m) as G.
    { clear. induction m as [|v m IH]; intros Hm; [change (count (@nil Q)) with 0; change (qsum []) with 0; rewrite !Qmult_0_r; split; apply Qle_refl|].
      assert (count (v :: m) == 1 + count m) as ->. { unfold count. cbn [length]. rewrite Nat2Z.inj_succ. unfold Z.succ. rewrite inject_Z_plus. ring. }
      assert (qsum (v :: m) == v + qsum m) as -> by (unfold qsum; cbn; ring).
      pose proof (Hm v (or_introl eq_refl)). specialize (IH (fun w Hw => Hm w (or_intror Hw))). lra. }
    specialize (G _ B). rewrite CM, <- ES in G. split.
    + apply Qle_shift_div_l; [apply count_pos|apply G].
    + apply Qle_shift_div_r; [apply count_pos|apply G].
Qed.
(** C288 refuted: points whose tau is not one number count with 0. *)
Theorem C288_tau_refuted : forall p l default, (forall q, In q (p :: l) -> tau q = None) ->
  exists m, snd (trend all_on default (Some (p :: l))) = Some m /\ m == 0.
Proof.
  intros p l default H. eexists. split; [reflexivity|].
  assert (forall m, (forall q, In q m -> tau q = None) -> fold_left (fun s q => match tau q with Some t => s + Qabs t | None => s end) m 0 = 0) as G.
  { induction m as [|q m IH]; intros Hm; [reflexivity|]. cbn [fold_left]. rewrite (Hm q (or_introl eq_refl)). apply IH. intros r Hr. apply Hm. right. exact Hr. }
  rewrite (G (p :: l) H). unfold Qdiv. ring.
Qed.

(** C288: a detector that raises gives NaN, and so does a feature switched off. *)
Theorem C288_nan : forall extra default len A,
  cusum extra default len None = CusumF None None None None None None None None
  /\ robust extra default None = (None, None) /\ bocp extra default None = (None, None, None)
  /\ @outlier A extra default None = None /\ trend extra default None = (None, None, None)
  /\ forall ex, extra = Some ex -> forall cusums metrics confidences outliers points,
     (ex "cusum_num"%string = Some false -> f_num (cusum extra default len (Some cusums)) = None)
     /\ (ex "cusum_conf"%string = Some false -> f_conf (cusum extra default len (Some cusums)) = None)
     /\ (ex "cusum_cp_index"%string = Some false -> f_index (cusum extra default len (Some cusums)) = None)
     /\ (ex "cusum_delta"%string = Some false -> f_delta (cusum extra default len (Some cusums)) = None)
     /\ (ex "cusum_llr"%string = Some false -> f_llr (cusum extra default len (Some cusums)) = None)
     /\ (ex "cusum_regression_detected"%string = Some false -> f_regression (cusum extra default len (Some cusums)) = None)
     /\ (ex "cusum_stable_changepoint"%string = Some false -> f_stable (cusum extra default len (Some cusums)) = None)
     /\ (ex "cusum_p_value"%string = Some false -> f_p (cusum extra default len (Some cusums)) = None)
     /\ (ex "robust_num"%string = Some false -> fst (robust extra default (Some metrics)) = None)
     /\ (ex "robust_metric_mean"%string = Some false -> snd (robust extra default (Some metrics)) = None)
     /\ (ex "bocp_num"%string = Some false -> fst (fst (bocp extra default (Some confidences))) = None)
     /\ (ex "bocp_conf_max"%string = Some false -> snd (fst (bocp extra default (Some confidences))) = None)
     /\ (ex "bocp_conf_mean"%string = Some false -> snd (bocp extra default (Some confidences)) = None)
     /\ (ex "outlier_num"%string = Some false -> @outlier A extra default (Some outliers) = None)
     /\ (ex "trend_num"%string = Some false -> fst (fst (trend extra default (Some points))) = None)
     /\ (ex "trend_num_increasing"%string = Some false -> snd (fst (trend extra default (Some points))) = None)
     /\ (ex "trend_avg_abs_tau"%string = Some false -> snd (trend extra default (Some points)) = None).
Proof.
  intros extra default len A. repeat (split; [reflexivity|]). intros ex -> cusums metrics confidences outliers points.
  unfold cusum, robust, bocp, outlier, trend, on, give.
  cbn [f_num f_conf f_index f_delta f_llr f_regression f_stable f_p fst snd].
  repeat match goal with
  | |- _ /\ _ => split
  | |- _ -> _ => let E := fresh in intros E; rewrite E; reflexivity
  end.
Qed.
(** C288 refuted: "If None, no feature is disabled": with None every feature is NaN. *)
Theorem C288_none_refuted : forall default len cusums metrics confidences A (outliers : list (list A)) points,
  cusum None default len (Some cusums) = CusumF None None None None None None None None
  /\ robust None default (Some metrics) = (None, None) /\ bocp None default (Some confidences) = (None, None, None)
  /\ outlier None default (Some outliers) = None /\ trend None default (Some points) = (None, None, None).
Proof. intros. repeat split. Qed.

(** name was asked for: switched on by name, or not named and on by default *)
Definition asked (f : string -> option bool) (default : bool) (name : string) : Prop :=
  f name = Some true \/ (f name = None /\ default = true).
Lemma on_asked f default name v : give (on (Some f) default name) v <> None <-> asked f default name.
Proof.
  unfold give, on, asked. destruct (f name) as [[|]|], default; cbn; split; intros H; try congruence; try (left; congruence); try (right; split; congruence);
    try discriminate; destruct H as [H | [H H']]; discriminate.
Qed.
(** C288: a feature appears exactly when it was asked for. *)
Theorem C288_switches : forall f default len (cusums : list cusum_cp) (metrics confidences : list Q) (A : Type) (first : list A) rest points,
  (f_num (cusum (Some f) default len (Some cusums)) <> None <-> asked f default "cusum_num")
  /\ (f_conf (cusum (Some f) default len (Some cusums)) <> None <-> asked f default "cusum_conf")
  /\ (f_index (cusum (Some f) default len (Some cusums)) <> None <-> asked f default "cusum_cp_index")
  /\ (f_delta (cusum (Some f) default len (Some cusums)) <> None <-> asked f default "cusum_delta")
  /\ (f_llr (cusum (Some f) default len (Some cusums)) <> None <-> asked f default "cusum_llr")
  /\ (f_regression (cusum (Some f) default len (Some cusums)) <> None <-> asked f default "cusum_regression_detected")
  /\ (f_stable (cusum (Some f) default len (Some cusums)) <> None <-> asked f default "cusum_stable_changepoint")
  /\ (f_p (cusum (Some f) default len (Some cusums)) <> None <-> asked f default "cusum_p_value")
  /\ (fst (robust (Some f) default (Some metrics)) <> None <-> asked f default "robust_num")
  /\ (metrics <> [] -> (snd (robust (Some f) default (Some metrics)) <> None <-> asked f default "robust_metric_mean"))
  /\ (fst (fst (bocp (Some f) default (Some confidences))) <> None <-> asked f default "bocp_num")
  /\ (snd (fst (bocp (Some f) default (Some confidences))) <> None <-> asked f default "bocp_conf_max")
  /\ (snd (bocp (Some f) default (Some confidences)) <> None <-> asked f default "bocp_conf_mean")
  /\ (outlier (Some f) default (Some (first :: rest)) <> None <-> asked f default "outlier_num")
  /\ (fst (fst (trend (Some f) default (Some points))) <> None <-> asked f default "trend_num")
  /\ (snd (fst (trend (Some f) default (Some points))) <> None <-> asked f default "trend_num_increasing")
  /\ (snd (trend (Some f) default (Some points)) <> None <-> asked f default "trend_avg_abs_tau").
Proof.
  intros. cbn [cusum robust bocp outlier trend f_num f_conf f_index f_delta f_llr f_regression f_stable f_p fst snd].
  repeat split; try (intros H; eapply on_asked; exact H); try (intros H; eapply on_asked in H; exact H).
  - destruct metrics as [|q l]; [congruence|]. intros H'. apply (on_asked f default _ (fold_left Qplus (q :: l) 0 / count (q :: l))). exact H'.
  - destruct metrics as [|q l]; [congruence|]. intros H'. eapply (on_asked f default _ (fold_left Qplus (q :: l) 0 / count (q :: l))) in H'. exact H'.
Qed.

Example C288_case :
  let cp := CusumCp (9 # 10) 30 2 12 true false (1 # 1000) in
  f_index (cusum all_on true 60 (Some [cp])) = Some (30 / 60) /\ 0 < c_p cp
  /\ snd (trend all_on true (Some [TrendPoint true (Some (9 # 10)); TrendPoint false (Some (- (7 # 10)))])) <> None
  /\ fst (trend all_on true (Some [TrendPoint true (Some (9 # 10)); TrendPoint false (Some (- (7 # 10)))])) = (Some 2, Some 1).
Proof. intros cp. repeat split. discriminate. Qed.

Print Assumptions C288_counts.
Print Assumptions C288_first.
Print Assumptions C288_nothing.
Print Assumptions C288_pvalue_refuted.
Print Assumptions C288_means.
Print Assumptions C288_tau_partial.
Print Assumptions C288_tau_refuted.
Print Assumptions C288_nan.
Print Assumptions C288_none_refuted.

Print Assumptions C288_switches.
