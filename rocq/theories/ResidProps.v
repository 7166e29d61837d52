(** Theorems about the residual translator (C147, C148). *)
From Coq Require Import ZArith Qround Lqa Sorted Permutation.
From Verif Require Import Common MetricsModel MedianProofs ResidModel.
Open Scope nat_scope.

(** The documented calls: predictions with observations and both or none of the bounds; or residuals alone. *)
Definition documented (y yhat lower upper residual : option series) : Prop :=
  (exists a b, y = Some a /\ yhat = Some b /\ residual = None /\ (lower = None <-> upper = None)) \/
  (exists r, residual = Some r /\ y = None /\ yhat = None /\ lower = None /\ upper = None).
Definition times (s : series) : list Z := map fst s.
(** all series given have the times of y *)
Definition same_times (y : option series) (o : option series) : Prop :=
  match y, o with Some a, Some b => times b = times a | _, _ => True end.
Lemma zip_some {B} (f : option Q -> option Q -> B) : forall a b, times b = times a -> exists r,
  zip_rows f a b = Some r /\ map fst r = times a /\ forall i t x u y, nth_error a i = Some (t, x) -> nth_error b i = Some (u, y) -> nth_error r i = Some (t, f x y).
Proof.
  induction a as [|[t x] a IH]; intros [|[u y] b] E; cbn in E; try discriminate; [exists []; split; [reflexivity|]; split; [reflexivity|]; intros [|i]; discriminate|].
  injection E as -> E. destruct (IH b E) as (r & R & T & V). cbn. rewrite Z.eqb_refl, R. eexists. split; [reflexivity|]. split; [cbn; f_equal; exact T|].
  intros [|i] t' x' u' y' A' B'; cbn in *; [congruence|]. eapply V; eassumption.
Qed.
Lemma zip_none {B} (f : option Q -> option Q -> B) : forall a b, times b <> times a -> zip_rows f a b = None.
Proof.
  induction a as [|[t x] a IH]; intros [|[u y] b] E; cbn in *; try reflexivity; [congruence|].
  destruct (Z.eqb_spec t u) as [->|N]; [|reflexivity]. rewrite IH; [reflexivity|]. intros X. apply E. unfold times in X. rewrite X. reflexivity.
Qed.
Lemma times_dec (a b : series) : {times b = times a} + {times b <> times a}.
Proof. apply list_eq_dec, Z.eq_dec. Qed.
(** The call raises exactly if it is not a documented one or the times differ. *)
Theorem C147_arguments : forall y yhat lower upper residual,
  (exists r, get_residual y yhat lower upper residual = Some r) <->
  documented y yhat lower upper residual /\ same_times y yhat /\ same_times y lower /\ same_times y upper.
Proof.
  intros y yhat lower upper residual. unfold get_residual.
  transitivity (exists r, raw_residual y yhat lower upper residual = Some r).
  { destruct (raw_residual y yhat lower upper residual) as [r|]; cbn; split; intros [z Z]; try discriminate; eexists; reflexivity. }
  unfold documented. split.
  - intros [r R]. unfold raw_residual in R. destruct yhat as [h|], residual as [q|]; try discriminate.
    + destruct y as [o|]; [|discriminate]. cbn. destruct (times_dec o h) as [E|E]; [|rewrite (zip_none fl_sub o h E) in R; discriminate].
      destruct (zip_some fl_sub o h E) as (d & D & T & _). rewrite D in R. destruct lower as [lo|], upper as [up|]; try discriminate.
      * destruct (times_dec up lo) as [E2|E2]; [|rewrite (zip_none fl_sub up lo E2) in R; discriminate].
        destruct (zip_some fl_sub up lo E2) as (w & W & T2 & _). rewrite W in R.
        destruct (times_dec d w) as [E3|E3]; [|rewrite (zip_none fl_div d w E3) in R; discriminate]. unfold times in E3 at 1 2. rewrite T, T2 in E3.
        split; [left; exists o, h; repeat split; intros X; discriminate X|]. repeat split; congruence.
      * split; [left; exists o, h; repeat split|]. repeat split. exact E.
    + destruct y, lower, upper; try discriminate. split; [right; exists q; repeat split|]. repeat split.
  - intros [[(o & h & -> & -> & -> & LU)|(r & -> & -> & -> & -> & ->)] (E & E1 & E2)]; [|eexists; reflexivity]. cbn in E, E1, E2.
    unfold raw_residual. destruct (zip_some fl_sub o h E) as (d & D & T & _). rewrite D. destruct lower as [lo|], upper as [up|].
    + destruct (zip_some fl_sub up lo) as (w & W & T2 & _); [congruence|]. rewrite W.
      destruct (zip_some fl_div d w) as (r & R & _); [unfold times; congruence|]. exists r. exact R.
    + destruct LU as [_ LU]. discriminate (LU eq_refl).
    + destruct LU as [LU _]. discriminate (LU eq_refl).
    + eexists. reflexivity.
Qed.
(** The residual of a row: observation minus prediction, in units of the width of the band if there is one. *)
Definition residual_of_row (y yhat : option Q) (band : option (option Q * option Q)) (v : fl) : Prop :=
  match band, y, yhat with
  | None, Some a, Some b => v = Num (a - b)
  | Some (Some lo, Some up), Some a, Some b =>
      (~ (up - lo == 0)%Q -> v = Num ((a - b) / (up - lo))) /\ ((up - lo == 0)%Q -> v = if Qeq_bool (a - b) 0 then NaN else Inf)
  | _, _, _ => v = NaN
  end.
Theorem C147_values : forall y yhat lower upper r,
  raw_residual (Some y) (Some yhat) lower upper None = Some r ->
  map fst r = times y /\
  forall i t a b, nth_error y i = Some (t, a) -> nth_error yhat i = Some (t, b) ->
    (lower = None -> exists v, nth_error r i = Some (t, v) /\ residual_of_row a b None v) /\
    (forall lo up l u, lower = Some lo -> upper = Some up -> nth_error lo i = Some (t, l) -> nth_error up i = Some (t, u) ->
       exists v, nth_error r i = Some (t, v) /\ residual_of_row a b (Some (l, u)) v).
Proof.
  intros y yhat lower upper r R. unfold raw_residual in R. destruct (times_dec y yhat) as [E|E]; [|rewrite (zip_none fl_sub y yhat E) in R; discriminate].
  destruct (zip_some fl_sub y yhat E) as (d & D & T & V). rewrite D in R. destruct lower as [lo|], upper as [up|]; try discriminate.
  - destruct (times_dec up lo) as [E2|E2]; [|rewrite (zip_none fl_sub up lo E2) in R; discriminate].
    destruct (zip_some fl_sub up lo E2) as (w & W & T2 & V2). rewrite W in R.
    destruct (times_dec d w) as [E3|E3]; [|rewrite (zip_none fl_div d w E3) in R; discriminate].
    destruct (zip_some fl_div d w E3) as (r' & R' & T3 & V3). rewrite R' in R. injection R as <-. split; [unfold times in *; congruence|].
    intros i t a b A B. split; [discriminate|]. intros lo' up' l u EL EU L U. injection EL as <-. injection EU as <-.
    eexists. split; [eapply V3; [eapply V; eassumption|eapply V2; eassumption]|]. unfold residual_of_row, fl_sub, fl_div.
    destruct l as [l|], u as [u|], a as [a|], b as [b|]; try reflexivity. destruct (Qeq_bool (u - l) 0) eqn:Z.
    + apply Qeq_bool_iff in Z. split; [contradiction|reflexivity].
    + split; [reflexivity|]. intros X. apply Qeq_bool_iff in X. congruence.
  - injection R as <-. split; [rewrite map_map; exact T|]. intros i t a b A B. split; [|discriminate]. intros _.
    eexists. split; [rewrite nth_error_map, (V i t a t b A B); reflexivity|]. unfold residual_of_row. destruct a, b; reflexivity.
Qed.
Lemma finite_map : forall r q, finite_rows r = Some q -> r = map (fun p => (fst p, Num (snd p))) q.
Proof.
  induction r as [|[t [v| |]] r IH]; intros q H; cbn in H; try discriminate; [injection H as <-; reflexivity|].
  destruct (finite_rows r) as [q'|]; [|discriminate]. injection H as <-. cbn. f_equal. apply IH. reflexivity.
Qed.
(** What is returned: the rows that have a residual, in order, each with the density at it. *)
Theorem C147_rows_partial : forall density y yhat lower upper residual out,
  predict_log_proba density y yhat lower upper residual = Some out ->
  exists raw vals, raw_residual y yhat lower upper residual = Some raw /\
    filter (fun p => negb (is_nan (snd p))) raw = map (fun p => (fst p, Num (snd p))) vals /\
    out = map (fun p => (fst p, density (snd p))) vals.
Proof.
  intros density y yhat lower upper residual out H. unfold predict_log_proba, get_residual in H.
  destruct (raw_residual y yhat lower upper residual) as [raw|]; cbn in H; [|discriminate]. exists raw.
  destruct (filter _ raw) as [|p r] eqn:F; [discriminate|]. destruct (finite_rows (p :: r)) as [vals|] eqn:V; [|discriminate]. cbn in H.
  injection H as <-. exists vals. split; [reflexivity|]. split; [apply finite_map; exact V|reflexivity].
Qed.
(** "A probability corresponding to each instance (row) in the input": not for rows without a residual. *)
Theorem C147_rows_refuted : exists density y yhat out, times yhat = times y /\
  predict_log_proba density (Some y) (Some yhat) None None None = Some out /\ length out < length y.
Proof.
  exists (fun _ => 0%Q), [(1%Z, Some 5%Q); (2%Z, Some 6%Q)], [(1%Z, None); (2%Z, Some 4%Q)]. eexists. split; [reflexivity|]. split; [reflexivity|]. cbn. lia.
Qed.
(** The caller's residuals lose their missing rows: they are what they were only if there was none. *)
Theorem C147_caller_refuted : forall r, residual_after r = r <-> forall t, ~ In (t, None) r.
Proof.
  intros r. unfold residual_after. split.
  - intros E t I. rewrite <- E in I. apply filter_In in I as [_ I]. discriminate.
  - induction r as [|[t [v|]] r IH]; intros H; cbn; [reflexivity| |destruct (H t (or_introl eq_refl))]. f_equal. apply IH. intros u I. apply (H u). right. exact I.
Qed.
Example C147_case : predict_log_proba (fun x => x) (Some [(1%Z, Some 5%Q); (2%Z, Some 6%Q)]) (Some [(1%Z, Some 3%Q); (2%Z, Some 7%Q)])
    (Some [(1%Z, Some 0%Q); (2%Z, Some 0%Q)]) (Some [(1%Z, Some 1%Q); (2%Z, Some 2%Q)]) None = Some [(1%Z, ((5 - 3) / (1 - 0))%Q); (2%Z, ((6 - 7) / (2 - 0))%Q)].
Proof. reflexivity. Qed.

(** The quantile of level q: the value at position (n-1)q of the values in order, interpolated. *)
Definition quantile_of (q : Q) (l : list Q) (v : Q) : Prop :=
  exists s i r, Permutation l s /\ StronglySorted Qle s /\ (inject_Z (Z.of_nat (length l - 1)) * q == inject_Z (Z.of_nat i) + r)%Q /\
    (0 <= r < 1)%Q /\ (v == nth i s 0 + r * (nth (S i) s 0 - nth i s 0))%Q.
Lemma quantile_ok q l : (0 <= q)%Q -> quantile_of q l (quantile q l).
Proof.
  intros H. unfold quantile, quantile_of. set (pos := (inject_Z (Z.of_nat (length l - 1)) * q)%Q).
  assert (P0 : (0 <= pos)%Q). { apply Qmult_le_0_compat; [|exact H]. replace 0%Q with (inject_Z 0) by reflexivity. rewrite <- Zle_Qle. lia. }
  assert (F0 : (0 <= Qfloor pos)%Z). { replace 0%Z with (Qfloor 0) by reflexivity. apply Qfloor_resp_le. exact P0. }
  exists (qsort l), (Z.to_nat (Qfloor pos)), (pos - inject_Z (Qfloor pos))%Q. split; [apply qsort_perm|]. split; [apply qsort_sorted|].
  rewrite Z2Nat.id by exact F0. split; [ring|]. split; [|reflexivity]. pose proof (Qfloor_le pos). pose proof (Qlt_floor pos) as L. rewrite inject_Z_plus in L. change (inject_Z 1) with 1%Q in L. lra.
Qed.
Lemma qltb_iff a b : qltb a b = true <-> (a < b)%Q.
Proof.
  unfold qltb. rewrite Bool.negb_true_iff. split.
  - intros H. apply Qnot_le_lt. intros L. apply Qle_bool_iff in L. congruence.
  - intros H. destruct (Qle_bool b a) eqn:E; [|reflexivity]. apply Qle_bool_iff in E. lra.
Qed.
(** The density is learnt from the residuals strictly between the two quantiles. *)
Theorem C148_training : forall below above v, accepts below above = true ->
  exists lo hi, quantile_of below v lo /\ quantile_of above v hi /\
    (forall x, In x (training below above v) <-> In x v /\ (lo < x < hi)%Q) /\
    (forall keep, (forall x, In x v -> (keep x = true <-> (lo < x < hi)%Q)) -> training below above v = filter keep v).
Proof.
  intros below above v H. unfold accepts in H. apply andb_prop in H as [H H3]. apply andb_prop in H as [H1 H2].
  apply Qle_bool_iff in H1, H2, H3. exists (quantile below v), (quantile above v). split; [apply quantile_ok; exact H1|]. split; [apply quantile_ok; lra|].
  assert (K : forall x, (qltb (quantile below v) x && qltb x (quantile above v) = true <-> (quantile below v < x < quantile above v)%Q)).
  { intros x. rewrite andb_true_iff, !qltb_iff. tauto. }
  split.
  - intros x. unfold training. rewrite filter_In, K. tauto.
  - intros keep KE. unfold training. apply filter_ext_in. intros x I. specialize (KE x I). specialize (K x). destruct (qltb _ x && qltb x _), (keep x); try reflexivity; exfalso; intuition congruence.
Qed.
Lemma sorted_ends : forall s x, StronglySorted Qle s -> In x s -> (nth 0 s 0 <= x <= nth (length s - 1) s 0)%Q.
Proof.
  induction s as [|a s IH]; intros x SS I; [destruct I|]. inversion SS as [|? ? S' F]; subst. rewrite Forall_forall in F.
  replace (length (a :: s) - 1) with (length s) by (cbn; lia). cbn [nth]. destruct s as [|b s].
  - destruct I as [<-|[]]. cbn. lra.
  - cbn [length]. change (nth (S (length s)) (a :: b :: s) 0%Q) with (nth (length s) (b :: s) 0%Q).
    replace (length s) with (length (b :: s) - 1) by (cbn; lia). destruct I as [<-|I].
    + split; [apply Qle_refl|]. apply F. apply nth_In. cbn. lia.
    + split; [apply F; exact I|]. apply (IH x S' I).
Qed.
Lemma quantile_ends v : v <> [] -> exists s, Permutation v s /\ StronglySorted Qle s /\ (quantile 0 v == nth 0 s 0)%Q /\ (quantile 1 v == nth (length s - 1) s 0)%Q.
Proof.
  intros N. exists (qsort v). split; [apply qsort_perm|]. split; [apply qsort_sorted|]. unfold quantile.
  assert (E0 : (inject_Z (Z.of_nat (length v - 1)) * 0 == 0)%Q) by ring. assert (E1 : (inject_Z (Z.of_nat (length v - 1)) * 1 == inject_Z (Z.of_nat (length v - 1)))%Q) by ring.
  rewrite (Qfloor_comp _ _ E0), (Qfloor_comp _ _ E1), Qfloor_Z. change (Qfloor 0) with 0%Z. rewrite Nat2Z.id. rewrite <- (Permutation_length (qsort_perm v)).
  split; [rewrite E0; change (Z.to_nat 0) with 0%nat; change (inject_Z 0) with 0%Q; ring|rewrite E1; ring].
Qed.
(** By default ("ignore below 0, above 1") nothing should be ignored; the least and the greatest residuals always are. *)
Theorem C148_default_refuted : forall v, v <> [] ->
  (exists x, In x v /\ ~ In x (training 0 1 v)) /\
  (forall x, In x (training 0 1 v) -> exists a b, In a v /\ In b v /\ (a < x < b)%Q) /\
  (forall x, In x v -> (exists a b, In a v /\ In b v /\ (a < x < b)%Q) -> In x (training 0 1 v)).
Proof.
  intros v N. destruct (quantile_ends v N) as (s & P & S & Q0 & Q1).
  assert (SN : s <> []) by (intros ->; apply Permutation_sym, Permutation_nil in P; contradiction).
  assert (LS : 0 < length s) by (destruct s; [contradiction|cbn; lia]).
  assert (IV : forall i, i < length s -> In (nth i s 0%Q) v) by (intros i L; apply (Permutation_in _ (Permutation_sym P)), nth_In; exact L).
  assert (T : forall x, In x (training 0 1 v) <-> In x v /\ (nth 0 s 0 < x < nth (length s - 1) s 0)%Q).
  { intros x. unfold training. rewrite filter_In, andb_true_iff, !qltb_iff, Q0, Q1. tauto. }
  split; [|split].
  - exists (nth 0 s 0%Q). split; [apply IV; lia|]. rewrite T. intros [_ [X _]]. lra.
  - intros x I. apply T in I as [_ I]. exists (nth 0 s 0%Q), (nth (length s - 1) s 0%Q). split; [apply IV; lia|]. split; [apply IV; lia|exact I].
  - intros x I (a & b & IA & IB & L). apply T. split; [exact I|]. pose proof (sorted_ends s a S (Permutation_in _ P IA)). pose proof (sorted_ends s b S (Permutation_in _ P IB)). lra.
Qed.
(** So a perfect or constantly biased prediction cannot be learnt from: fit raises. *)
Theorem C148_constant_refuted : forall c v, (forall x, In x v -> (x == c)%Q) -> fit_values 0 1 v = None.
Proof.
  intros c v H. assert (E : training 0 1 v = []).
  { destruct v as [|a v]; [reflexivity|]. destruct (training 0 1 (a :: v)) as [|x t] eqn:T; [reflexivity|]. exfalso.
    destruct (C148_default_refuted (a :: v) ltac:(discriminate)) as (_ & K & _). destruct (K x) as (p & q & IP & IQ & L); [rewrite T; left; reflexivity|].
    apply H in IP, IQ. lra. }
  unfold fit_values. rewrite E. reflexivity.
Qed.
(** fit succeeds exactly if at least five residuals are left and their 5% and 95% quantiles differ; it learns from those. *)
Theorem C148_fit : forall below above v,
  (forall t, fit_values below above v = Some t -> t = training below above v /\ 5 <= length t /\
     exists lo hi, quantile_of (5 # 100) t lo /\ quantile_of (95 # 100) t hi /\ ~ (lo == hi)%Q) /\
  (fit_values below above v = None -> length (training below above v) < 5 \/
     exists q, quantile_of (5 # 100) (training below above v) q /\ quantile_of (95 # 100) (training below above v) q).
Proof.
  intros below above v. unfold fit_values. set (w := training below above v).
  assert (QL : quantile_of (5 # 100) w (quantile (5 # 100) w)) by (apply quantile_ok; lra).
  assert (QH : quantile_of (95 # 100) w (quantile (95 # 100) w)) by (apply quantile_ok; lra).
  destruct (Nat.leb_spec 5 (length w)) as [L|L]; cbn [andb].
  - destruct (Qeq_bool (quantile (95 # 100) w) (quantile (5 # 100) w)) eqn:E; cbn [negb].
    + apply Qeq_bool_iff in E. split; [discriminate|]. intros _. right. eexists. split; [exact QL|]. destruct QH as (s & i & r & P & S & A & B & C).
      exists s, i, r. repeat (split; [assumption|]). rewrite <- E. exact C.
    + split; [|discriminate]. intros t H. injection H as <-. split; [reflexivity|]. split; [exact L|]. eexists. eexists. split; [exact QL|]. split; [exact QH|].
      intros X. symmetry in X. apply Qeq_bool_iff in X. congruence.
  - split; [discriminate|]. intros _. left. exact L.
Qed.
Example C148_fit_case : exists t, fit_values 0 1 [0; 1; 2; 3; 4; 5; 6]%Q = Some t /\ length t = 5.
Proof. eexists. split; [vm_compute; reflexivity|reflexivity]. Qed.
Example C148_case : accepts 0 1 = true /\ training 0 1 [3; 1; 2; 5; 1; 4; 2]%Q = [3; 2; 4; 2]%Q /\ training (1 # 4) (3 # 4) [1; 2; 3; 4; 5; 6; 7; 8; 9]%Q = [4; 5; 6]%Q.
Proof. vm_compute. repeat split. Qed.

Print Assumptions C147_arguments.
Print Assumptions C147_values.
Print Assumptions C147_rows_partial.
Print Assumptions C147_rows_refuted.
Print Assumptions C147_caller_refuted.
Print Assumptions C148_training.
Print Assumptions C148_default_refuted.
Print Assumptions C148_constant_refuted.

Print Assumptions C148_fit.
