(** C57: simple heuristic forecasts; C129: forecast dates. *)
From Coq Require Import List ZArith QArith Lia Lqa Bool Permutation Sorted.
From Verif Require Import Common PySlice MetricsModel MedianSpec MedianProofs RollingSpec OutlierModel OutlierProps HeuristicModel HeuristicSpec.
Import ListNotations.
Open Scope list_scope.
Open Scope nat_scope.

Lemma tail_ok (v : list Q) k : 0 < k -> k <= List.length v -> py_slice v (Some (- Z.of_nat k))%Z None = skipn (List.length v - k) v.
Proof.
  intros H L. unfold py_slice, norm_idx. destruct (Z.ltb_spec (- Z.of_nat k) 0); [|lia]. replace (Z.max 0 (- Z.of_nat k + Z.of_nat (List.length v)))%Z with (Z.of_nat (List.length v - k)) by lia.
  rewrite Nat2Z.id. apply firstn_all2. rewrite skipn_length. lia.
Qed.
Lemma nth_skip {A} n i (l : list A) d : nth i (skipn n l) d = nth (n + i) l d.
Proof. revert l. induction n as [|n IH]; intros [|x l]; cbn; auto. destruct i; reflexivity. Qed.
Lemma reshape_ok steps v : 0 < steps -> steps <= List.length v ->
  reshape steps (py_slice v (Some (- Z.of_nat (List.length v / steps * steps)))%Z None) =
  Some (map (fun k => map (fun j => nth (List.length v - (List.length v / steps - k) * steps + j) v 0%Q) (seq 0 steps)) (seq 0 (List.length v / steps))).
Proof.
  intros Hs Hn. pose proof (Nat.div_mod (List.length v) steps ltac:(lia)) as DM. pose proof (Nat.mod_upper_bound (List.length v) steps ltac:(lia)) as MB.
  assert (Q1 : 1 <= List.length v / steps) by (apply (Nat.div_le_lower_bound _ _ 1); lia). set (q := List.length v / steps) in *.
  assert (QL : q * steps <= List.length v) by nia. assert (QP : 0 < q * steps) by nia. rewrite tail_ok by assumption. unfold reshape.
  rewrite skipn_length. replace (List.length v - (List.length v - q * steps)) with (q * steps) by lia. rewrite Nat.mod_mul, Nat.div_mul by lia. cbn [Nat.eqb]. f_equal.
  apply map_ext_in. intros k Hk. apply in_seq in Hk. apply map_ext. intros j. rewrite nth_skip. f_equal. nia.
Qed.
Lemma reshape_none steps (v : list Q) : 0 < List.length v < steps -> reshape steps (py_slice v (Some (- Z.of_nat (List.length v / steps * steps)))%Z None) = None.
Proof.
  intros [H1 H2]. rewrite Nat.div_small by lia. cbn [Nat.mul Z.of_nat Z.opp]. unfold py_slice, norm_idx. destruct (Z.ltb_spec 0 0); [lia|]. replace (Z.min 0 (Z.of_nat (List.length v))) with 0%Z by lia.
  change (Z.to_nat 0) with 0. cbn [skipn]. rewrite Z.sub_0_r, Nat2Z.id, firstn_all. unfold reshape. rewrite Nat.mod_small by lia. destruct (Nat.eqb_spec (List.length v) 0); [lia|reflexivity].
Qed.
Lemma nth_map_seq {A} (f : nat -> A) n i d : i < n -> nth i (map f (seq 0 n)) d = f i.
Proof. intros H. rewrite (nth_indep _ d (f 0)) by (rewrite map_length, seq_length; exact H). rewrite map_nth, seq_nth by exact H. reflexivity. Qed.
Lemma column_ok steps v j : 0 < steps -> steps <= List.length v -> j < steps ->
  column j (map (fun k => map (fun j => nth (List.length v - (List.length v / steps - k) * steps + j) v 0%Q) (seq 0 steps)) (seq 0 (List.length v / steps))) = rev (lagged steps j v).
Proof.
  intros Hs Hn Hj. unfold column, lagged. rewrite map_map. set (q := List.length v / steps) in *. apply (nth_ext _ _ 0%Q 0%Q); [rewrite rev_length, !map_length; reflexivity|]. intros i Hi. rewrite map_length, seq_length in Hi.
  rewrite nth_map_seq by exact Hi. rewrite nth_map_seq by exact Hj. rewrite rev_nth by (rewrite map_length, seq_length; exact Hi). rewrite map_length, seq_length, nth_map_seq by lia. f_equal. f_equal. f_equal. f_equal. lia.
Qed.
Lemma percentile_ok q l : percentile_of q l (percentile q l).
Proof.
  unfold percentile, percentile_of. exists (qsort l), ((List.length l - 1) * q / 100), (((List.length l - 1) * q) mod 100). split; [apply qsort_perm|]. split; [apply qsort_sorted|]. split; [apply Nat.div_mod; lia|]. split; [apply Nat.mod_upper_bound; lia|]. field.
Qed.
Lemma percentile_perm q l l' v : Permutation l l' -> percentile_of q l v -> percentile_of q l' v.
Proof. intros P (s & i & r & A & B). exists s, i, r. rewrite <- (Permutation_length P). split; [rewrite <- P; exact A|exact B]. Qed.
Lemma qavg_mean' l : l <> [] -> mean_of l (qavg l).
Proof.
  intros H. unfold mean_of, qavg. assert (P : (0 < inject_Z (Z.of_nat (List.length l)))%Q) by (destruct l; [contradiction|unfold Qlt; cbn; lia]). field. lra.
Qed.
Lemma qsum_perm' (l l' : list Q) : Permutation l l' -> (qsum l == qsum l')%Q.
Proof. induction 1; cbn; [reflexivity|rewrite IHPermutation; reflexivity|ring|rewrite IHPermutation1; exact IHPermutation2]. Qed.
Lemma calc_some m steps rows : rows <> [] -> calc m steps rows = Some match m with
              | Last => last rows []
              | Mean => map (fun j => qavg (column j rows)) (seq 0 steps)
              | Median => map (fun j => qmedian (column j rows)) (seq 0 steps)
              | Percentile q => map (fun j => percentile q (column j rows)) (seq 0 steps)
              end.
Proof. destruct rows; [contradiction|reflexivity]. Qed.
(** the forecast values *)
Lemma calc_ok m steps v : 0 < steps -> steps <= List.length v ->
  exists fcst, calc m steps (map (fun k => map (fun j => nth (List.length v - (List.length v / steps - k) * steps + j) v 0%Q) (seq 0 steps)) (seq 0 (List.length v / steps))) = Some fcst /\
    List.length fcst = steps /\ forall j, j < steps -> summary m (lagged steps j v) (nth j fcst 0%Q).
Proof.
  intros Hs Hn. set (rows := map _ (seq 0 (List.length v / steps))). assert (Q1 : 1 <= List.length v / steps) by (apply (Nat.div_le_lower_bound _ _ 1); lia).
  assert (NE : rows <> []) by (intros E; apply (f_equal (@List.length _)) in E; unfold rows in E; rewrite map_length, seq_length in E; cbn in E; lia).
  assert (CO : forall j, j < steps -> column j rows = rev (lagged steps j v)) by (intros; apply column_ok; assumption).
  assert (LL : forall j, List.length (lagged steps j v) = List.length v / steps) by (intros; unfold lagged; rewrite map_length, seq_length; reflexivity).
  rewrite calc_some by exact NE. eexists. split; [reflexivity|]. destruct m.
  - assert (LA : last rows [] = map (fun j => nth (List.length v - 1 * steps + j) v 0%Q) (seq 0 steps)).
    { unfold rows. destruct (List.length v / steps) as [|q] eqn:EQ; [lia|]. rewrite seq_S, map_app. cbn [map]. rewrite last_last. apply map_ext. intros j. f_equal. f_equal. f_equal. f_equal. lia. }
    rewrite LA. split; [rewrite map_length, seq_length; reflexivity|]. intros j Hj. cbn [summary]. rewrite nth_map_seq by exact Hj. unfold lagged. rewrite nth_map_seq by lia. reflexivity.
  - split; [rewrite map_length, seq_length; reflexivity|]. intros j Hj. cbn [summary]. rewrite nth_map_seq by exact Hj. rewrite CO by exact Hj.
    assert (P : Permutation (rev (lagged steps j v)) (lagged steps j v)) by (symmetry; apply Permutation_rev). pose proof (qavg_mean' (rev (lagged steps j v))) as M. unfold mean_of in *. rewrite <- (Permutation_length P), <- (qsum_perm' _ _ P). apply M.
    intros E. apply (f_equal (@List.length _)) in E. rewrite rev_length, LL in E. cbn in E. lia.
  - split; [rewrite map_length, seq_length; reflexivity|]. intros j Hj. cbn [summary]. rewrite nth_map_seq by exact Hj. rewrite CO by exact Hj. eapply median_perm; [|apply qmedian_spec]. symmetry. apply Permutation_rev.
  - split; [rewrite map_length, seq_length; reflexivity|]. intros j Hj. cbn [summary]. rewrite nth_map_seq by exact Hj. rewrite CO by exact Hj. eapply percentile_perm; [|apply percentile_ok]. symmetry. apply Permutation_rev.
Qed.

(** an accepted percentile lies between two of the summarised observations *)
Lemma percentile_range q l v : l <> [] -> q <= 100 -> percentile_of q l v -> exists a b, In a l /\ In b l /\ (a <= v <= b)%Q.
Proof.
  intros NE Hq (s & i & r & P & S & D & R & E). assert (LS : List.length l = List.length s) by apply (Permutation_length P). assert (0 < List.length l) by (destruct l; [contradiction|cbn; lia]).
  assert (IL : i <= List.length l - 1) by nia. assert (IN : forall k, k < List.length l -> In (nth k s 0%Q) l) by (intros k Hk; apply (Permutation_in _ (Permutation_sym P)), nth_In; lia).
  destruct (Nat.eq_dec i (List.length l - 1)) as [Ei|Ni].
  - assert (r = 0) by nia. subst r. exists (nth i s 0%Q), (nth i s 0%Q). split; [apply IN; lia|]. split; [apply IN; lia|]. change (inject_Z (Z.of_nat 0)) with 0%Q in E. lra.
  - exists (nth i s 0%Q), (nth (Datatypes.S i) s 0%Q). split; [apply IN; lia|]. split; [apply IN; lia|]. pose proof (sorted_nth_mono s i (Datatypes.S i) S ltac:(lia) ltac:(lia)) as M.
    assert (0 <= inject_Z (Z.of_nat r) <= 100)%Q by (split; [change 0%Q with (inject_Z 0)|change 100%Q with (inject_Z 100)]; rewrite <- Zle_Qle; lia). set (x := inject_Z (Z.of_nat r)) in *. set (a := nth i s 0%Q) in *. set (b := nth (Datatypes.S i) s 0%Q) in *.
    assert (0 <= x * (b - a))%Q by (apply Qmult_le_0_compat; lra). assert (0 <= (100 - x) * (b - a))%Q by (apply Qmult_le_0_compat; lra). assert (x * (b - a) == 100 * (b - a) - (100 - x) * (b - a))%Q by ring. lra.
Qed.
Section Grid.
Variable roll next : Z -> Z.
Hypothesis next_later : forall t, (t < next t)%Z.
Lemma after_later n t : (t < after next (S n) t)%Z.
Proof. revert t. induction n as [|n IH]; intros t; [apply next_later|]. specialize (IH (next t)). pose proof (next_later t). change (after next (S (S n)) t) with (after next (S n) (next t)). lia. Qed.
Lemma grid_nth t n : grid_from next t n = map (fun i => after next i t) (seq 0 n).
Proof. revert t. induction n as [|n IH]; intros t; cbn; [reflexivity|]. f_equal. rewrite IH, <- seq_shift, map_map. reflexivity. Qed.
Lemma filter_all {A} (f : A -> bool) l : (forall x, In x l -> f x = true) -> filter f l = l.
Proof. induction l as [|x l IH]; intros H; cbn; [reflexivity|]. rewrite (H x (or_introl eq_refl)). f_equal. apply IH. intros y Hy. apply H. right. exact Hy. Qed.
Lemma future_on t n : roll t = t -> future roll next t n = map (fun i => after next (S i) t) (seq 0 n).
Proof.
  intros R. unfold future, date_range. rewrite R, Nat.add_1_r, grid_nth. cbn [seq map filter]. change (after next 0 t) with t. rewrite Z.eqb_refl. cbn [negb]. rewrite <- seq_shift, map_map. apply filter_all.
  intros x Hx. apply in_map_iff in Hx as (i & <- & _). pose proof (after_later i t). apply negb_true_iff, Z.eqb_neq. lia.
Qed.
Lemma future_off t n : (t < roll t)%Z -> List.length (future roll next t n) = S n.
Proof.
  intros R. unfold future, date_range. rewrite grid_nth, filter_all; [rewrite map_length, seq_length; lia|]. intros x Hx. apply in_map_iff in Hx as (i & <- & _). apply negb_true_iff, Z.eqb_neq.
  destruct i as [|i]; [cbn; lia|]. pose proof (after_later i (roll t)). lia.
Qed.
(** C57: the forecast at step j summarises the observations whole horizons before it. *)
Theorem C57_forecast : forall m steps times values last,
  0 < steps <= List.length values -> In last times -> (forall t, In t times -> (t <= last)%Z) -> roll last = last ->
  exists res, predict roll next true m false steps times values = Some res /\ List.length res = steps /\
    forall j, j < steps -> fst (nth j res (0%Z, 0%Q)) = after next (S j) last /\ summary m (lagged steps j values) (snd (nth j res (0%Z, 0%Q))).
Proof.
  intros m steps times values last [Hs Hn] IL ML RL. unfold predict. destruct (Nat.eqb_spec steps 0); [lia|]. cbv zeta. rewrite reshape_ok by lia. destruct (calc_ok m steps values Hs Hn) as (fcst & -> & LF & HF).
  assert (ZM : zmax times = last). { assert (NE : times <> []) by (destruct times; [destruct IL|discriminate]). destruct (zmax_spec _ NE) as [A B]. specialize (ML _ A). specialize (B _ IL). lia. }
  rewrite ZM, future_on by exact RL. rewrite map_length, seq_length, LF, Nat.eqb_refl. eexists. split; [reflexivity|]. split; [rewrite combine_length, map_length, seq_length; lia|].
  intros j Hj. rewrite combine_nth by (rewrite map_length, seq_length; congruence). cbn [fst snd]. rewrite nth_map_seq by exact Hj. split; [reflexivity|apply HF, Hj].
Qed.
(** "last" repeats the last [steps] observations in order *)
Theorem C57_last : forall steps times values last,
  0 < steps <= List.length values -> In last times -> (forall t, In t times -> (t <= last)%Z) -> roll last = last ->
  exists res, predict roll next true Last false steps times values = Some res /\ map snd res = skipn (List.length values - steps) values.
Proof.
  intros steps times values last H IL ML RL. destruct (C57_forecast Last steps times values last H IL ML RL) as (res & E & L & A). exists res. split; [exact E|].
  apply (nth_ext _ _ 0%Q 0%Q); [rewrite map_length, skipn_length; lia|]. intros j Hj. rewrite map_length in Hj. change 0%Q with (snd (0%Z, 0%Q)) at 1. rewrite map_nth. destruct (A j ltac:(lia)) as [_ B]. cbn [summary] in B. rewrite B. unfold lagged.
  assert (Q1 : 1 <= List.length values / steps) by (apply (Nat.div_le_lower_bound _ _ 1); lia). rewrite nth_map_seq by lia. rewrite nth_skip. f_equal. lia.
Qed.
(** an accepted percentile forecast stays between two of the observations whole horizons before it *)
Theorem C57_percentile_range : forall q steps times values last,
  accepted (Percentile q) = true -> 0 < steps <= List.length values -> In last times -> (forall t, In t times -> (t <= last)%Z) -> roll last = last ->
  exists res, predict roll next true (Percentile q) false steps times values = Some res /\
    forall j, j < steps -> exists k k', k < List.length values / steps /\ k' < List.length values / steps /\
      (nth (List.length values - (S k) * steps + j) values 0 <= snd (nth j res (0%Z, 0)) <= nth (List.length values - (S k') * steps + j) values 0)%Q.
Proof.
  intros q steps times values last A H IL ML RL. apply Nat.leb_le in A. destruct (C57_forecast (Percentile q) steps times values last H IL ML RL) as (res & E & L & F). exists res. split; [exact E|]. intros j Hj. destruct (F j Hj) as [_ B]. cbn [summary] in B.
  assert (Q1 : 1 <= List.length values / steps) by (apply (Nat.div_le_lower_bound _ _ 1); lia). apply percentile_range in B; [|intros EE; apply (f_equal (@List.length _)) in EE; unfold lagged in EE; rewrite map_length, seq_length in EE; cbn in EE; lia|exact A].
  destruct B as (a & b & IA & IB & R). apply in_map_iff in IA as (k & <- & IA). apply in_map_iff in IB as (k' & <- & IB). apply in_seq in IA. apply in_seq in IB. exists k, k'. split; [lia|]. split; [lia|]. exact R.
Qed.
(** fewer observations than steps: always an exception *)
Theorem C57_raises : forall fitted m history steps times values, 0 < List.length values < steps -> predict roll next fitted m history steps times values = None.
Proof.
  intros fitted m history steps times values H. unfold predict. destruct (Nat.eqb_spec steps 0); [lia|]. cbv zeta. rewrite reshape_none by exact H. reflexivity.
Qed.
(** with the history: the observations first, then the forecast *)
Theorem C57_history : forall m steps times values last,
  0 < steps <= List.length values -> List.length times = List.length values -> In last times -> (forall t, In t times -> (t <= last)%Z) -> roll last = last ->
  exists res, predict roll next true m false steps times values = Some res /\ predict roll next true m true steps times values = Some (combine times values ++ res).
Proof.
  intros m steps times values last [Hs Hn] LT IL ML RL. unfold predict. destruct (Nat.eqb_spec steps 0); [lia|]. cbv zeta. rewrite reshape_ok by lia. destruct (calc_ok m steps values Hs Hn) as (fcst & -> & LF & HF).
  assert (ZM : zmax times = last). { assert (NE : times <> []) by (destruct times; [destruct IL|discriminate]). destruct (zmax_spec _ NE) as [A B]. specialize (ML _ A). specialize (B _ IL). lia. }
  rewrite ZM, future_on by exact RL. rewrite !app_length, map_length, seq_length, LF, LT, !Nat.eqb_refl. eexists. split; [reflexivity|]. f_equal. clear - LT. revert values LT. induction times as [|t times IH]; intros [|x values] L; try discriminate; [reflexivity|]. cbn. f_equal. apply IH. cbn in L. lia.
Qed.
(** Calling predict without fit does not raise: it forecasts with the method "last", whatever was chosen. *)
Theorem C57_unfitted_refuted : forall m history steps times values,
  predict roll next false m history steps times values = predict roll next true Last history steps times values.
Proof. reflexivity. Qed.

(** ** C129: forecast dates *)
(** With a frequency whose grid contains the last time, the dates are the next [steps] grid times; otherwise there
    is one date too many and every forecast raises. *)
Theorem C129_dates_partial : forall last steps, roll last = last ->
  List.length (future roll next last steps) = steps /\ StronglySorted Z.lt (last :: future roll next last steps) /\
  forall i, i < steps -> nth i (future roll next last steps) 0%Z = after next (S i) last.
Proof.
  intros last steps R. rewrite future_on by exact R. split; [rewrite map_length, seq_length; reflexivity|]. split; [|intros i Hi; rewrite nth_map_seq by exact Hi; reflexivity].
  assert (G : forall n a, StronglySorted Z.lt (after next a last :: map (fun i => after next (S i) last) (seq a n))).
  { clear - next_later. assert (ST : forall a t, after next (S a) t = next (after next a t)) by (induction a as [|a IH]; intros t; [reflexivity|cbn in *; apply IH]).
    induction n as [|n IH]; intros a; cbn [seq map]; [repeat constructor|]. constructor; [apply IH|]. specialize (IH (S a)). apply StronglySorted_inv in IH as [_ F]. rewrite Forall_forall in *. intros x [<-|Hx]; [rewrite ST; apply next_later|]. specialize (F x Hx). rewrite ST in F. pose proof (next_later (after next a last)). lia. }
  apply (G steps 0).
Qed.
Theorem C129_off_grid_refuted : forall fitted m history steps times values last,
  List.length times = List.length values -> In last times -> (forall t, In t times -> (t <= last)%Z) -> (last < roll last)%Z ->
  predict roll next fitted m history steps times values = None.
Proof.
  intros fitted m history steps times values last LT IL ML RL. assert (ZM : zmax times = last). { assert (NE : times <> []) by (destruct times; [destruct IL|discriminate]). destruct (zmax_spec _ NE) as [A B]. specialize (ML _ A). specialize (B _ IL). lia. }
  unfold predict. destruct (Nat.eqb_spec steps 0); [reflexivity|]. cbv zeta. destruct (le_lt_dec steps (List.length values)) as [Hn|Hn].
  - rewrite reshape_ok by lia. destruct (calc_ok (if fitted then m else Last) steps values ltac:(lia) Hn) as (fcst & -> & LF & _). rewrite ZM. pose proof (future_off last steps RL) as L. destruct history; rewrite ?app_length, L, LF, ?LT; match goal with |- (if ?x =? ?y then _ else _) = _ => destruct (Nat.eqb_spec x y); [lia|reflexivity] end.
  - rewrite reshape_none; [reflexivity|]. split; [|exact Hn]. rewrite <- LT. destruct times; [destruct IL|cbn; lia].
Qed.
End Grid.

(** ** Concrete cases: a daily grid and a weekly grid *)
Example C57_case : predict (fun t => t) (fun t => (t + 1)%Z) true Mean false 2 [1; 2; 3; 4; 5]%Z [9; 1; 2; 3; 4]%Q = Some [(6%Z, (4 # 2)%Q); (7%Z, (6 # 2)%Q)].
Proof. vm_compute. reflexivity. Qed.
Example C57_percentile_case : accepted (Percentile 25) = true /\ option_map (map (fun r => (fst r, Qred (snd r)))) (predict (fun t => t) (fun t => (t + 1)%Z) true (Percentile 25) false 2 [1; 2; 3; 4; 5; 6]%Z [9; 1; 2; 3; 4; 7]%Q) = Some [(7%Z, 3%Q); (8%Z, 2%Q)].
Proof. vm_compute. split; reflexivity. Qed.
Example C57_last_case : predict (fun t => t) (fun t => (t + 1)%Z) true Last false 3 [1; 2; 3; 4; 5]%Z [9; 1; 2; 3; 4]%Q = Some [(6%Z, 2%Q); (7%Z, 3%Q); (8%Z, 4%Q)].
Proof. vm_compute. reflexivity. Qed.
Example C129_case : (forall t, t < t + 7)%Z /\ ((fun t => 7 * ((t + 6) / 7)) 7 = 7)%Z /\ (5 < (fun t => 7 * ((t + 6) / 7)) 5)%Z.
Proof. split; [intros; lia|]. split; reflexivity. Qed.

Print Assumptions C57_forecast.
Print Assumptions C57_last.
Print Assumptions C57_percentile_range.
Print Assumptions C57_raises.
Print Assumptions C57_history.
Print Assumptions C57_unfitted_refuted.
Print Assumptions C129_dates_partial.
Print Assumptions C129_off_grid_refuted.
