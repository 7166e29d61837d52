From Verif Require Import Common PySlice TSDataModel TSDataSpec TSDataProofs BacktestModel MetricsModel MedianSpec MedianProofs RollingModel RollingSpec.
From Coq Require Import Permutation Sorted.
Open Scope nat_scope.

Lemma same_refl v : same v v.
Proof. destruct v; cbn; [reflexivity|exact I]. Qed.
Lemma observed_non_nan l : observed l = non_nan l.
Proof. induction l as [|[x|] t IH]; cbn; [reflexivity|f_equal; exact IH|exact IH]. Qed.
Lemma non_nan_app a b : non_nan (a ++ b) = non_nan a ++ non_nan b.
Proof. unfold non_nan. apply flat_map_app. Qed.
Lemma non_nan_pad q : non_nan (repeat None q) = [].
Proof. induction q; cbn; [reflexivity|assumption]. Qed.
Lemma non_nan_map f l : non_nan (map (option_map f) l) = map f (non_nan l).
Proof. induction l as [|[x|] t IH]; cbn; [reflexivity|f_equal; exact IH|exact IH]. Qed.

(** ** the statistics *)
Lemma nanmedian_some l : non_nan l <> [] -> nanmedian l = Some (qmedian (non_nan l)).
Proof. unfold nanmedian. destruct (non_nan l); [contradiction|reflexivity]. Qed.
Lemma nanmean_some l : non_nan l <> [] -> nanmean l = Some (qsum (non_nan l) / inject_Z (Z.of_nat (length (non_nan l))))%Q.
Proof. unfold nanmean. destruct (non_nan l); [contradiction|reflexivity]. Qed.
Lemma nanquart_some k l : non_nan l <> [] -> nanquart k l = Some (quart k (non_nan l)).
Proof. unfold nanquart. destruct (non_nan l); [contradiction|reflexivity]. Qed.
Lemma mean_ok l : l <> [] -> mean_of l (qsum l / inject_Z (Z.of_nat (length l)))%Q.
Proof.
  intros H. unfold mean_of. rewrite Qmult_comm. apply Qmult_div_r. destruct l; [contradiction|]. unfold Qeq. cbn. lia.
Qed.
Lemma quart_ok k l : quartile_of k l (quart k l).
Proof.
  exists (qsort l), (k * (length l - 1) / 4), ((k * (length l - 1)) mod 4).
  split; [apply qsort_perm|]. split; [apply qsort_sorted|]. split; [apply Nat.div_mod; lia|].
  split; [apply Nat.mod_upper_bound; lia|]. unfold quart. cbv zeta.
  set (a := nth _ (qsort l) 0%Q). set (b := nth (S _) (qsort l) 0%Q). set (f := inject_Z _). field.
Qed.
Lemma calc_iqr_ok l : non_nan l <> [] -> exists v, calc_iqr l = Some v /\ iqr_of (non_nan l) v.
Proof.
  intros H. unfold calc_iqr. rewrite !nanquart_some by exact H. eexists. split; [reflexivity|].
  exists (quart 1 (non_nan l)), (quart 3 (non_nan l)). split; [apply quart_ok|]. split; [apply quart_ok|reflexivity].
Qed.
Lemma calc_mad_ok l : non_nan l <> [] -> exists v, calc_mad l = Some v /\ mad_of (non_nan l) v.
Proof.
  intros H. unfold calc_mad. rewrite nanmedian_some by exact H. set (m := qmedian (non_nan l)).
  rewrite nanmedian_some; rewrite non_nan_map.
  - eexists. split; [reflexivity|]. exists m. split; [apply qmedian_spec|apply qmedian_spec].
  - destruct (non_nan l); [contradiction|discriminate].
Qed.
Lemma nanvar_ok l : non_nan l <> [] -> exists v, nanvar l = Some v /\ variance_of (non_nan l) v.
Proof.
  intros H. unfold nanvar. rewrite nanmean_some by exact H. set (m := (qsum (non_nan l) / _)%Q).
  rewrite nanmean_some; rewrite (non_nan_map (fun x => (x - m) * (x - m))%Q).
  - eexists. split; [reflexivity|]. exists m. split; [apply mean_ok, H|apply mean_ok].
    destruct (non_nan l); [contradiction|discriminate].
  - destruct (non_nan l); [contradiction|discriminate].
Qed.
Lemma divide_ok num d : ratio num d (divide_where num (Some d)).
Proof.
  unfold ratio, divide_where. destruct (Qeq_bool d 0) eqn:E.
  - left. split; [apply Qeq_bool_iff, E|]. cbn. reflexivity.
  - right. assert (~ d == 0)%Q by (intros C; apply Qeq_bool_iff in C; congruence). split; [assumption|].
    destruct num as [x|]; cbn [option_map]; [|exact I]. rewrite Qmult_comm. apply Qmult_div_r. assumption.
Qed.
Lemma minus_difference x c : minus x (Some c) = difference x c.
Proof. destruct x; reflexivity. Qed.

Lemma qle_true a b : Qle_bool a b = true -> (a <= b)%Q.
Proof. apply Qle_bool_iff. Qed.
Lemma qle_false a b : Qle_bool a b = false -> (b < a)%Q.
Proof. intros H. apply Qnot_le_lt. intros C. apply Qle_bool_iff in C. congruence. Qed.

Lemma score_func_ok st b l : statistic_of st b l (score_func st (Some b) l).
Proof.
  destruct st; cbn [statistic_of score_func]; rewrite observed_non_nan.
  - destruct (non_nan l) eqn:E; [left; split; [reflexivity|]; unfold calc_iqr, nanquart; rewrite E; reflexivity|].
    right. split; [discriminate|]. rewrite <- E. apply calc_iqr_ok. congruence.
  - destruct (non_nan l) eqn:E; [left; split; [reflexivity|]; unfold calc_mad, nanmedian; rewrite E; reflexivity|].
    right. split; [discriminate|]. rewrite <- E. apply calc_mad_ok. congruence.
  - destruct (non_nan (removelast l)) eqn:E;
      [left; split; [reflexivity|]; unfold calc_z, nanvar, nanmean, hist_of; rewrite E; reflexivity|].
    right. split; [discriminate|]. rewrite <- E. assert (N : non_nan (removelast l) <> []) by congruence.
    destruct (nanvar_ok _ N) as (s2 & Es & Hs). exists (qsum (non_nan (removelast l)) / inject_Z (Z.of_nat (length (non_nan (removelast l)))))%Q, s2.
    split; [apply mean_ok, N|]. split; [exact Hs|]. unfold calc_z, hist_of, last_of. rewrite Es, nanmean_some by exact N.
    rewrite minus_difference. apply divide_ok.
  - destruct (non_nan (removelast l)) eqn:E;
      [left; split; [reflexivity|]; unfold calc_mod_mad, calc_mad, nanmedian, hist_of; rewrite E; reflexivity|].
    right. split; [discriminate|]. rewrite <- E. assert (N : non_nan (removelast l) <> []) by congruence.
    destruct (calc_mad_ok _ N) as (d & Ed & Hd). exists (qmedian (non_nan (removelast l))), d.
    split; [apply qmedian_spec|]. split; [exact Hd|]. unfold calc_mod_mad, hist_of, last_of. rewrite Ed, nanmedian_some by exact N.
    rewrite minus_difference. apply divide_ok.
  - destruct (non_nan (removelast l)) eqn:E;
      [left; split; [reflexivity|]; unfold calc_mod_iqr, calc_iqr, nanquart, hist_of; rewrite E; reflexivity|].
    right. split; [discriminate|]. rewrite <- E. assert (N : non_nan (removelast l) <> []) by congruence.
    destruct (calc_iqr_ok _ N) as (d & Ed & Hd). exists (qmedian (non_nan (removelast l))), d.
    split; [apply qmedian_spec|]. split; [exact Hd|]. unfold calc_mod_iqr, hist_of, last_of. rewrite Ed, nanmedian_some by exact N.
    rewrite minus_difference. apply divide_ok.
  - destruct (non_nan (removelast l)) eqn:E;
      [left; split; [reflexivity|]; unfold calc_iqr_median_deviation, nanmedian, nanquart, hist_of; rewrite E; reflexivity|].
    right. split; [discriminate|]. rewrite <- E. assert (N : non_nan (removelast l) <> []) by congruence.
    exists (qmedian (non_nan (removelast l))), (quart 1 (non_nan (removelast l))), (quart 3 (non_nan (removelast l))).
    unfold calc_iqr_median_deviation, hist_of, last_of. rewrite nanmedian_some, !nanquart_some by exact N.
    rewrite minus_difference. set (h := non_nan (removelast l)) in *.
    exists (divide_where (option_map Qabs (difference (last l None) (qmedian h))) (Some (qmedian h))).
    split; [apply qmedian_spec|]. split; [apply quart_ok|]. split; [apply quart_ok|]. split; [apply divide_ok|].
    destruct (last l None) as [x|]; [|apply same_refl].
    unfold iqr_sign. cbv zeta. eexists. split; [|apply same_refl].
    destruct (Qle_bool (quart 1 h - b * (quart 3 h - quart 1 h)) x) eqn:E1; cbn [negb].
    + apply qle_true in E1. right. destruct (Qle_bool (quart 3 h + b * (quart 3 h - quart 1 h)) x) eqn:E2.
      * left. apply qle_true in E2. auto.
      * right. apply qle_false in E2. auto.
    + left. apply qle_false in E1. auto.
Qed.
Lemma score_ok st ib b l : score_of st ib b l (times_base st b (score_func st (Some ib) l)).
Proof.
  exists (score_func st (Some ib) l). split; [apply score_func_ok|]. unfold times_base. destruct st; apply same_refl.
Qed.

(** ** leading missing values are invisible *)
Lemma removelast_pad q (l : list cell) : l <> [] -> removelast (repeat None q ++ l) = repeat None q ++ removelast l.
Proof. intros H. apply removelast_app, H. Qed.
Lemma last_pad q (l : list cell) : l <> [] -> last (repeat None q ++ l) None = last l None.
Proof.
  intros H. induction q as [|q IH]; [reflexivity|]. cbn [repeat app]. rewrite <- IH.
  destruct (repeat None q ++ l) eqn:E; [|reflexivity]. apply app_eq_nil in E as [_ ->]. contradiction.
Qed.
Lemma nanmean_pad q l : nanmean (repeat None q ++ l) = nanmean l.
Proof. unfold nanmean. rewrite non_nan_app, non_nan_pad. reflexivity. Qed.
Lemma nanmedian_pad q l : nanmedian (repeat None q ++ l) = nanmedian l.
Proof. unfold nanmedian. rewrite non_nan_app, non_nan_pad. reflexivity. Qed.
Lemma nanquart_pad k q l : nanquart k (repeat None q ++ l) = nanquart k l.
Proof. unfold nanquart. rewrite non_nan_app, non_nan_pad. reflexivity. Qed.
Lemma calc_iqr_pad q l : calc_iqr (repeat None q ++ l) = calc_iqr l.
Proof. unfold calc_iqr. rewrite !nanquart_pad. reflexivity. Qed.
Lemma map_pad f q (l : list cell) : map (option_map f) (repeat (@None Q) q ++ l) = repeat (@None Q) q ++ map (option_map f) l.
Proof. rewrite map_app. f_equal. induction q; cbn; [reflexivity|f_equal; assumption]. Qed.
Lemma calc_mad_pad q l : calc_mad (repeat None q ++ l) = calc_mad l.
Proof. unfold calc_mad. rewrite nanmedian_pad. destruct (nanmedian l); [|reflexivity]. rewrite map_pad. apply nanmedian_pad. Qed.
Lemma nanvar_pad q l : nanvar (repeat None q ++ l) = nanvar l.
Proof. unfold nanvar. rewrite nanmean_pad. destruct (nanmean l); [|reflexivity]. rewrite map_pad. apply nanmean_pad. Qed.
Lemma score_pad st ib q l : l <> [] -> score_func st ib (repeat None q ++ l) = score_func st ib l.
Proof.
  intros H. destruct st; cbn [score_func].
  - apply calc_iqr_pad.
  - apply calc_mad_pad.
  - unfold calc_z, hist_of, last_of. rewrite removelast_pad, last_pad, nanmean_pad, nanvar_pad by exact H. reflexivity.
  - unfold calc_mod_mad, hist_of, last_of. rewrite removelast_pad, last_pad, nanmedian_pad, calc_mad_pad by exact H. reflexivity.
  - unfold calc_mod_iqr, hist_of, last_of. rewrite removelast_pad, last_pad, nanmedian_pad, calc_iqr_pad by exact H. reflexivity.
  - unfold calc_iqr_median_deviation, hist_of, last_of. rewrite removelast_pad, last_pad, nanmedian_pad, !nanquart_pad by exact H. reflexivity.
Qed.

(** ** the windows *)
Definition width (c : roll) : nat := Z.to_nat (rolling_window c + if extended (stat c) then 1 else 0).

Lemma skipn_repeat_pad q i (v : list cell) : i <= q -> skipn i (repeat None q ++ v) = repeat None (q - i) ++ v.
Proof.
  revert q. induction i as [|i IH]; intros q H; [rewrite Nat.sub_0_r; reflexivity|].
  destruct q as [|q]; [lia|]. cbn. apply IH. lia.
Qed.
Lemma skipn_repeat_past q i (v : list cell) : q <= i -> skipn i (repeat None q ++ v) = skipn (i - q) v.
Proof.
  intros H. rewrite skipn_app, repeat_length. rewrite skipn_all2 by (rewrite repeat_length; lia). reflexivity.
Qed.
Lemma trailing_ne {A} k (l : list A) p : 1 <= k -> p < length l -> trailing k l p <> [].
Proof.
  intros Hk Hp E. apply (f_equal (@length A)) in E. unfold trailing in E. rewrite skipn_length, firstn_length in E. cbn [length] in E. lia.
Qed.

(** the row for the j-th point after n, over the values padded in front *)
Lemma row_pad k (v : list cell) n p i : S (p + n) = k -> n + i < length v ->
  exists q, firstn k (skipn i (repeat None p ++ v)) = repeat None q ++ trailing k v (n + i).
Proof.
  intros Hk Hi. destruct (Nat.le_gt_cases p i) as [H|H].
  - exists 0. rewrite skipn_repeat_past by exact H. cbn [repeat app]. unfold trailing.
    rewrite firstn_skipn_comm. f_equal; [lia|]. f_equal. lia.
  - exists (p - i). rewrite skipn_repeat_pad by lia. rewrite firstn_app, repeat_length.
    rewrite (firstn_all2 (n := k)) by (rewrite repeat_length; lia). f_equal. unfold trailing.
    replace (S (n + i) - k) with 0 by lia. cbn [skipn]. f_equal. lia.
Qed.
Lemma row_cut k (v : list cell) n m i : S m = k -> m <= n ->
  firstn k (skipn i (skipn (n - m) v)) = trailing k v (n + i).
Proof.
  intros Hk Hm. rewrite skipn_skipn_add. unfold trailing. rewrite firstn_skipn_comm.
  replace (S (n + i) - k) with (n - m + i) by lia. replace (S (n + i)) with (n - m + i + k) by lia. reflexivity.
Qed.

Lemma nth_error_map_seq {B} (f : nat -> B) k j : j < k -> nth_error (map f (seq 0 k)) j = Some (f j).
Proof.
  intros H. rewrite nth_error_map, (nth_error_nth' _ 0) by (rewrite seq_length; exact H). rewrite seq_nth by exact H. reflexivity.
Qed.
Lemma nth_error_combine {A B} (l : list A) (m : list B) j a b :
  nth_error l j = Some a -> nth_error m j = Some b -> nth_error (combine l m) j = Some (a, b).
Proof.
  revert l m. induction j as [|j IH]; intros [|x l] [|y m] H1 H2; cbn in *; try discriminate; [congruence|apply IH; assumption].
Qed.
Lemma map_fst_combine {A B} (l : list A) (m : list B) : length l = length m -> map fst (combine l m) = l.
Proof. revert m. induction l as [|x l IH]; intros [|y m] H; cbn in *; try discriminate; [reflexivity|]. f_equal. apply IH. lia. Qed.

Lemma map_snd_combine {A B} (l : list A) (m : list B) : length l = length m -> map snd (combine l m) = m.
Proof. revert m. induction l as [|x l IH]; intros [|y m] H; cbn in *; try discriminate; [reflexivity|]. f_equal. apply IH. lia. Qed.

(** The whole point-based path: [total] = n rows of history, then the rows to score. *)
Definition needed (c : roll) : Z := if extended (stat c) then rolling_window c else (rolling_window c - 1)%Z.
Lemma py_suffix {A} (l : list A) a : (0 <= a <= Z.of_nat (length l))%Z -> py_slice l (Some a) None = skipn (Z.to_nat a) l.
Proof.
  intros H. unfold py_slice. rewrite norm_idx_in by lia. apply firstn_all2. rewrite skipn_length. lia.
Qed.
Lemma strided_some c v : (1 <= rolling_window c)%Z -> (needed c <= Z.of_nat (length v))%Z ->
  strided (extended (stat c)) (rolling_window c) v =
  Some (map (fun i => firstn (width c) (skipn i v)) (seq 0 (length v - Z.to_nat (needed c)))).
Proof.
  intros Hw Hl. unfold strided, width, needed in *. destruct (extended (stat c)).
  - destruct (Z.ltb_spec (Z.of_nat (length v) - rolling_window c) 0); [lia|].
    destruct (Z.leb_spec (rolling_window c + 1) 0); [lia|]. cbn [orb]. do 3 f_equal. lia.
  - destruct (Z.ltb_spec (Z.of_nat (length v) - rolling_window c + 1) 0); [lia|].
    destruct (Z.leb_spec (rolling_window c) 0); [lia|]. cbn [orb]. rewrite Z.add_0_r. do 3 f_equal. lia.
Qed.
Definition point_value (c : roll) (win : list cell) : cell :=
  times_base (stat c) (score_base c) (score_func (stat c) (Some (iqr_base c)) win).
Lemma of_columns_sorted {A} (t : list Z) (v : list A) : length t = length v -> StronglySorted Z.le t ->
  of_columns true false t v = Some (MkSeries (combine t v) true).
Proof.
  intros L H. unfold of_columns. rewrite L, Nat.eqb_refl. unfold of_rows. f_equal. f_equal. apply sort_rows_id.
  unfold in_time_order. rewrite map_fst_combine by exact L. exact H.
Qed.
Lemma skipn_map {A B} (f : A -> B) n l : skipn n (map f l) = map f (skipn n l).
Proof. revert l. induction n; intros [|x l]; cbn; auto. Qed.

Lemma point_scores_none c total n : (n < needed c)%Z -> allow_expanding c = false -> point_scores c total n = None.
Proof.
  intros H E. unfold point_scores. change (if extended (stat c) then rolling_window c else (rolling_window c - 1)%Z) with (needed c).
  destruct (Z.ltb_spec n (needed c)); [|lia]. rewrite E. reflexivity.
Qed.
Lemma point_scores_some c (total : series cell) n :
  (1 <= rolling_window c)%Z -> n <= length (rows total) -> StronglySorted Z.le (skipn n (times total)) ->
  (allow_expanding c = true \/ (needed c <= Z.of_nat n)%Z) ->
  point_scores c total (Z.of_nat n) =
  Some (MkSeries (combine (skipn n (times total))
         (map (fun j => point_value c (trailing (width c) (map snd (rows total)) (n + j)))
              (seq 0 (length (rows total) - n)))) true).
Proof.
  intros Hw Hn Hs He. unfold point_scores.
  change (if extended (stat c) then rolling_window c else (rolling_window c - 1)%Z) with (needed c).
  set (v := map snd (rows total)). assert (Lv : length v = length (rows total)) by apply map_length.
  assert (Hk : Z.of_nat (width c) = (needed c + 1)%Z)
    by (unfold width, needed; destruct (extended (stat c)); lia).
  assert (N0 : (0 <= needed c)%Z) by (unfold needed; destruct (extended (stat c)); lia).
  assert (Lt : length (times total) = length (rows total)) by apply map_length.
  assert (G : forall reorg, length reorg = length (rows total) - n ->
     (forall j, j < length (rows total) - n ->
        exists q, nth j reorg [] = repeat None q ++ trailing (width c) v (n + j)) ->
     of_columns true false (py_slice (times total) (Some (Z.of_nat n)) None)
       (map (fun r => times_base (stat c) (score_base c) (score_func (stat c) (Some (iqr_base c)) r)) reorg) =
     Some (MkSeries (combine (skipn n (times total))
         (map (fun j => point_value c (trailing (width c) v (n + j))) (seq 0 (length (rows total) - n)))) true)).
  { intros reorg Lr Hr. rewrite py_suffix by lia. rewrite Nat2Z.id.
    assert (E : map (fun r => times_base (stat c) (score_base c) (score_func (stat c) (Some (iqr_base c)) r)) reorg
                = map (fun j => point_value c (trailing (width c) v (n + j))) (seq 0 (length (rows total) - n))).
    { apply (nth_ext _ _ (point_value c []) (point_value c [])); [rewrite !map_length, seq_length; exact Lr|].
      intros j Hj. rewrite map_length in Hj. fold (point_value c).
      rewrite (map_nth (point_value c)).
      rewrite (nth_indep _ _ ((fun j => point_value c (trailing (width c) v (n + j))) 0)) by (rewrite map_length, seq_length; lia).
      rewrite (map_nth (fun j => point_value c (trailing (width c) v (n + j)))), seq_nth by lia. cbn [plus].
      destruct (Hr j ltac:(lia)) as [q Eq]. rewrite Eq. unfold point_value. rewrite score_pad; [reflexivity|].
      apply trailing_ne; lia. }
    rewrite E. apply of_columns_sorted; [|exact Hs].
    rewrite skipn_length, map_length, seq_length, Lt. reflexivity. }
  destruct (Z.ltb_spec (Z.of_nat n) (needed c)) as [Hlt|Hge].
  - destruct He as [He|He]; [|lia]. rewrite He. rewrite strided_some; [|exact Hw|rewrite app_length, repeat_length; lia].
    apply G.
    + rewrite map_length, seq_length, app_length, repeat_length. lia.
    + intros j Hj. destruct (row_pad (width c) v n (Z.to_nat (needed c - Z.of_nat n)) j) as [q Eq]; [lia|lia|].
      exists q. rewrite <- Eq. set (f := fun i => firstn (width c) (skipn i _)).
      rewrite (nth_indep _ _ (f 0)) by (rewrite map_length, seq_length, app_length, repeat_length; lia).
      rewrite (map_nth f), seq_nth by (rewrite app_length, repeat_length; lia). reflexivity.
  - rewrite py_suffix by lia. rewrite strided_some; [|exact Hw|rewrite skipn_length; lia].
    apply G.
    + rewrite map_length, seq_length, skipn_length. lia.
    + intros j Hj. exists 0. cbn [repeat app]. set (f := fun i => firstn (width c) (skipn i _)).
      rewrite (nth_indep _ _ (f 0)) by (rewrite map_length, seq_length, skipn_length; lia).
      rewrite (map_nth f), seq_nth by (rewrite skipn_length; lia). cbn [plus]. unfold f.
      replace (Z.to_nat (Z.of_nat n - needed c)) with (n - Z.to_nat (needed c)) by lia.
      apply row_cut; lia.
Qed.
