(** Theorems about the nowcasting and the time features (C163, C165). *)
From Verif Require Import Common TsfValueModel TsfValueProps TsfAcProps TsfNowModel.
Open Scope nat_scope.

(* ------------------------------------------------------------------ specification *)
(** q is the exponentially weighted mean, with decay b, of the values v 0 .. v i. *)
Definition weighted_mean (b : Q) (v : nat -> Q) (i : nat) (q : Q) : Prop :=
  (q * sumn (S i) (fun j => qpow b j) == sumn (S i) (fun j => qpow b (i - j) * v j))%Q.
(** b is the decay of the given span. *)
Definition decay (span : nat) (b : Q) : Prop := (b * inject_Z (Z.of_nat (span + 1)) == inject_Z (Z.of_nat (span - 1)))%Q.
(** q is the mean of the n numbers f 0 .. f (n-1). *)
Definition mean_over (n : nat) (f : nat -> Q) (q : Q) : Prop := (q * inject_Z (Z.of_nat n) == sumn n f)%Q.

(* ------------------------------------------------------------------ exponential means *)
Lemma inj_pos n : 1 <= n -> (0 < inject_Z (Z.of_nat n))%Q.
Proof. intros H. change 0%Q with (inject_Z 0). rewrite <- Zlt_Qlt. lia. Qed.
Lemma alpha_decay span b : 1 <= span -> decay span b -> (b == 1 - alpha span)%Q.
Proof.
  intros H D. unfold decay in D. pose proof (inj_pos (span + 1) ltac:(lia)) as P. unfold alpha.
  apply Qmult_inj_r with (inject_Z (Z.of_nat (span + 1))); [lra|]. rewrite D.
  setoid_replace ((1 - 2 / inject_Z (Z.of_nat (span + 1))) * inject_Z (Z.of_nat (span + 1)))%Q with (inject_Z (Z.of_nat (span + 1)) - 2)%Q by (field; lra).
  rewrite Nat2Z.inj_add, Nat2Z.inj_sub by lia. unfold Z.sub. rewrite !inject_Z_plus. change (inject_Z (Z.of_nat 1)) with 1%Q. change (inject_Z (- Z.of_nat 1)) with (-(1))%Q. lra.
Qed.
Lemma decay_range span b : 1 <= span -> decay span b -> (0 <= b < 1)%Q.
Proof.
  intros H D. unfold decay in D. pose proof (inj_pos (span + 1) ltac:(lia)) as P.
  assert (A : (0 <= inject_Z (Z.of_nat (span - 1)))%Q) by (change 0%Q with (inject_Z 0); rewrite <- Zle_Qle; lia).
  assert (B : (inject_Z (Z.of_nat (span - 1)) < inject_Z (Z.of_nat (span + 1)))%Q) by (rewrite <- Zlt_Qlt; lia).
  split.
  - destruct (Qlt_le_dec b 0); [|assumption]. assert (b * inject_Z (Z.of_nat (span + 1)) < 0 * inject_Z (Z.of_nat (span + 1)))%Q by (apply Qmult_lt_compat_r; lra). lra.
  - destruct (Qlt_le_dec b 1); [assumption|]. assert (1 * inject_Z (Z.of_nat (span + 1)) <= b * inject_Z (Z.of_nat (span + 1)))%Q by (apply Qmult_le_compat_r; lra). lra.
Qed.
Definition wsum (b : Q) (v : nat -> Q) (i : nat) : Q := sumn (S i) (fun j => qpow b (i - j) * v j)%Q.
Definition wtot (b : Q) (i : nat) : Q := sumn (S i) (fun j => qpow b j).
Lemma wsum_S b v i : (wsum b v (S i) == wsum b v i * b + v (S i))%Q.
Proof.
  unfold wsum. cbn [sumn]. rewrite Nat.sub_diag. cbn [qpow].
  setoid_replace (sumn (S i) (fun j => qpow b (S i - j) * v j))%Q with (sumn (S i) (fun j => qpow b (i - j) * v j) * b)%Q; [cbn [sumn]; rewrite Nat.sub_diag; cbn [qpow]; ring|].
  rewrite <- sumn_scale_r. apply sumn_ext. intros j J. replace (S i - j) with (S (i - j)) by lia. cbn [qpow]. ring.
Qed.
Lemma wtot_pos b i : (0 <= b)%Q -> (0 < wtot b i)%Q.
Proof.
  intros B. unfold wtot. induction i as [|i IH]; [cbn; lra|]. change (sumn (S (S i)) (fun j => qpow b j)) with (sumn (S i) (fun j => qpow b j) + qpow b (S i))%Q.
  pose proof (qpow_nonneg b (S i) B). lra.
Qed.
Lemma ewma_go_nth a b (v : nat -> Q) : (b == 1 - a)%Q -> forall l i w e, (forall k, k < length l -> nth k l 0%Q = v (S i + k)) ->
  (e == wsum b v i)%Q -> (w == wtot b i)%Q -> length (ewma_go a (S i) w e l) = length l /\
  forall k, k < length l -> (nth k (ewma_go a (S i) w e l) 0 == wsum b v (S i + k) / wtot b (S i + k))%Q.
Proof.
  intros AB. induction l as [|x l IH]; intros i w e V E W; cbn [ewma_go length]; [split; [reflexivity|intros; lia]|].
  assert (X : x = v (S i)) by (specialize (V 0 ltac:(cbn; lia)); rewrite Nat.add_0_r in V; exact V).
  assert (E' : (e * (1 - a) + x == wsum b v (S i))%Q) by (rewrite wsum_S, E, X, <- AB; reflexivity).
  assert (W' : (w + qpow (1 - a) (S i) == wtot b (S i))%Q).
  { unfold wtot. change (sumn (S (S i)) (fun j => qpow b j)) with (wtot b i + qpow b (S i))%Q. rewrite W. apply Qplus_comp; [reflexivity|]. apply qpow_comp. symmetry. exact AB. }
  destruct (IH (S i) (w + qpow (1 - a) (S i))%Q (e * (1 - a) + x)%Q) as [L N]; auto.
  { intros k K. specialize (V (S k) ltac:(cbn; lia)). rewrite Nat.add_succ_r in V. exact V. }
  split; [now rewrite L|]. intros [|k] K.
  - rewrite Nat.add_0_r. cbn [nth]. rewrite E', W'. reflexivity.
  - cbn [nth]. rewrite N by lia. replace (S i + S k) with (S (S i) + k) by lia. reflexivity.
Qed.
Lemma somes_lead k v : somes (repeat None k ++ map Some v) = v.
Proof. unfold somes. induction k as [|k IH]; [|exact IH]. cbn [repeat app]. induction v as [|a v IH]; [reflexivity|]. cbn. now rewrite IH. Qed.
(** The result has the length of the input. With the missing values in front only, a row from the min_periods-th value
    on holds the exponentially weighted mean of the values so far, and the rows before are missing. *)
Lemma ewma_ok : forall span minp k v b, 1 <= span -> decay span b -> 1 <= minp <= length v ->
  exists out, ewma span minp (repeat None k ++ map Some v) = Some out /\ length out = k + length v /\
    (forall i, i < k + minp - 1 -> nth i out None = None) /\
    (forall i, minp - 1 <= i < length v -> exists q, nth (k + i) out None = Some q /\ weighted_mean b (fun j => nth j v 0%Q) i q).
Proof.
  intros span minp k v b SP D M. unfold ewma. rewrite somes_lead. destruct v as [|v0 l]; [cbn in M; lia|]. set (v := v0 :: l) in *.
  destruct minp as [|m]; [lia|]. set (e := v0 :: ewma_go (alpha span) 1 1%Q v0 l).
  pose proof (alpha_decay span b SP D) as AB. pose proof (decay_range span b SP D) as BR.
  destruct (ewma_go_nth (alpha span) b (fun j => nth j v 0%Q) AB l 0 1%Q v0) as [L N].
  { intros j J. reflexivity. } { unfold wsum. cbn. ring. } { unfold wtot. cbn. ring. }
  assert (LE : length e = length v) by (unfold e, v; cbn [length]; now rewrite L).
  assert (NE : forall i, i < length v -> (nth i e 0 == wsum b (fun j => nth j v 0%Q) i / wtot b i)%Q).
  { intros [|i] I; unfold e; cbn [nth].
    - unfold wsum, wtot. cbn. field.
    - rewrite N by (unfold v in I; cbn in I; lia). reflexivity. }
  assert (LS : length (skipn m e) = length v - m) by (rewrite skipn_length, LE; reflexivity).
  destruct (skipn m e) as [|s0 sl] eqn:SE; [change (0 = length v - m) in LS; lia|]. rewrite <- SE in *. clear SE.
  rewrite app_length, repeat_length, map_length, LS. replace (k + length v - (length v - m)) with (k + m) by lia.
  eexists. split; [reflexivity|]. split; [rewrite app_length, repeat_length, map_length, LS; lia|]. split.
  - intros i I. rewrite app_nth1 by (rewrite repeat_length; lia). apply nth_repeat.
  - intros i I. rewrite app_nth2 by (rewrite repeat_length; lia). rewrite repeat_length. replace (k + i - (k + m)) with (i - m) by lia.
    exists (nth i e 0%Q). split.
    + rewrite nth_indep with (d' := Some 0%Q) by (rewrite map_length, LS; lia). rewrite map_nth. rewrite nth_skipn_at. replace (m + (i - m)) with i by lia. reflexivity.
    + unfold weighted_mean. rewrite NE by lia. unfold wsum, wtot. field. pose proof (wtot_pos b i (proj1 BR)) as P. unfold wtot in P. lra.
Qed.
(** With a value missing in between, the means are moved to other rows. *)
Lemma ewma_misplaced : ewma 3 1 [Some 4%Q; None; None] = Some [None; None; Some 4%Q].
Proof. vm_compute. reflexivity. Qed.

(* ------------------------------------------------------------------ means of the other columns *)
Lemma zip_length {A B C} (f : A -> B -> C) a : forall b, length (zip f a b) = Nat.min (length a) (length b).
Proof. induction a as [|x a IH]; intros [|y b]; cbn; auto. Qed.
Lemma zip_nth {A B C} (f : A -> B -> C) a da db dc : forall b i, i < length a -> i < length b -> nth i (zip f a b) dc = f (nth i a da) (nth i b db).
Proof. induction a as [|x a IH]; intros [|y b] [|i] H1 H2; cbn in *; try lia; auto. apply IH; lia. Qed.
Lemma drop_last_length k x : length (drop_last k x) = length x - k.
Proof. unfold drop_last. rewrite firstn_length. lia. Qed.
Lemma nth_firstn_at n (x : list Q) i : i < n -> nth i (firstn n x) 0%Q = nth i x 0%Q.
Proof. revert n i. induction x as [|a x IH]; intros [|n] [|i] H; cbn; try lia; auto. apply IH. lia. Qed.
Lemma drop_last_nth k x i : i < length x - k -> nth i (drop_last k x) 0%Q = nth i x 0%Q.
Proof. intros H. unfold drop_last. now apply nth_firstn_at. Qed.
Lemma mean0_over (l : list (option Q)) n (f : nat -> Q) : 1 <= n -> length l = n ->
  (forall i, i < n -> exists q, nth i l None = q /\ (match q with Some q => q | None => 0 end == f i)%Q) ->
  exists q, mean0 l = Some q /\ mean_over n f q.
Proof.
  intros N L H. unfold mean0, avg_nan. set (l' := map _ l). assert (L' : length l' = n) by (unfold l'; now rewrite map_length).
  destruct l' as [|a l0] eqn:E; [cbn in L'; lia|]. rewrite <- E in *. exists (avg l'). split; [reflexivity|].
  unfold mean_over. rewrite <- L' at 1. change (inject_Z (Z.of_nat (length l'))) with (lenQ l'). rewrite avg_total by (rewrite E; discriminate).
  rewrite <- sumn_nth, L'. apply sumn_ext. intros i I. destruct (H i I) as (q & Q1 & Q2). rewrite <- Q2, <- Q1. unfold l'.
  pose proof (map_nth (fun v : option Q => match v with Some q => q | None => 0%Q end) l None i) as X. cbv beta iota in X. rewrite X. reflexivity.
Qed.
Lemma qsum_sumn l : (qsum l == sumn (length l) (fun i => nth i l 0))%Q.
Proof. symmetry. apply sumn_nth. Qed.
Lemma cumsum_nth x i : i < length x -> nth i (cumsum x) 0%Q = qsum (firstn (S i) x).
Proof.
  intros H. unfold cumsum. rewrite nth_indep with (d' := qsum (firstn (S 0) x)) by (rewrite map_length, seq_length; lia).
  rewrite (map_nth (fun i => qsum (firstn (S i) x))), seq_nth by lia. reflexivity.
Qed.
Lemma cumsum_length x : length (cumsum x) = length x.
Proof. unfold cumsum. now rewrite map_length, seq_length. Qed.
Lemma firstn_sum x n : n <= length x -> (qsum (firstn n x) == sumn n (fun j => nth j x 0))%Q.
Proof.
  intros H. rewrite qsum_sumn, firstn_length, Nat.min_l by lia. apply sumn_ext. intros i I. rewrite nth_firstn_at by exact I. reflexivity.
Qed.
Lemma sumn_split a b f : (sumn (a + b) f == sumn a f + sumn b (fun j => f (a + j)%nat))%Q.
Proof. induction b as [|b IH]; [rewrite Nat.add_0_r; cbn; ring|]. rewrite Nat.add_succ_r. cbn [sumn]. rewrite IH. ring. Qed.
Lemma ma_row w x i : 1 <= w -> i + w <= length x ->
  (nth (w - 1 + i) (firstn w (cumsum x) ++ zip (fun b a => (b - a)%Q) (skipn w (cumsum x)) (firstn (length x - w) (cumsum x))) 0 == sumn w (fun j => nth (i + j) x 0))%Q.
Proof.
  intros W L. assert (FL : length (firstn w (cumsum x)) = w) by (rewrite firstn_length, cumsum_length; lia).
  destruct i as [|i].
  - rewrite app_nth1 by lia. rewrite nth_firstn_at by lia. rewrite cumsum_nth by lia. rewrite firstn_sum by lia. replace (S (w - 1 + 0)) with w by lia. reflexivity.
  - rewrite app_nth2 by lia. rewrite FL. replace (w - 1 + S i - w) with i by lia.
    rewrite (zip_nth _ _ 0%Q 0%Q) by (rewrite ?skipn_length, ?firstn_length, cumsum_length; lia).
    rewrite nth_skipn_at, nth_firstn_at by lia. rewrite !cumsum_nth by lia. rewrite !firstn_sum by lia.
    replace (S (w + i)) with (S i + w) by lia. rewrite sumn_split. ring.
Qed.

(** The mean of a column whose first k rows only are missing. *)
Lemma nanmean0_tail (l : list (option Q)) k n (f : nat -> Q) : 1 <= n -> length l = k + n -> (forall i, i < k -> nth i l None = None) ->
  (forall i, i < n -> exists q, nth (k + i) l None = Some q /\ (q == f i)%Q) -> exists q, nanmean0 l = Some q /\ mean_over n f q.
Proof.
  intros N L P V. set (v := map (fun i => match nth (k + i) l None with Some q => q | None => 0%Q end) (seq 0 n)).
  assert (LV : length v = n) by (unfold v; now rewrite map_length, seq_length).
  assert (NV : forall i, i < n -> nth i v 0%Q = match nth (k + i) l None with Some q => q | None => 0%Q end).
  { intros i I. unfold v. rewrite nth_indep with (d' := match nth (k + 0) l None with Some q => q | None => 0%Q end) by (rewrite map_length, seq_length; exact I).
    rewrite (map_nth (fun i => match nth (k + i) l None with Some q => q | None => 0%Q end)), seq_nth by exact I. reflexivity. }
  assert (E : l = repeat None k ++ map Some v).
  { apply nth_ext with None None; [rewrite app_length, repeat_length, map_length, LV; exact L |]. intros i I. destruct (Nat.lt_ge_cases i k) as [A|A].
    - rewrite P by exact A. rewrite app_nth1 by (rewrite repeat_length; exact A). symmetry. apply nth_repeat.
    - rewrite app_nth2 by (rewrite repeat_length; exact A). rewrite repeat_length.
      rewrite nth_indep with (d := None) (d' := Some 0%Q) (l := map Some v) by (rewrite map_length, LV; lia). rewrite map_nth, NV by lia.
      replace (k + (i - k)) with i by lia. destruct (V (i - k) ltac:(lia)) as (q & Q1 & _). replace (k + (i - k)) with i in Q1 by lia. now rewrite Q1. }
  exists (avg v). split; [unfold nanmean0, avg_nan; rewrite E, somes_lead; destruct v; [cbn in LV; lia | reflexivity] |].
  unfold mean_over. rewrite <- LV at 1. change (inject_Z (Z.of_nat (length v))) with (lenQ v). rewrite avg_total by (intros X; rewrite X in LV; cbn in LV; lia).
  rewrite <- sumn_nth, LV. apply sumn_ext. intros i I. rewrite NV by exact I. destruct (V i I) as (q & -> & Q2). exact Q2.
Qed.

Section Short.
Lemma ewma_short span minp v : length v < minp -> ewma span minp (map Some v) = None.
Proof.
  intros H. unfold ewma. pose proof (somes_lead 0 v) as S. cbn [repeat app] in S. rewrite S. destruct v as [|v0 l]; [reflexivity|].
  destruct minp as [|m]; [lia|].
  assert (E : skipn m (v0 :: ewma_go (alpha span) 1 1%Q v0 l) = []).
  { apply skipn_all2. cbn [length]. assert (X : forall l i w e, length (ewma_go (alpha span) i w e l) = length l) by (induction l0; intros; cbn; auto). rewrite X. cbn in H. lia. }
  rewrite E. reflexivity.
Qed.
End Short.

(* ------------------------------------------------------------------ C163 *)
(** On a series of at least n_slow - 1 rows, and with a window of at least two rows, the features are the means of the
    columns; the rate of change compares rows window - 1 apart. The last two are there from 27 rows on: the mean of the
    signal, the exponential mean of span 9 of the differences of fast and slow, and that of their distance from it. *)
Theorem C163_features_partial : forall w nf ns x bf bs,
  2 <= w < length x -> 1 <= nf -> 2 <= ns -> ns - 1 <= length x -> (27 <= length x -> ns + 6 <= length x) -> decay nf bf -> decay ns bs ->
  exists roc mom ma lag macd sign dif,
    nowcasting w nf ns x = [Some roc; Some mom; Some ma; Some lag; Some macd; sign; dif] /\
    mean_over (length x - w + 1) (fun i => if Qeq_bool (at_ x i) 0 then 0 else (at_ x (i + (w - 1)) - at_ x i) / at_ x i)%Q roc /\
    mean_over (length x - w) (fun i => at_ x (i + w) - at_ x i)%Q mom /\
    mean_over (length x - w + 1) (fun i => sumn w (fun j => at_ x (i + j)) / inject_Z (Z.of_nat w))%Q ma /\
    mean_over (length x - w) (fun i => at_ x i) lag /\
    (exists fast slow, (forall i, i < length x -> weighted_mean bf (fun j => at_ x j) i (fast i) /\ weighted_mean bs (fun j => at_ x j) i (slow i)) /\
       mean_over (length x - (ns - 2)) (fun i => fast (ns - 2 + i)%nat - slow (ns - 2 + i)%nat)%Q macd /\
       (27 <= length x -> exists signal s d, sign = Some s /\ dif = Some d /\
          (forall i, i < length x - (ns - 2) -> weighted_mean (4 # 5) (fun j => fast (ns - 2 + j)%nat - slow (ns - 2 + j)%nat)%Q i (signal i)) /\
          mean_over (length x - ns - 5) (fun i => signal (7 + i)%nat) s /\
          mean_over (length x - ns - 5) (fun i => fast (ns + 5 + i)%nat - slow (ns + 5 + i)%nat - signal (7 + i)%nat)%Q d)) /\
    (sign <> None <-> 27 <= length x) /\ (dif <> None <-> 27 <= length x).
Proof.
  intros w nf ns x bf bs W NF NS LEN BIG DF DS.
  unfold nowcasting, nowcasting_np. destruct (Nat.eqb_spec (w - 1) 0) as [E|_]; [lia|]. cbn [andb].
  destruct (ewma_ok nf (ns - 1) 0 x bf NF DF ltac:(lia)) as (fast & EF & LF & PF & RF). cbn [repeat app Nat.add] in *.
  destruct (ewma_ok ns (ns - 1) 0 x bs ltac:(lia) DS ltac:(lia)) as (slow & ES & LS & PS & RS). cbn [repeat app Nat.add] in *.
  rewrite EF, ES.
  set (MACD := zip sub_nan fast slow).
  assert (LM : length MACD = length x) by (unfold MACD; rewrite zip_length, LF, LS; lia).
  (* the true means *)
  pose (avgf := fun b i => (wsum b (fun j => at_ x j) i / wtot b i)%Q).
  assert (TRUE : forall span b i, 1 <= span -> decay span b -> weighted_mean b (fun j => at_ x j) i (avgf b i)).
  { intros span b i SP D. unfold weighted_mean, avgf, wsum, wtot. field. pose proof (wtot_pos b i (proj1 (decay_range span b SP D))) as P. unfold wtot in P. lra. }
  assert (UNIQ : forall span b i q, 1 <= span -> decay span b -> weighted_mean b (fun j => at_ x j) i q -> (q == avgf b i)%Q).
  { intros span b i q SP D Q. unfold weighted_mean in Q. pose proof (wtot_pos b i (proj1 (decay_range span b SP D))) as P. unfold avgf.
    apply Qmult_inj_r with (wtot b i); [lra|]. change (sumn (S i) (fun j => qpow b j)) with (wtot b i) in Q. rewrite Q. unfold wsum. field. lra. }
  assert (MN : forall i, i < ns - 2 -> nth i MACD None = None).
  { intros i I. unfold MACD. rewrite (zip_nth _ _ None None) by lia. rewrite PF by lia. reflexivity. }
  assert (MS : forall i, ns - 2 <= i < length x -> exists q, nth i MACD None = Some q /\ (q == avgf bf i - avgf bs i)%Q).
  { intros i I. unfold MACD. rewrite (zip_nth _ _ None None) by lia. destruct (RF i ltac:(lia)) as (qf & -> & QF). destruct (RS i ltac:(lia)) as (qs & -> & QS).
    cbn [sub_nan]. eexists. split; [reflexivity|]. rewrite (UNIQ nf bf i qf NF DF QF), (UNIQ ns bs i qs ltac:(lia) DS QS). reflexivity. }
  (* the values of the MACD column *)
  set (vals := map (fun i => match nth (ns - 2 + i) MACD None with Some q => q | None => 0%Q end) (seq 0 (length x - (ns - 2)))).
  assert (MV : MACD = repeat None (ns - 2) ++ map Some vals).
  { apply nth_ext with None None.
    - rewrite app_length, repeat_length, map_length. unfold vals. rewrite map_length, seq_length. lia.
    - intros i I. destruct (Nat.lt_ge_cases i (ns - 2)) as [A|A].
      + rewrite MN by exact A. rewrite app_nth1 by (rewrite repeat_length; exact A). symmetry. apply nth_repeat.
      + destruct (MS i ltac:(lia)) as (q & EQ & _). transitivity (Some q); [exact EQ|].
        rewrite app_nth2 by (rewrite repeat_length; exact A). rewrite repeat_length. unfold vals. rewrite map_map.
        rewrite nth_indep with (d' := Some (match nth (ns - 2 + 0) MACD None with Some q => q | None => 0%Q end)) by (rewrite map_length, seq_length; lia).
        rewrite (map_nth (fun i => Some (match nth (ns - 2 + i) MACD None with Some q => q | None => 0%Q end))). rewrite seq_nth by lia.
        replace (ns - 2 + (0 + (i - (ns - 2)))) with i by lia. now rewrite EQ. }
  assert (LV : length vals = length x - (ns - 2)) by (unfold vals; now rewrite map_length, seq_length).
  assert (SV : somes MACD = vals) by (rewrite MV; apply somes_lead).
  assert (AV : nanmean0 MACD = Some (avg vals)). { unfold nanmean0, avg_nan. rewrite SV. destruct vals; [cbn in LV; lia|reflexivity]. }
  assert (MEAN : mean_over (length x - (ns - 2)) (fun i => avgf bf (ns - 2 + i)%nat - avgf bs (ns - 2 + i)%nat)%Q (avg vals)).
  { unfold mean_over. rewrite <- LV at 1. change (inject_Z (Z.of_nat (length vals))) with (lenQ vals). rewrite avg_total by (intros E; rewrite E in LV; cbn in LV; lia).
    rewrite <- sumn_nth, LV. apply sumn_ext. intros i I. unfold vals.
    rewrite nth_indep with (d' := match nth (ns - 2 + 0) MACD None with Some q => q | None => 0%Q end) by (rewrite map_length, seq_length; lia).
    rewrite (map_nth (fun i => match nth (ns - 2 + i) MACD None with Some q => q | None => 0%Q end)). rewrite seq_nth by lia. cbn [Nat.add].
    destruct (MS (ns - 2 + i) ltac:(lia)) as (q & -> & ->). reflexivity. }
  rewrite AV.
  destruct (mean0_over (zip (fun b a => if Qeq_bool a 0 then None else Some ((b - a) / a)%Q) (skipn (w - 1) x) (drop_last (w - 1) x)) (length x - w + 1)
    (fun i => if Qeq_bool (at_ x i) 0 then 0 else (at_ x (i + (w - 1)) - at_ x i) / at_ x i)%Q) as (roc & -> & ROC); [lia|rewrite zip_length, skipn_length, drop_last_length; lia| |].
  { intros i I. eexists. split; [reflexivity|]. rewrite (zip_nth _ _ 0%Q 0%Q) by (rewrite ?skipn_length, ?drop_last_length; lia).
    rewrite nth_skipn_at, drop_last_nth by lia. replace (w - 1 + i) with (i + (w - 1)) by lia. destruct (Qeq_bool (at_ x i) 0); reflexivity. }
  destruct (mean0_over (zip (fun b a => Some (b - a)%Q) (skipn w x) (drop_last w x)) (length x - w) (fun i => at_ x (i + w) - at_ x i)%Q) as (mom & -> & MOM); [lia|rewrite zip_length, skipn_length, drop_last_length; lia| |].
  { intros i I. eexists. split; [reflexivity|]. rewrite (zip_nth _ _ 0%Q 0%Q) by (rewrite ?skipn_length, ?drop_last_length; lia).
    rewrite nth_skipn_at, drop_last_nth by lia. replace (w + i) with (i + w) by lia. reflexivity. }
  set (ret := firstn w (cumsum x) ++ _).
  assert (LR : length ret = length x). { unfold ret. rewrite app_length, zip_length, skipn_length, !firstn_length, cumsum_length. lia. }
  destruct (mean0_over (map (fun r => Some (r / inject_Z (Z.of_nat w))%Q) (skipn (w - 1) ret)) (length x - w + 1) (fun i => sumn w (fun j => at_ x (i + j)) / inject_Z (Z.of_nat w))%Q) as (ma & -> & MA);
    [lia|rewrite map_length, skipn_length, LR; lia| |].
  { intros i I. eexists. split; [reflexivity|]. rewrite nth_indep with (d' := Some (0 / inject_Z (Z.of_nat w))%Q) by (rewrite map_length, skipn_length; lia).
    rewrite (map_nth (fun r => Some (r / inject_Z (Z.of_nat w))%Q)). rewrite nth_skipn_at. unfold ret. rewrite ma_row by lia. reflexivity. }
  destruct (mean0_over (map Some (drop_last w x)) (length x - w) (fun i => at_ x i)) as (lag & -> & LAG); [lia|rewrite map_length, drop_last_length; lia| |].
  { intros i I. eexists. split; [reflexivity|]. rewrite nth_indep with (d' := Some 0%Q) by (rewrite map_length, drop_last_length; lia). rewrite map_nth. rewrite drop_last_nth by lia. reflexivity. }
  assert (NN : forall l, nanmean0 l <> None) by (intros l; unfold nanmean0; destruct (avg_nan (somes l)); discriminate).
  destruct (Nat.leb_spec 27 (length x)) as [B|B].
  - specialize (BIG B). assert (D9 : decay 9 (4 # 5)) by (vm_compute; reflexivity).
    pose (m := fun j => (avgf bf (ns - 2 + j)%nat - avgf bs (ns - 2 + j)%nat)%Q). pose (sgf := fun i => (wsum (4 # 5) m i / wtot (4 # 5) i)%Q).
    assert (VM : forall j, j < length x - (ns - 2) -> (nth j vals 0 == m j)%Q).
    { intros j J. unfold vals. rewrite nth_indep with (d' := match nth (ns - 2 + 0) MACD None with Some q => q | None => 0%Q end) by (rewrite map_length, seq_length; lia).
      rewrite (map_nth (fun i => match nth (ns - 2 + i) MACD None with Some q => q | None => 0%Q end)). rewrite seq_nth by lia. cbn [Nat.add].
      destruct (MS (ns - 2 + j) ltac:(lia)) as (q & -> & ->). reflexivity. }
    assert (SG : forall i, weighted_mean (4 # 5) m i (sgf i)).
    { intros i. unfold weighted_mean, sgf, wsum, wtot. field. pose proof (wtot_pos (4 # 5) i ltac:(discriminate)) as P. unfold wtot in P. lra. }
    destruct (ewma_ok 9 8 (ns - 2) vals (4 # 5)%Q ltac:(lia) D9 ltac:(lia)) as (sg & EG & LG & PG & RG). rewrite <- MV in EG. rewrite EG.
    assert (RG' : forall i, i < length x - ns - 5 -> exists q, nth (ns - 2 + 7 + i) sg None = Some q /\ (q == sgf (7 + i)%nat)%Q).
    { intros i I. destruct (RG (7 + i) ltac:(lia)) as (q & Q1 & Q2). exists q. split; [rewrite <- Q1; f_equal; lia |].
      pose proof (wtot_pos (4 # 5) (7 + i) ltac:(discriminate)) as P. unfold weighted_mean in Q2. change (sumn (S (7 + i)) (fun j => qpow (4 # 5) j)) with (wtot (4 # 5) (7 + i)) in Q2.
      apply Qmult_inj_r with (wtot (4 # 5) (7 + i)); [lra |]. rewrite Q2. transitivity (wsum (4 # 5) m (7 + i)).
      - unfold wsum. apply sumn_ext. intros j J. rewrite VM by lia. reflexivity.
      - unfold sgf. field. lra. }
    destruct (nanmean0_tail sg (ns - 2 + 7) (length x - ns - 5) (fun i => sgf (7 + i)%nat)) as (s & ES' & MES); [lia | lia | intros i I; apply PG; lia | exact RG' |].
    destruct (nanmean0_tail (zip sub_nan MACD sg) (ns - 2 + 7) (length x - ns - 5) (fun i => avgf bf (ns + 5 + i)%nat - avgf bs (ns + 5 + i)%nat - sgf (7 + i)%nat)%Q) as (d & ED & MED);
      [lia | rewrite zip_length; lia | | |].
    { intros i I. rewrite (zip_nth _ _ None None) by lia. rewrite PG by lia. destruct (nth i MACD None); reflexivity. }
    { intros i I. rewrite (zip_nth _ _ None None) by lia. destruct (RG' i I) as (q & -> & Q). destruct (MS (ns - 2 + 7 + i) ltac:(lia)) as (q' & -> & Q').
      eexists. split; [reflexivity |]. rewrite Q, Q'. replace (ns - 2 + 7 + i) with (ns + 5 + i) by lia. reflexivity. }
    rewrite ES', ED. do 7 eexists. split; [reflexivity|]. do 4 (split; [assumption|]). split; [| split; split; intros _; auto; discriminate].
    exists (avgf bf), (avgf bs). split; [intros i I; split; [apply (TRUE nf)|apply (TRUE ns)]; auto; lia |]. split; [exact MEAN |].
    intros _. exists sgf, s, d. split; [reflexivity |]. split; [reflexivity |]. split; [intros i _; exact (SG i) |]. split; assumption.
  - do 7 eexists. split; [reflexivity|]. do 4 (split; [assumption|]). split; [| split; split; intros H; try congruence; lia].
    exists (avgf bf), (avgf bs). split; [intros i I; split; [apply (TRUE nf)|apply (TRUE ns)]; auto; lia |]. split; [exact MEAN | lia].
Qed.
(** A series shorter than n_slow - 1 rows loses every feature, also those that need only a few rows. *)
Theorem C163_short_refuted : forall w nf ns x, length x + 1 < ns -> nowcasting w nf ns x = repeat None 7.
Proof.
  intros w nf ns x H. unfold nowcasting, nowcasting_np. destruct (_ && _); [reflexivity|].
  rewrite (ewma_short nf (ns - 1) x) by lia. reflexivity.
Qed.
(** A window of one row does the same. *)
Theorem C163_window_refuted : forall nf ns x, 2 <= length x -> nowcasting 1 nf ns x = repeat None 7.
Proof. intros nf ns x H. unfold nowcasting, nowcasting_np. cbn [Nat.sub Nat.eqb andb]. destruct (Nat.leb_spec (length x) 1); [lia|reflexivity]. Qed.
Example C163_case : match nowcasting 2 2 3 [1;2;4;8]%Q with
  [Some roc; Some mom; Some ma; Some lag; Some macd; None; None] => (roc == 1)%Q /\ (mom == 9 # 2)%Q /\ (ma == 7 # 2)%Q /\ (lag == 3 # 2)%Q /\ ~ (macd == 0)%Q | _ => False end.
Proof. vm_compute. repeat split; discriminate. Qed.
(** The rate of change is documented as comparing with the row window rows back; it compares with window - 1 rows. *)
Theorem C163_roc_refuted : exists x q, nth 0 (nowcasting 2 2 3 x) None = Some q /\
  (forall i, i + 2 < length x -> (at_ x (i + 2) - at_ x i == 3 * at_ x i)%Q) /\ (q == 1)%Q.
Proof.
  exists [1;2;4;8]%Q. eexists. split; [vm_compute; reflexivity|]. split; [|vm_compute; reflexivity].
  intros i I. cbn [length] in I. do 2 (destruct i as [|i]; [vm_compute; reflexivity|]). lia.
Qed.

(* ------------------------------------------------------------------ C165 *)
(** n is the number of different members of l. *)
Definition distinct {A} (l : list A) (n : nat) : Prop := exists u, NoDup u /\ (forall a, In a u <-> In a l) /\ length u = n.
Lemma count_ok {A} (eqb : A -> A -> bool) : (forall a b, eqb a b = true <-> a = b) -> forall l, distinct l (count_distinct eqb l).
Proof.
  intros E. induction l as [|a l (u & N & M & L)]; [exists []; repeat split; auto; constructor|]. cbn [count_distinct].
  destruct (existsb (eqb a) l) eqn:X.
  - exists u. split; [exact N|]. split; [|exact L]. intros b. rewrite M. cbn. split; [auto|]. intros [<-|I]; [|exact I].
    apply existsb_exists in X. destruct X as (c & I & C). apply E in C. now subst.
  - exists (a :: u). split; [constructor; [|exact N]|].
    + intros I. apply M in I. assert (existsb (eqb a) l = true); [|congruence]. apply existsb_exists. exists a. split; [exact I|]. now apply E.
    + split; [|cbn; lia]. intros b. cbn. rewrite M. reflexivity.
Qed.
Lemma pair_eqb_iff a b : pair_eqb a b = true <-> a = b.
Proof. destruct a as [a1 a2], b as [b1 b2]. unfold pair_eqb. cbn. rewrite andb_true_iff, !Nat.eqb_eq. split; [intros [-> ->]; reflexivity|intros [= -> ->]; auto]. Qed.
Lemma distinct_unique {A} (l : list A) n m : distinct l n -> distinct l m -> n = m.
Proof.
  intros (u & N & M & <-) (u' & N' & M' & <-). apply Nat.le_antisymm; apply NoDup_incl_length; auto; intros a I; [apply M', M|apply M, M']; exact I.
Qed.
Theorem C165_counts : forall ts,
  distinct (map year ts) (time_years ts) /\ distinct (map (fun t => (year t, month t)) ts) (time_months ts) /\
  distinct (map month ts) (time_monthsofyear ts) /\ distinct (map iso ts) (time_weeks ts).
Proof.
  intros ts. split; [apply count_ok, Nat.eqb_eq|]. split; [apply count_ok, pair_eqb_iff|]. split; [apply count_ok, Nat.eqb_eq|apply count_ok, pair_eqb_iff].
Qed.
(** The count of days is the number of dates only if no two of them share the year and the day of the month. *)
Theorem C165_days_partial : forall ts n,
  (forall s t, In s ts -> In t ts -> year s = year t -> day s = day t -> month s = month t) ->
  distinct (map (fun t => (year t, month t, day t)) ts) n -> time_days ts = n.
Proof.
  intros ts n H (u & N & M & <-). apply (distinct_unique (map (fun t => (year t, day t)) ts)); [apply count_ok, pair_eqb_iff|].
  exists (map (fun d => (fst (fst d), snd d)) u). split; [|split; [|apply map_length]].
  - assert (I : forall d, In d u -> exists t, In t ts /\ d = (year t, month t, day t)).
    { intros d D. apply M, in_map_iff in D. destruct D as (t & <- & T). eauto. }
    clear M. induction u as [|d u IH]; [constructor|]. inversion N; subst. cbn [map]. constructor; [|apply IH; [assumption|intros; apply I; now right]].
    intros X. apply in_map_iff in X. destruct X as (d' & E & D'). destruct (I d ltac:(now left)) as (t & T & ->). destruct (I d' ltac:(now right)) as (t' & T' & ->).
    cbn in E. injection E as E1 E2. apply H2. rewrite <- E1, <- E2, <- (H t' t T' T E1 E2). exact D'.
  - intros a. split.
    + intros A. apply in_map_iff in A. destruct A as (d & <- & D). apply M, in_map_iff in D. destruct D as (t & <- & T). apply in_map_iff. now exists t.
    + intros A. apply in_map_iff in A. destruct A as (t & <- & T). apply in_map_iff. exists (year t, month t, day t). split; [reflexivity|]. apply M, in_map_iff. now exists t.
Qed.
Lemma flat_length {A B} (f : A -> list B) n (u : list A) : (forall a, length (f a) = n) -> length (flat_map f u) = length u * n.
Proof. intros H. induction u as [|a u IH]; [reflexivity|]. cbn. rewrite app_length, H, IH. lia. Qed.
(** It is never more than 31 days a year, however many dates there are. *)
Theorem C165_days_refuted :
  (forall ts, (forall t, In t ts -> 1 <= day t <= 31) -> time_days ts <= 31 * time_years ts) /\
  (exists ts, distinct (map (fun t => (year t, month t, day t)) ts) 3 /\ time_days ts = 1).
Proof.
  split.
  - intros ts H. destruct (count_ok pair_eqb pair_eqb_iff (map (fun t => (year t, day t)) ts)) as (u & N & M & L). fold (time_days ts) in L.
    destruct (count_ok Nat.eqb Nat.eqb_eq (map year ts)) as (y & NY & MY & LY). fold (time_years ts) in LY. rewrite <- L, <- LY.
    rewrite (Nat.mul_comm 31). rewrite <- (flat_length (fun a => map (fun d => (a, d)) (seq 1 31)) 31) by (intros; now rewrite map_length, seq_length).
    apply NoDup_incl_length; [exact N|]. intros p I. apply M, in_map_iff in I. destruct I as (t & <- & T). apply in_flat_map. exists (year t).
    split; [apply MY, in_map_iff; now exists t|]. apply in_map_iff. exists (day t). split; [reflexivity|]. specialize (H t T). apply in_seq. lia.
  - exists (map (fun m => Build_stamp 2024 m 1 0 (2024, 1) 0) [1; 2; 3]). split; [|vm_compute; reflexivity].
    exists [(2024, 1, 1); (2024, 2, 1); (2024, 3, 1)]. split; [|split; [intros a; cbn; reflexivity|reflexivity]].
    repeat constructor; cbn; intuition congruence.
Qed.
(** The shares of the weekdays add up to one. *)
Theorem C165_weekdays : forall ts, ts <> [] -> (forall t, In t ts -> weekday t < 7) -> (sumn 7 (fun d => time_freq d ts) == 1)%Q.
Proof.
  intros ts N H. pose proof (lenQ_pos ts N) as P. unfold lenQ in P. unfold time_freq. unfold Qdiv. rewrite sumn_scale_r.
  assert (E : (sumn 7 (fun d => inject_Z (Z.of_nat (length (filter (fun t => weekday t =? d) ts)))) == inject_Z (Z.of_nat (length ts)))%Q).
  { clear P N. induction ts as [|t ts IH]; [vm_compute; reflexivity|].
    assert (S : (sumn 7 (fun d => inject_Z (Z.of_nat (length (filter (fun t => weekday t =? d) (t :: ts)))))
       == sumn 7 (fun d => b2q (weekday t =? d)) + sumn 7 (fun d => inject_Z (Z.of_nat (length (filter (fun t => weekday t =? d) ts)))))%Q).
    { rewrite <- sumn_plus. apply sumn_ext. intros d D. cbn [filter]. destruct (weekday t =? d); cbn [b2q length]; [|ring].
      rewrite Nat2Z.inj_succ, <- Z.add_1_l, inject_Z_plus. reflexivity. }
    rewrite S, IH by (intros; apply H; now right). cbn [length]. rewrite Nat2Z.inj_succ, <- Z.add_1_l, inject_Z_plus. apply Qplus_comp; [|reflexivity].
    specialize (H t ltac:(now left)). revert H. generalize (weekday t). intros n H.
    do 7 (destruct n as [|n]; [vm_compute; reflexivity|]). lia. }
  rewrite E. apply Qmult_inv_r. lra.
Qed.
Lemma zmax_ok l : l <> [] -> In (zmaxl l) l /\ forall z, In z l -> (z <= zmaxl l)%Z.
Proof.
  intros N. unfold zmaxl. assert (G : forall d l, (forall z, In z l -> (z <= fold_right Z.max d l)%Z) /\ (fold_right Z.max d l = d \/ In (fold_right Z.max d l) l) /\ (d <= fold_right Z.max d l)%Z).
  { induction l0 as [|a l0 (IH1 & IH2 & IH3)]; cbn; [split; [tauto|split; [auto|lia]]|]. split; [intros z [<-|I]; [lia|specialize (IH1 z I); lia]|]. split; [|lia].
    destruct (Z.max_spec a (fold_right Z.max d l0)) as [[_ ->]|[_ ->]]; [destruct IH2; auto|auto]. }
  destruct (G (hd 0%Z l) l) as (A & B & _). split; [|exact A]. destruct B as [B|B]; [|exact B]. rewrite B. destruct l; [congruence|now left].
Qed.
Lemma zmin_ok l : l <> [] -> In (zminl l) l /\ forall z, In z l -> (zminl l <= z)%Z.
Proof.
  intros N. unfold zminl. assert (G : forall d l, (forall z, In z l -> (fold_right Z.min d l <= z)%Z) /\ (fold_right Z.min d l = d \/ In (fold_right Z.min d l) l) /\ (fold_right Z.min d l <= d)%Z).
  { induction l0 as [|a l0 (IH1 & IH2 & IH3)]; cbn; [split; [tauto|split; [auto|lia]]|]. split; [intros z [<-|I]; [lia|specialize (IH1 z I); lia]|]. split; [|lia].
    destruct (Z.min_spec a (fold_right Z.min d l0)) as [[_ ->]|[_ ->]]; [auto|destruct IH2; auto]. }
  destruct (G (hd 0%Z l) l) as (A & B & _). split; [|exact A]. destruct B as [B|B]; [|exact B]. rewrite B. destruct l; [congruence|now left].
Qed.
(** The length in days is the number of whole days between the earliest and the latest row. *)
Theorem C165_span : forall ts, ts <> [] ->
  (exists s t, In s ts /\ In t ts /\ (86400 * time_length_days ts <= seconds t - seconds s)%Z) /\
  (forall s t, In s ts -> In t ts -> (seconds t - seconds s < 86400 * (time_length_days ts + 1))%Z).
Proof.
  intros ts N. assert (N' : map seconds ts <> []) by (intros E; apply map_eq_nil in E; congruence).
  destruct (zmax_ok _ N') as [A1 A2]. destruct (zmin_ok _ N') as [B1 B2]. unfold time_length_days.
  set (a := zmaxl (map seconds ts)) in *. set (b := zminl (map seconds ts)) in *. split.
  - apply in_map_iff in A1. apply in_map_iff in B1. destruct A1 as (t & T1 & T2), B1 as (s & S1 & S2). exists s, t. split; [exact S2|]. split; [exact T2|].
    rewrite T1, S1. apply Z.mul_div_le. lia.
  - intros s t S T. assert (X : (seconds t <= a)%Z) by (apply A2, in_map, T). assert (Y : (b <= seconds s)%Z) by (apply B2, in_map, S).
    pose proof (Z.mul_succ_div_gt (a - b) 86400 ltac:(lia)). lia.
Qed.
Example C165_case : let ts := [Build_stamp 2024 1 31 2 (2024, 5) 0; Build_stamp 2024 2 1 3 (2024, 5) 100000; Build_stamp 2025 2 1 5 (2025, 5) 31722400] in
  time_years ts = 2 /\ time_months ts = 3 /\ time_monthsofyear ts = 2 /\ time_weeks ts = 2 /\ time_days ts = 3 /\ time_length_days ts = 367%Z.
Proof. vm_compute. repeat split. Qed.

Print Assumptions C163_features_partial.
Print Assumptions C163_short_refuted.
Print Assumptions C163_window_refuted.
Print Assumptions C163_roc_refuted.
Print Assumptions C165_counts.
Print Assumptions C165_days_partial.
Print Assumptions C165_days_refuted.
Print Assumptions C165_weekdays.
Print Assumptions C165_span.
