(** C251, C252: sampled logistic and flat trends. *)
From Coq Require Import List Arith Lia Reals Lra Sorted.
From Verif Require Import ProphetTrendModel.
Import ListNotations.
Open Scope R_scope.

(** ** C252: rates and offsets *)
Lemma rates_len a : forall c t, length (rates c t a) = length a.
Proof. induction a as [|x a IH]; intros c t; cbn; [reflexivity|]. rewrite IH. reflexivity. Qed.
Lemma rates_nonzero a : forall c t, c <> 0 -> forall x, In x (rates c t a) -> x <> 0.
Proof.
  induction a as [|y a IH]; intros c t C x I; [destruct I|]. cbn in I.
  set (c' := if Req_EM_T y 0 then c else if Req_EM_T (t + y) 0 then c else t + y) in *.
  assert (C' : c' <> 0) by (unfold c'; destruct (Req_EM_T y 0); [exact C|]; destruct (Req_EM_T (t + y) 0); [exact C|assumption]).
  destruct I as [<-|I]; [exact C'|]. apply (IH c' (t + y) C' x I).
Qed.
Lemma rsum_app a b : rsum (a ++ b) = rsum a + rsum b.
Proof. unfold rsum. induction a as [|x a IH]; cbn; [lra|]. rewrite IH. lra. Qed.
(** no rate, partial sums included, is exactly zero *)
Definition never_zero (k : R) (a : list R) : Prop := forall n, k + rsum (firstn n a) <> 0.
Lemma never_zero_tail k x a : never_zero k (x :: a) -> never_zero (k + x) a.
Proof. intros H n. specialize (H (S n)). cbn in H. unfold rsum in *. cbn in H. lra. Qed.
Lemma rates_totals a : forall k, never_zero k a -> rates k k a = totals k a.
Proof.
  induction a as [|x a IH]; intros k H; [reflexivity|]. cbn. assert (N : k + x <> 0) by (specialize (H 1%nat); cbn in H; unfold rsum in H; cbn in H; lra).
  destruct (Req_EM_T x 0) as [->|X].
  - rewrite Rplus_0_r. f_equal. apply IH. rewrite <- (Rplus_0_r k). apply never_zero_tail. exact H.
  - destruct (Req_EM_T (k + x) 0); [contradiction|]. f_equal. apply IH, never_zero_tail, H.
Qed.
Lemma totals_nth a : forall k j, (j < length a)%nat -> nth j (totals k a) 0 = k + rsum (firstn (S j) a).
Proof.
  induction a as [|x a IH]; intros k j J; [cbn in J; lia|]. destruct j; cbn [totals nth firstn rsum fold_right]; [lra|]. rewrite IH by (cbn in J; lia). cbn [firstn]. unfold rsum. cbn [fold_right]. lra.
Qed.
Lemma totals_len a : forall k, length (totals k a) = length a.
Proof. induction a as [|x a IH]; intros k; cbn; [reflexivity|]. rewrite IH. reflexivity. Qed.
Lemma offsets_len ks : forall m k ts, length ts = length ks -> length (offsets m k ks ts) = length ks.
Proof. induction ks as [|x ks IH]; intros m k [|t ts] L; cbn in *; try discriminate; [reflexivity|]. rewrite IH by lia. reflexivity. Qed.
(** The offsets keep the trend continuous: at the time of a shift the logistic curve before it and the one after it meet. *)
Theorem C252_continuous : forall k m a ts, k <> 0 -> length ts = length a ->
  let ks := k :: rates k k a in let ms := m :: offsets m k (rates k k a) ts in
  length ks = S (length a) /\ length ms = S (length a) /\
  forall i cap, (i < length a)%nat -> let t := nth i ts 0 in
    cap / (1 + exp (- (nth i ks 0) * (t - nth i ms 0))) = cap / (1 + exp (- (nth (S i) ks 0) * (t - nth (S i) ms 0))).
Proof.
  intros k m a ts K L ks ms. unfold ks, ms. cbn [length]. rewrite rates_len, offsets_len by (rewrite rates_len; exact L). rewrite rates_len.
  split; [reflexivity|]. split; [reflexivity|]. intros i cap I. set (t := nth i ts 0).
  assert (H : forall rs m k ts i, (forall x, In x rs -> x <> 0) -> k <> 0 -> length ts = length rs -> (i < length rs)%nat ->
    nth i (k :: rs) 0 * (nth i ts 0 - nth i (m :: offsets m k rs ts) 0) = nth (S i) (k :: rs) 0 * (nth i ts 0 - nth (S i) (m :: offsets m k rs ts) 0)).
  { clear. induction rs as [|r rs IH]; intros m k ts i N K L I; [cbn in I; lia|]. destruct ts as [|t ts]; [discriminate|].
    destruct i as [|i].
    - cbn [nth offsets]. field. apply N. left. reflexivity.
    - specialize (IH (m + (t - m) * (1 - k / r)) r ts i (fun x J => N x (or_intror J)) (N r (or_introl eq_refl)) ltac:(cbn in L; lia) ltac:(cbn in I; lia)). exact IH. }
  specialize (H (rates k k a) m k ts i (rates_nonzero a k k K) K ltac:(rewrite rates_len; exact L) ltac:(rewrite rates_len; exact I)).
  fold t in H. rewrite !Ropp_mult_distr_l_reverse. rewrite H. reflexivity.
Qed.
(** The rates are the initial rate and all the shifts so far, unless that is exactly zero once. *)
Theorem C252_rates_partial : forall k a, never_zero k a -> forall j, (j < length a)%nat -> nth j (rates k k a) 0 = k + rsum (firstn (S j) a).
Proof. intros k a H j J. rewrite rates_totals by exact H. apply totals_nth. exact J. Qed.
(** The shifts drawn are spread over two rows; that of the last row keeps only its half. *)
Theorem C252_shifts : forall likelihood uniforms laplaces, length laplaces = length uniforms ->
  let drawn := map (fun p => if Rlt_dec (fst p) likelihood then snd p else 0) (combine uniforms laplaces) in
  length (shifts likelihood uniforms laplaces) = length uniforms /\
  rsum (shifts likelihood uniforms laplaces) = rsum drawn - last drawn 0 / 2.
Proof.
  intros lk us ls L drawn. unfold shifts. fold drawn. split.
  - assert (H : forall l b, length (halved b l) = length l) by (induction l; intros b; cbn; [reflexivity|rewrite IHl; reflexivity]).
    rewrite H. unfold drawn. rewrite map_length, combine_length, L. lia.
  - assert (H : forall l b, rsum (halved b l) = (match l with [] => 0 | _ => b / 2 end) + rsum l - last l 0 / 2).
    { induction l as [|x l IH]; intros b; [cbn; lra|]. cbn [halved rsum fold_right]. unfold rsum in *. rewrite IH. cbn [fold_right]. destruct l as [|y l]; [cbn; lra|].
      change (last (x :: y :: l) 0) with (last (y :: l) 0). lra. }
    rewrite H. destruct drawn; [cbn; lra|]. lra.
Qed.

(** *** a sample in terms of the shifts after the history *)
Fixpoint exponents (k m : R) (s ts : list R) : list R :=
  match s, ts with
  | x :: r, t :: tr => let m' := m + (t - m) * (1 - k / (k + x)) in ((k + x) * (t - m')) :: exponents (k + x) m' r tr
  | _, _ => []
  end.
Lemma exponents_prefix j : forall s1 s2 k m ts, never_zero k s1 -> never_zero k s2 -> firstn j s1 = firstn j s2 -> (j < length s1)%nat -> (j < length s2)%nat ->
  nth j (exponents k m s1 ts) 0 = nth j (exponents k m s2 ts) 0.
Proof.
  induction j as [|j IH]; intros [|x s1] [|y s2] k m ts N1 N2 E L1 L2; cbn in L1, L2; try lia; destruct ts as [|t ts]; try reflexivity.
  - assert (k + x <> 0) by (specialize (N1 1%nat); cbn in N1; unfold rsum in N1; cbn in N1; lra).
    assert (k + y <> 0) by (specialize (N2 1%nat); cbn in N2; unfold rsum in N2; cbn in N2; lra). cbn. transitivity (k * (t - m)); [|symmetry]; field; assumption.
  - cbn [firstn] in E. injection E as -> E. cbn [exponents nth]. apply IH; try (apply never_zero_tail; assumption); try lia. exact E.
Qed.
(** the offset at the end of the history *)
Fixpoint offset_after (m k : R) (past ts : list R) : R :=
  match past, ts with x :: r, t :: tr => offset_after (m + (t - m) * (1 - k / (k + x))) (k + x) r tr | _, _ => m end.
Lemma never_zero_skip past : forall k s, never_zero k (past ++ s) -> never_zero (k + rsum past) s.
Proof. induction past as [|x p IH]; intros k s H; cbn [app rsum fold_right] in *; [rewrite Rplus_0_r; exact H|]. apply never_zero_tail in H. apply IH in H. unfold rsum in *. rewrite <- Rplus_assoc. exact H. Qed.
Lemma skip_totals past : forall k s, skipn (length past) (totals k (past ++ s)) = totals (k + rsum past) s.
Proof. induction past as [|x p IH]; intros k s; cbn [app rsum fold_right length skipn totals]; [rewrite Rplus_0_r; reflexivity|]. rewrite IH. unfold rsum. rewrite Rplus_assoc. reflexivity. Qed.
Lemma skip_offsets past : forall m k pt s ts, length pt = length past ->
  skipn (length past) (offsets m k (totals k (past ++ s)) (pt ++ ts)) = offsets (offset_after m k past pt) (k + rsum past) (totals (k + rsum past) s) ts.
Proof.
  induction past as [|x p IH]; intros m k [|t pt] s ts L; try discriminate; cbn [app rsum fold_right length skipn totals offsets offset_after]; [rewrite Rplus_0_r; reflexivity|].
  rewrite IH by (cbn in L; lia). unfold rsum. rewrite Rplus_assoc. reflexivity.
Qed.
Lemma sample_exponents k m past pt s times caps : length pt = length past -> length times = length s -> length caps = length s -> never_zero k (past ++ s) ->
  sample_trend k m past pt s times caps = map (fun p => fst p / (1 + exp (- snd p))) (combine caps (exponents (k + rsum past) (offset_after m k past pt) s times)).
Proof.
  intros L LT LC N. unfold sample_trend. cbv zeta. rewrite (rates_totals _ _ N), skip_totals, skip_offsets by exact L.
  generalize (k + rsum past) (offset_after m k past pt). clear -LT LC. revert times caps LT LC.
  induction s as [|x s IH]; intros [|t times] [|c caps] LT LC K M; cbn in LT, LC; try discriminate; [reflexivity|]. cbn [totals offsets exponents combine map fst snd].
  rewrite Ropp_mult_distr_l_reverse. f_equal. apply IH; lia.
Qed.
Lemma exponents_len s : forall k m ts, length ts = length s -> length (exponents k m s ts) = length s.
Proof. induction s as [|x s IH]; intros k m [|t ts] L; cbn in *; try discriminate; [reflexivity|]. rewrite IH by lia. reflexivity. Qed.
Lemma sample_nth k m past pt s times caps j : length pt = length past -> length times = length s -> length caps = length s -> never_zero k (past ++ s) -> (j < length s)%nat ->
  nth j (sample_trend k m past pt s times caps) 0 = nth j caps 0 / (1 + exp (- nth j (exponents (k + rsum past) (offset_after m k past pt) s times) 0)).
Proof.
  intros L LT LC N J. rewrite sample_exponents by assumption. apply nth_error_nth. rewrite nth_error_map, (nth_error_nth' _ (0, 0)) by (rewrite combine_length, exponents_len by exact LT; lia).
  rewrite combine_nth by (rewrite exponents_len by exact LT; exact LC). reflexivity.
Qed.
(** A shift changes the trend only at later times: up to it the two trends agree. *)
Theorem C252_later_partial : forall k m past past_times s1 s2 times caps j, length past_times = length past -> length times = length s1 -> length caps = length s1 ->
  length s2 = length s1 -> never_zero k (past ++ s1) -> never_zero k (past ++ s2) -> (j < length s1)%nat ->
  (forall i, (i < j)%nat -> nth i s1 0 = nth i s2 0) ->
  nth j (sample_trend k m past past_times s1 times caps) 0 = nth j (sample_trend k m past past_times s2 times caps) 0.
Proof.
  intros k m past pt s1 s2 times caps j L LT LC L2 N1 N2 J E. rewrite !sample_nth by (assumption || lia).
  rewrite (exponents_prefix j s1 s2); [reflexivity| | | | |]; try (apply never_zero_skip; assumption); try lia.
  clear -J L2 E. revert s1 s2 J L2 E. induction j as [|j IH]; intros [|x s1] [|y s2] J L E; cbn in *; try lia; try reflexivity. f_equal; [apply (E 0%nat); lia|].
  apply IH; try lia. intros i I. apply (E (S i)). lia.
Qed.
(** Refuted: the rates and that a shift changes later times only, where a rate becomes exactly zero: with the rate 1 and a shift
    of -1 at time 2 the offset is computed from the rate 1, and the trend at time 2 already differs from that without shift. *)
Theorem C252_zero_refuted :
  nth 0 (rates 1 1 [-1]) 0 <> 1 + rsum (firstn 1 [-1]) /\
  nth 0 (sample_trend 1 0 [] [] [-1] [2] [1]) 0 <> nth 0 (sample_trend 1 0 [] [] [0] [2] [1]) 0.
Proof.
  assert (RA : rates 1 1 [-1] = [1]). { cbn. destruct (Req_EM_T (-1) 0); [reflexivity|]. destruct (Req_EM_T (1 + -1) 0) as [_|E]; [reflexivity|]. exfalso. lra. }
  assert (RB : rates 1 1 [0] = [1]). { cbn. destruct (Req_EM_T 0 0) as [_|E]; [reflexivity|]. exfalso. lra. }
  split; [rewrite RA; cbn; lra|]. unfold sample_trend. cbn [app length skipn]. rewrite RA, RB. cbn -[Rdiv]. intros H.
  replace (- (1 + -1) * (2 - (0 + (2 - 0) * (1 - 1 / 1)))) with 0 in H by field. replace (- (1 + 0) * (2 - (0 + (2 - 0) * (1 - 1 / 1)))) with (-2) in H by field.
  rewrite exp_0 in H. assert (EX : exp (-2) < 1) by (rewrite <- exp_0; apply exp_increasing; lra). pose proof (exp_pos (-2)) as EP.
  apply (f_equal Rinv) in H. unfold Rdiv in H. rewrite !Rmult_1_l, !Rinv_inv in H. lra.
Qed.
Example C252_case : never_zero 1 [1; 2] /\ nth 1 (rates 1 1 [1; 2]) 0 = 4.
Proof.
  split; [intros [|[|[|n]]]; cbn; unfold rsum; cbn; try (rewrite firstn_nil; cbn); lra|]. cbn.
  destruct (Req_EM_T 1 0); [lra|]. destruct (Req_EM_T (1 + 1) 0); [lra|]. destruct (Req_EM_T 2 0); [lra|]. destruct (Req_EM_T (1 + 1 + 2) 0); lra.
Qed.

(** ** C251: the uncertainty of the trend *)
Lemma filter_later (times caps : list R) : length caps = length times -> StronglySorted Rle times ->
  exists n, (n <= length times)%nat /\ filter (fun p => after_history (fst p)) (combine times caps) = skipn n (combine times caps) /\
    (forall j, (j < length times)%nat -> nth j times 0 <= 1 <-> (j < n)%nat).
Proof.
  revert caps. induction times as [|t times IH]; intros [|c caps] L S; try discriminate; [exists 0%nat; split; [lia|split; [reflexivity|cbn; lia]]|].
  inversion S as [|? ? S' F]; subst. destruct (IH caps ltac:(cbn in L; lia) S') as (n & N & E & H). cbn [combine filter fst]. unfold after_history at 1.
  destruct (Rlt_dec 1 t) as [T|T].
  - exists 0%nat. split; [lia|]. rewrite E. assert (n = 0)%nat.
    { destruct n; [reflexivity|]. exfalso. destruct times as [|u times]; [cbn in N; lia|]. inversion F; subst. assert (u <= 1) by (apply (H 0%nat); cbn; lia). lra. }
    subst n. split; [reflexivity|]. intros [|j] J; [cbn; split; [lra|lia]|]. split; [|lia]. intros X. cbn [nth length] in *. specialize (H j ltac:(lia)). apply H in X. lia.
  - exists (Datatypes.S n). split; [cbn; lia|]. split; [exact E|]. intros [|j] J; cbn [nth]; [split; [lia|lra]|]. rewrite (H j) by (cbn in J; lia). lia.
Qed.
Definition well_shaped (g : growth) : Prop := match g with Flat => True | Logistic _ _ past past_times => length past_times = length past end.
Lemma last_sorted times : StronglySorted Rle times -> forall j, (j < length times)%nat -> nth j times 0 <= last times 0.
Proof.
  induction times as [|t times IH]; intros S j J; [cbn in J; lia|]. inversion S as [|? ? S' F]; subst. destruct times as [|u times].
  - destruct j; [cbn; lra|cbn in J; lia].
  - change (last (t :: u :: times) 0) with (last (u :: times) 0). destruct j; [|apply (IH S' j); cbn in J |- *; lia]. cbn [nth].
    rewrite Forall_forall in F. apply F. clear. revert u. induction times as [|v l IH]; intros u; [left; reflexivity|]. right. apply IH.
Qed.
Lemma nth_repeat0 n j : nth j (repeat 0 n) 0 = 0.
Proof. revert j. induction n; intros [|j]; cbn; auto. Qed.
(** Every sample has a value for every row, zero for those of the history; and zero everywhere without growth. *)
Theorem C251_history : forall g times caps rows, length caps = length times -> StronglySorted Rle times ->
  length (uncertainty g times caps rows) = length rows /\
  forall u, In u (uncertainty g times caps rows) -> length u = length times /\
    (forall j, (j < length times)%nat -> nth j times 0 <= 1 \/ g = Flat -> nth j u 0 = 0).
Proof.
  intros g times caps rows L S. destruct (filter_later times caps L S) as (n & N & E & H). unfold uncertainty. rewrite E. cbv zeta.
  assert (LL : length (skipn n (combine times caps)) = (length times - n)%nat) by (rewrite skipn_length, combine_length, L; lia). rewrite LL.
  destruct (Rle_dec (last times 0) 1).
  { split; [apply map_length|]. intros u I. apply in_map_iff in I as (r' & <- & _). rewrite repeat_length. split; [reflexivity|]. intros; apply nth_repeat0. }
  destruct g as [|k m past pt].
  - split; [apply map_length|]. intros u I. apply in_map_iff in I as (r' & <- & _). rewrite app_length, !repeat_length. split; [lia|]. intros j J _. rewrite <- repeat_app. apply nth_repeat0.
  - unfold logistic_uncertainty. cbv zeta. split; [rewrite !map_length; reflexivity|]. intros u I. apply in_map_iff in I as (v & <- & I). apply in_map_iff in I as (w & <- & I).
    rewrite app_length, repeat_length, !map_length, seq_length, LL. split; [lia|]. intros j J [T|T]; [|discriminate]. apply (H j J) in T.
    rewrite app_nth1 by (rewrite repeat_length; lia). apply nth_repeat0.
Qed.
Lemma rsum_minus l c : rsum (map (fun x => x - c) l) = rsum l - INR (length l) * c.
Proof. unfold rsum. induction l as [|x l IH]; cbn [map fold_right length]; [cbn; lra|]. rewrite IH, S_INR. lra. Qed.
Lemma nth_logistic k m past pt rows times caps i j : (i < length rows)%nat -> (j < length times)%nat ->
  nth j (nth i (logistic_uncertainty k m past pt rows times caps) []) 0 =
  nth j (sample_trend k m past pt (nth i rows []) times caps) 0 - rmean (column j (map (fun s => sample_trend k m past pt s times caps) rows)).
Proof.
  intros I J. unfold logistic_uncertainty. cbv zeta. rewrite map_map.
  rewrite (nth_error_nth (map _ rows) i [] (x := map (fun j0 => nth j0 (sample_trend k m past pt (nth i rows []) times caps) 0 - rmean (column j0 (map (fun s => sample_trend k m past pt s times caps) rows))) (seq 0 (length times)))).
  2: { rewrite nth_error_map, (nth_error_nth' _ []) by exact I. reflexivity. }
  apply nth_error_nth. rewrite nth_error_map, (nth_error_nth' _ 0%nat) by (rewrite seq_length; exact J). rewrite seq_nth by exact J. reflexivity.
Qed.
(** The samples are centred: at every row their mean is zero. *)
Theorem C251_centred : forall g times caps rows, rows <> [] -> length caps = length times -> StronglySorted Rle times ->
  forall j, (j < length times)%nat -> rmean (map (fun u => nth j u 0) (uncertainty g times caps rows)) = 0.
Proof.
  intros g times caps rows R0 L S j J. destruct (filter_later times caps L S) as (n & N & E & H).
  assert (Z0 : forall us : list (list R), (forall u, In u us -> nth j u 0 = 0) -> rmean (map (fun u => nth j u 0) us) = 0).
  { intros us HZ. unfold rmean. assert (X : rsum (map (fun u => nth j u 0) us) = 0); [|rewrite X; unfold Rdiv; lra].
    unfold rsum. induction us as [|u us IH]; cbn; [reflexivity|]. rewrite IH by (intros; apply HZ; right; assumption). rewrite (HZ u) by (left; reflexivity). lra. }
  destruct (C251_history g times caps rows L S) as [_ HH].
  destruct (Rle_dec (nth j times 0) 1) as [T|T]; [apply Z0; intros u I; apply (proj2 (HH u I) j J); left; exact T|].
  destruct g as [|k m past pt]; [apply Z0; intros u I; apply (proj2 (HH u I) j J); right; reflexivity|].
  assert (JN : (n <= j)%nat). { destruct (Nat.lt_ge_cases j n) as [Q|Q]; [|exact Q]. apply (H j J) in Q. contradiction. }
  unfold uncertainty. rewrite E. cbv zeta.
  assert (LL : length (skipn n (combine times caps)) = (length times - n)%nat) by (rewrite skipn_length, combine_length, L; lia). rewrite LL.
  destruct (Rle_dec (last times 0) 1) as [Q|Q]; [exfalso; pose proof (last_sorted times S j J); lra|].
  rewrite map_map. set (samples := map (fun s => sample_trend k m past pt s (map fst (skipn n (combine times caps))) (map snd (skipn n (combine times caps)))) rows).
  unfold logistic_uncertainty. cbv zeta. fold samples. rewrite map_map, map_length, LL.
  set (c := rmean (column (j - n) samples)).
  rewrite (map_ext _ (fun s => nth (j - n) s 0 - c)).
  - unfold rmean. rewrite map_length. rewrite <- (map_map (fun s => nth (j - n) s 0) (fun x => x - c)), rsum_minus, map_length. unfold c, rmean, column. rewrite map_length.
    assert (NZ : INR (length samples) <> 0). { unfold samples. rewrite map_length. apply not_0_INR. destruct rows; [contradiction|discriminate]. }
    field. exact NZ.
  - intros s. replace (length times - (length times - n))%nat with n by lia. rewrite app_nth2 by (rewrite repeat_length; exact JN). rewrite repeat_length.
    rewrite (nth_error_nth (map _ (seq 0 (length times - n))) (j - n) 0 (x := nth (j - n) s 0 - rmean (column (j - n) samples))); [reflexivity|].
    rewrite nth_error_map, (nth_error_nth' _ 0%nat) by (rewrite seq_length; lia). rewrite seq_nth by lia. reflexivity.
Qed.
(** There should be uncertainty after the history; the first row after it never has any. *)
Theorem C251_first_refuted : forall k m past past_times times caps rows, rows <> [] -> times <> [] -> length past_times = length past -> length caps = length times ->
  (forall s, In s rows -> length s = length times /\ never_zero k (past ++ s)) ->
  forall u, In u (logistic_uncertainty k m past past_times rows times caps) -> nth 0 u 0 = 0.
Proof.
  intros k m past pt times caps rows R0 T0 LP LC H u I. apply (In_nth _ _ []) in I as (i & IL & <-). unfold logistic_uncertainty in IL. cbv zeta in IL. rewrite !map_length in IL.
  assert (TL : (0 < length times)%nat) by (destruct times; [contradiction|cbn; lia]).
  rewrite nth_logistic by assumption. destruct (H (nth i rows []) (nth_In _ _ IL)) as [L1 N1]. set (v := nth 0 (sample_trend k m past pt (nth i rows []) times caps) 0).
  assert (X : forall s, In s rows -> nth 0 (sample_trend k m past pt s times caps) 0 = v).
  { intros s J. destruct (H s J) as [L2 N2]. apply C252_later_partial; try assumption; try lia. }
  assert (Y : rsum (column 0 (map (fun s => sample_trend k m past pt s times caps) rows)) = INR (length rows) * v).
  { clearbody v. clear -X. unfold column. rewrite map_map. unfold rsum. induction rows as [|s rows IH]; [cbn; lra|]. cbn [map fold_right length]. rewrite (X s (or_introl eq_refl)), IH by (intros; apply X; right; assumption). rewrite S_INR. lra. }
  unfold rmean. rewrite Y. unfold column. rewrite !map_length. field. apply not_0_INR. destruct rows; [contradiction|discriminate].
Qed.
(** Sampled trends of logistic growth should stay between the floor and the capacity; centring them takes them out. *)
Theorem C251_capacity_refuted : exists likelihood u l times caps k m expected draws,
  times = [2; 3] /\ caps = [1; 1] /\
  expected = map (fun p => snd p / (1 + exp (- k * (fst p - m)))) (combine times caps) /\
  draws = trend_draws expected [0; 0] 1 (uncertainty (Logistic k m [] []) times caps (map (fun p => shifts likelihood (fst p) (snd p)) (combine u l))) /\
  exists d, In d draws /\ nth 1 caps 0 * 1 + 0 < nth 1 d 0.
Proof.
  exists 1, [[0; 0]; [0; 0]], [[0; 0]; [-24; 24]], [2; 3], [1; 1], 1, 0. eexists. eexists. repeat (split; [reflexivity|]).
  unfold uncertainty. cbn [last]. destruct (Rle_dec 3 1); [lra|]. cbn [combine filter fst after_history]. unfold after_history.
  destruct (Rlt_dec 1 2); [|lra]. destruct (Rlt_dec 1 3); [|lra]. cbv zeta. cbn [map length Nat.sub repeat app fst snd].
  unfold shifts. cbn [combine map fst snd]. destruct (Rlt_dec 0 1); [|lra]. cbn [halved].
  set (rows := [[(0 + 0) / 2; (0 + 0) / 2]; [(0 + -24) / 2; (-24 + 24) / 2]]).
  set (U := logistic_uncertainty 1 0 [] [] rows [2; 3] [1; 1]).
  assert (UL : length U = 2%nat) by reflexivity.
  destruct U as [|u1 [|u2 [|u3 U']]] eqn:EU; try discriminate. 
  assert (E1 : nth 1 u1 0 = nth 1 (nth 0 (logistic_uncertainty 1 0 [] [] rows [2; 3] [1; 1]) []) 0) by (fold U; rewrite EU; reflexivity).
  rewrite nth_logistic in E1 by (cbn; lia). cbn [map column rmean length rows nth] in E1. unfold rmean, column in E1. cbn [map length rsum fold_right] in E1.
  assert (Z1 : never_zero 1 ([] ++ [(0 + 0) / 2; (0 + 0) / 2])) by (intros [|[|[|n']]]; cbn; unfold rsum; cbn; try (rewrite firstn_nil; cbn); lra).
  assert (Z2 : never_zero 1 ([] ++ [(0 + -24) / 2; (-24 + 24) / 2])) by (intros [|[|[|n']]]; cbn; unfold rsum; cbn; try (rewrite firstn_nil; cbn); lra).
  rewrite !sample_nth in E1 by (assumption || reflexivity || (cbn; lia)). cbn [exponents nth offset_after rsum fold_right] in E1.
  set (s1 := 1 / (1 + exp (- 3))). set (s2 := 1 / (1 + exp 9)).
  match type of E1 with _ = 1 / (1 + exp (- ?A)) - (1 / (1 + exp (- ?A)) + (1 / (1 + exp (- ?B)) + 0)) / INR 2 => assert (EA : A = 3) by field; assert (EB : - B = 9) by field end.
  rewrite EA, EB in E1. fold s1 s2 in E1. replace (INR 2) with 2 in E1 by (cbn; lra).
  eexists. split; [left; reflexivity|]. cbn [combine map nth fst snd]. destruct u1 as [|a [|b u1]].
  { exfalso. revert EU. unfold U, logistic_uncertainty. cbn. discriminate. }
  { exfalso. revert EU. unfold U, logistic_uncertainty. cbn. discriminate. }
  cbn [nth] in E1. cbn [combine map nth fst snd]. rewrite E1. replace (- (1) * (3 - 0)) with (- (3)) by ring.
  assert (S1 : 4 / 5 < s1). { unfold s1. pose proof (exp_ineq1 3 ltac:(lra)). pose proof (exp_pos (-3)). assert (P : exp (-3) * exp 3 = 1) by (rewrite <- exp_plus; replace (-3 + 3) with 0 by ring; apply exp_0).
    assert (exp (-3) < 1 / 4) by nra. apply Rmult_lt_reg_r with (1 + exp (-3)); [lra|]. unfold Rdiv. rewrite !Rmult_assoc, Rinv_l by lra. lra. }
  assert (S2 : s2 < 1 / 10). { unfold s2. pose proof (exp_ineq1 9 ltac:(lra)). apply Rmult_lt_reg_r with (1 + exp 9); [lra|]. unfold Rdiv. rewrite !Rmult_assoc, Rinv_l by lra. lra. }
  change (- (3)) with (-3). fold s1. lra.
Qed.
Example C251_case : uncertainty Flat [1 / 2; 2] [1; 1] [[0]; [3]] = [[0; 0]; [0; 0]].
Proof. unfold uncertainty. cbn [last]. destruct (Rle_dec 2 1); [lra|]. cbn [combine filter fst]. unfold after_history. destruct (Rlt_dec 1 (1 / 2)); [lra|]. destruct (Rlt_dec 1 2); [|lra]. reflexivity. Qed.

Print Assumptions C252_continuous.
Print Assumptions C252_rates_partial.
Print Assumptions C252_shifts.
Print Assumptions C252_later_partial.
Print Assumptions C251_history.
Print Assumptions C251_centred.
Print Assumptions C251_first_refuted.
Print Assumptions C251_capacity_refuted.

Print Assumptions C252_zero_refuted.
