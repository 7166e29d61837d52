From Verif Require Import Common PySlice CusumModel CusumSpec CusumProofs.
From Coq Require Import Sorted.
Open Scope Z_scope.

(** * Alert state machine *)
Definition inv (s : state) : Prop :=
  (length (cps s) <= 10)%nat /\
  (alert_fired s = true -> cps s <> [] /\ alert_direction s <> None) /\
  number_of_normal_scan s = 0.

Lemma push_cp_spec l t : (length l <= 10)%nat ->
  push_cp l t = last_n 10 (l ++ [t]) /\ (length (push_cp l t) <= 10)%nat /\ push_cp l t <> [] /\ last (push_cp l t) 0 = t.
Proof.
  intros H. unfold push_cp, MAX_CHANGEPOINT, last_n. rewrite app_length. cbn [length].
  destruct (Nat.ltb_spec 10 (length l + 1)).
  - assert (length l = 10)%nat by lia. destruct l as [|x l]; [discriminate|]. cbn [app tl].
    rewrite H1. cbn [skipn Nat.add Nat.sub]. simpl in H1. rewrite app_length. cbn [length].
    repeat split; [lia|destruct l; discriminate|apply last_last].
  - replace (length l + 1 - 10)%nat with 0%nat by lia. cbn [skipn]. rewrite app_length. cbn [length].
    repeat split; [lia|destruct l; discriminate|apply last_last].
Qed.

Lemma earliest_spec f l : In (earliest f l) (f :: l) /\ forall g, In g (f :: l) -> f_time (earliest f l) <= f_time g.
Proof.
  revert f. induction l as [|g t IH]; intros f.
  - simpl. split; [auto|]. intros h [<-|[]]; lia.
  - cbn [earliest]. destruct (Z.ltb_spec (f_time g) (f_time f)).
    + destruct (IH g) as [H1 H2]. split.
      * destruct H1 as [H1|H1]; [right; left; exact H1|right; right; exact H1].
      * intros h [<-|[<-|Hh]]; [|apply H2; left; auto|apply H2; right; auto].
        pose proof (H2 g (or_introl eq_refl)). lia.
    + destruct (IH f) as [H1 H2]. split.
      * destruct H1 as [H1|H1]; [left; exact H1|right; right; exact H1].
      * intros h [<-|[<-|Hh]]; [apply H2; left; auto| |apply H2; right; auto].
        pose proof (H2 f (or_introl eq_refl)). lia.
Qed.

Lemma rev_last {A} (l : list A) d x t : rev l = x :: t -> last l d = x.
Proof.
  intros H. assert (E : l = rev t ++ [x]) by (rewrite <- (rev_involutive l), H; reflexivity).
  rewrite E. apply last_last.
Qed.

Lemma rev_nil {A} (l : list A) : rev l = [] -> l = [].
Proof. intros H. rewrite <- (rev_involutive l), H. reflexivity. Qed.

Lemma if_normal_defined s c dirs ratio : alert_direction s <> None -> exists b, if_normal s c dirs ratio = Some b.
Proof. unfold if_normal. destruct (alert_direction s); [eexists; reflexivity|congruence]. Qed.

(** The baseline the scan is compared with. *)
Definition baseline (adapted : bool) (s : state) (sc : scan) : state :=
  if adapted then
    {| cps := cps s; alert_fired := alert_fired s; pre_mean := s_hist_mean sc;
       pre_std := s_hist_std sc; number_of_normal_scan := number_of_normal_scan s;
       alert_direction := alert_direction s |}
  else s.

Lemma fit_step dirs ratio adapted s sc : inv s ->
  exists s', fit dirs ratio adapted s sc = Some s' /\ inv s' /\
  (* no alert: one starts exactly when the scan is large enough and something was found *)
  (alert_fired s = false ->
     (s_enough sc = true /\ s_found sc <> [] ->
        exists f, In f (s_found sc) /\ (forall g, In g (s_found sc) -> f_time f <= f_time g) /\
          alert_fired s' = true /\ cps s' = last_n 10 (cps s ++ [f_time f]) /\
          alert_direction s' = Some (f_dir f) /\ pre_mean s' = f_mean f /\ pre_std s' = f_std f) /\
     (s_enough sc = false \/ s_found sc = [] -> s' = s)) /\
  (* alert: it ends exactly when back to normal or the change point expired *)
  (alert_fired s = true ->
     cps s' = cps s /\ alert_direction s' = alert_direction s /\
     exists normal, if_normal (baseline adapted s sc) (s_cur_mean sc) dirs ratio = Some normal /\
       (alert_fired s' = false <-> normal = true \/ CHANGEPOINT_RETENTION < s_time sc - last (cps s) 0)).
Proof.
  intros [Hlen [Hal Hn]]. unfold fit.
  destruct (negb (alert_fired s)) eqn:Ea; [apply negb_true_iff in Ea|apply negb_false_iff in Ea].
  2:{ destruct (Hal Ea) as [Hc Hd]. fold (baseline adapted s sc).
    assert (Hb : cps (baseline adapted s sc) = cps s /\ alert_fired (baseline adapted s sc) = true /\
       number_of_normal_scan (baseline adapted s sc) = 0 /\ alert_direction (baseline adapted s sc) = alert_direction s).
    { unfold baseline. destruct adapted; cbn; auto. }
    destruct Hb as [B1 [B2 [B3 B4]]]. set (s1 := baseline adapted s sc) in *.
    destruct (if_normal_defined s1 (s_cur_mean sc) dirs ratio) as [nm Enm]; [congruence|]. rewrite Enm.
    cbv beta iota zeta. match goal with |- context [rev (cps ?x)] => set (s2 := x) end.
    assert (H2 : cps s2 = cps s /\ alert_direction s2 = alert_direction s /\ number_of_normal_scan s2 = 0 /\ alert_fired s2 = negb nm).
    { unfold s2. destruct nm; cbn [number_of_normal_scan]; [rewrite B3; cbn|cbn; rewrite B2]; rewrite B1, B4; auto. }
    destruct H2 as [C1 [C2 [C3 C4]]]. rewrite C1.
    destruct (rev (cps s)) as [|lst t] eqn:Er; [apply rev_nil in Er; congruence|].
    pose proof (rev_last (cps s) 0 lst t Er) as Hlast.
    destruct (Z.ltb_spec CHANGEPOINT_RETENTION (s_time sc - lst)) as [Hex|Hex].
    + exists (set_alert_off s2). split; [reflexivity|]. split.
      { split; [cbn; rewrite C1; exact Hlen|]. split; [cbn; discriminate|reflexivity]. }
      split; [congruence|]. intros _. cbn [set_alert_off cps alert_direction alert_fired].
      split; [exact C1|]. split; [exact C2|]. exists nm. split; [reflexivity|]. rewrite Hlast. tauto.
    + exists s2. split; [reflexivity|]. split.
      { split; [rewrite C1; exact Hlen|]. split; [intros _; rewrite C1, C2; auto|exact C3]. }
      split; [congruence|]. intros _. split; [exact C1|]. split; [exact C2|]. exists nm.
      split; [reflexivity|]. rewrite C4, Hlast. destruct nm; cbn [negb]; split; intros H; auto;
        destruct H; [discriminate|lia]. }
  - destruct (s_enough sc); cbn [negb].
    + destruct (s_found sc) as [|f fs].
      * exists s. split; [reflexivity|]. split; [split; [exact Hlen|split; [congruence|exact Hn]]|].
        split; [|congruence]. intros _. split; [intros [_ H]; congruence|auto].
      * destruct (push_cp_spec (cps s) (f_time (earliest f fs)) Hlen) as [P1 [P2 [P3 P4]]].
        eexists. split; [reflexivity|]. split.
        { split; [exact P2|]. split; [|exact Hn]. intros _. split; [exact P3|discriminate]. }
        split; [|congruence]. intros _. split; [|intros [|]; discriminate].
        intros _. destruct (earliest_spec f fs) as [E1 E2]. exists (earliest f fs).
        cbn [set_alert_on alert_fired cps alert_direction pre_mean pre_std]. repeat split; auto.
    + exists s. split; [reflexivity|]. split; [split; [exact Hlen|split; [congruence|exact Hn]]|].
      split; [|congruence]. intros _. split; [intros [? _]; discriminate|auto].
Qed.

Lemma init_inv : inv init.
Proof. split; [simpl; lia|]. split; [discriminate|reflexivity]. Qed.

Lemma run_inv dirs ratio adapted l : forall s, inv s -> exists s', run dirs ratio adapted s l = Some s' /\ inv s'.
Proof.
  induction l as [|sc t IH]; intros s Hs; [exists s; auto|]. cbn [run].
  destruct (fit_step dirs ratio adapted s sc Hs) as [s1 [-> [Hs1 _]]]. apply IH; auto.
Qed.

(** Every reachable state. *)
Lemma run_from_init dirs ratio adapted l :
  exists s, run dirs ratio adapted init l = Some s /\
    (length (cps s) <= 10)%nat /\ (alert_fired s = true -> cps s <> [] /\ alert_direction s <> None) /\
    number_of_normal_scan s = 0.
Proof. destruct (run_inv dirs ratio adapted l init init_inv) as [s [H1 H2]]. exists s. auto. Qed.

Lemma run_app dirs ratio adapted l1 l2 s :
  run dirs ratio adapted s (l1 ++ l2)
  = match run dirs ratio adapted s l1 with None => None | Some s' => run dirs ratio adapted s' l2 end.
Proof.
  revert s; induction l1 as [|sc t IH]; intros s; [reflexivity|]. cbn [app run].
  destruct (fit dirs ratio adapted s sc); auto.
Qed.

(** All stored change points were found by some scan. *)
Lemma cps_from_scans dirs ratio adapted l : forall s s', inv s -> run dirs ratio adapted s l = Some s' ->
  forall t, In t (cps s') -> In t (cps s) \/ exists sc f, In sc l /\ In f (s_found sc) /\ f_time f = t.
Proof.
  induction l as [|sc r IH]; intros s s' Hs H t Ht; [injection H as <-; auto|].
  cbn [run] in H. destruct (fit_step dirs ratio adapted s sc Hs) as [s1 [E [Hs1 [Hoff Hon]]]]. rewrite E in H.
  destruct (IH s1 s' Hs1 H t Ht) as [Hin|[sc' [f [H1 [H2 H3]]]]].
  2:{ right. exists sc', f. split; [right; auto|auto]. }
  destruct (alert_fired s) eqn:Ea.
  - destruct (Hon eq_refl) as [Hc _]. rewrite Hc in Hin. auto.
  - destruct (Hoff eq_refl) as [Hf Hnf]. destruct (s_enough sc) eqn:Ee.
    + destruct (s_found sc) as [|f fs] eqn:Ef; [rewrite Hnf in Hin by auto; auto|].
      destruct Hf as [g [G1 [_ [_ [G3 _]]]]]; [split; [auto|discriminate]|].
      rewrite G3 in Hin. unfold last_n in Hin.
      assert (Hin' : In t (cps s ++ [f_time g])).
      { rewrite <- (firstn_skipn (length (cps s ++ [f_time g]) - 10) (cps s ++ [f_time g])). apply in_or_app; auto. }
      apply in_app_or in Hin'. destruct Hin' as [|[<-|[]]]; [auto|].
      right. exists sc, g. split; [left; auto|]. rewrite Ef. auto.
    + rewrite Hnf in Hin by auto. auto.
Qed.

(** What "normal" means, for each combination of alert direction and watched directions. *)
Lemma normal_meaning s c m sd d ratio : alert_direction s = Some d -> pre_mean s = Some m -> pre_std s = Some sd ->
  if_normal s (Some c) None ratio = Some true <->
  match d with Increase => (m - ratio * sd <= c /\ c <= m)%Q | Decrease => (m <= c /\ c <= m + ratio * sd)%Q end.
Proof.
  intros Hd Hm Hs. unfold if_normal. rewrite Hd, Hm, Hs. destruct d; cbn.
  - split.
    + intros H. injection H as H. apply andb_true_iff in H. rewrite !Qle_bool_iff in H. lra.
    + intros H. f_equal. apply andb_true_iff. rewrite !Qle_bool_iff. lra.
  - split.
    + intros H. injection H as H. apply andb_true_iff in H. rewrite !Qle_bool_iff in H. lra.
    + intros H. f_equal. apply andb_true_iff. rewrite !Qle_bool_iff. lra.
Qed.

Lemma normal_one_sided s c m sd d ratio : alert_direction s = Some d -> pre_mean s = Some m -> pre_std s = Some sd ->
  ~ (sd == 0)%Q ->
  if_normal s (Some c) (Some [d]) ratio = Some true <->
  match d with Increase => (c <= m)%Q | Decrease => (m <= c)%Q end.
Proof.
  intros Hd Hm Hs Hz. unfold if_normal. rewrite Hd, Hm, Hs.
  assert (Eb : Qeq_bool sd 0 = false) by (destruct (Qeq_bool sd 0) eqn:E; [apply Qeq_bool_eq in E; contradiction|auto]).
  destruct d; cbn; rewrite Eb; cbn.
  - split.
    + intros H. injection H as H. rewrite Qle_bool_iff in H. lra.
    + intros H. f_equal. rewrite Qle_bool_iff. lra.
  - split.
    + intros H. injection H as H. rewrite andb_true_r, Qle_bool_iff in H. lra.
    + intros H. f_equal. rewrite andb_true_r, Qle_bool_iff. lra.
Qed.

Lemma normal_zero_std s c d ratio sd : alert_direction s = Some d -> pre_std s = Some sd -> (sd == 0)%Q ->
  if_normal s c (Some [d]) ratio = Some false.
Proof.
  intros Hd Hs Hz. unfold if_normal. rewrite Hd, Hs.
  apply Qeq_bool_iff in Hz. destruct (pre_mean s), c; auto.
  destruct d; cbn; rewrite Hz; cbn; [reflexivity|]. rewrite andb_false_r. reflexivity.
Qed.

(** * Block processing *)
Lemma blocks_concat {A} (l : list A) (s : nat) : forall d a,
  concat (map (fun k => firstn s (skipn (a + k * s) l)) (seq 0 d)) = firstn (d * s) (skipn a l).
Proof.
  induction d as [|d IH]; intros a; [reflexivity|].
  change (seq 0 (S d)) with (0 :: seq 1 d)%nat. rewrite <- seq_shift. cbn [map concat]. rewrite map_map.
  rewrite (map_ext _ (fun k => firstn s (skipn ((a + s) + k * s) l))) by (intros k; do 2 f_equal; lia).
  rewrite IH. rewrite Nat.add_0_r.
  rewrite <- (skipn_skipn_add s a l). cbn [Nat.mul].
  rewrite <- (firstn_skipn s (firstn (s + d * s) (skipn a l))). rewrite firstn_firstn, Nat.min_l by lia.
  f_equal. rewrite skipn_firstn_comm. f_equal. lia.
Qed.

Lemma py_range_exact L s d : 0 < s -> 0 <= d ->
  py_range L (L + d * s) s = map (fun k => L + Z.of_nat k * s) (seq 0 (Z.to_nat d)).
Proof.
  intros Hs Hd. unfold py_range. do 2 f_equal.
  replace (L + d * s - L + s - 1) with (d * s + (s - 1)) by lia.
  rewrite Z.div_add_l by lia. rewrite (Z.div_small (s - 1)) by lia. lia.
Qed.

Lemma block_columns {A} (org : list A) L s d : 0 < s -> s <= L -> 0 <= d ->
  Z.of_nat (length org) = L + d * s ->
  reorganize_big_data org L s
  = map (fun k => firstn (Z.to_nat L) (skipn (k * Z.to_nat s) org)) (seq 0 (S (Z.to_nat d))).
Proof.
  intros Hs HL Hd Hl. unfold reorganize_big_data. rewrite Hl, py_range_exact by lia.
  change (seq 0 (S (Z.to_nat d))) with (0 :: seq 1 (Z.to_nat d))%nat. rewrite <- seq_shift. cbn [map].
  f_equal.
  - rewrite slice_first by lia. reflexivity.
  - rewrite !map_map. apply map_ext_in. intros k Hk. apply in_seq in Hk.
    assert (Hkd : Z.of_nat k < d) by lia.
    rewrite py_slice_in; [|nia|nia|rewrite Hl; nia].
    f_equal; [f_equal; lia|]. f_equal. nia.
Qed.

Lemma block_roundtrip {A} (org : list A) L s d : 0 < s -> s <= L -> 0 <= d ->
  Z.of_nat (length org) = L + d * s ->
  length (reorganize_big_data org L s) = S (Z.to_nat d) /\
  (forall c, In c (reorganize_big_data org L s) -> Z.of_nat (length c) = L) /\
  reorganize_back (last_rows s (reorganize_big_data org L s)) = skipn (Z.to_nat (L - s)) org.
Proof.
  intros Hs HL Hd Hl. rewrite (block_columns org L s d) by auto.
  split; [rewrite map_length, seq_length; reflexivity|]. split.
  - intros c Hc. apply in_map_iff in Hc. destruct Hc as [k [<- Hk]]. apply in_seq in Hk.
    rewrite firstn_length, skipn_length. nia.
  - unfold reorganize_back, last_rows. rewrite map_map.
    rewrite (map_ext_in _ (fun k => firstn (Z.to_nat s) (skipn (Z.to_nat (L - s) + k * Z.to_nat s) org))).
    + rewrite blocks_concat. apply firstn_all2. rewrite skipn_length. nia.
    + intros k Hk. apply in_seq in Hk.
      assert (Hlen : Z.of_nat (length (firstn (Z.to_nat L) (skipn (k * Z.to_nat s) org))) = L).
      { rewrite firstn_length, skipn_length. nia. }
      unfold py_slice. rewrite Hlen. unfold norm_idx. destruct (Z.ltb_spec (- s) 0); [|lia].
      rewrite Z.max_r by lia. rewrite skipn_firstn_comm, firstn_firstn.
      rewrite (skipn_skipn_add (Z.to_nat (- s + L)) (k * Z.to_nat s) org).
      f_equal; [lia|]. f_equal. lia.
Qed.

Lemma ceil_div_spec a f : 0 < f -> let c := ceil_div a f in (c - 1) * f < a <= c * f.
Proof.
  intros Hf. unfold ceil_div. cbv zeta. pose proof (Z.div_mod (- a) f ltac:(lia)).
  pose proof (Z.mod_pos_bound (- a) f Hf). nia.
Qed.

Lemma step_points_positive hw sw f : 0 < f -> f <= sw -> 1 <= multi_ts_len hw sw f - n_hist_win_pts hw f.
Proof.
  intros Hf Hs. unfold multi_ts_len, n_hist_win_pts.
  pose proof (ceil_div_spec hw f Hf). pose proof (ceil_div_spec (hw + sw) f Hf). cbv zeta in *. nia.
Qed.

Lemma step_points_exact hw sw f : 0 < f -> (f | hw) -> (f | sw) ->
  multi_ts_len hw sw f - n_hist_win_pts hw f = sw / f.
Proof.
  intros Hf [a ->] [b ->]. unfold multi_ts_len, n_hist_win_pts, ceil_div.
  replace (- (a * f + b * f)) with (- (a + b) * f) by ring. replace (- (a * f)) with (- a * f) by ring.
  rewrite !Z.div_mul by lia. lia.
Qed.

(** * The step loop covers every row once *)
Definition cnt_lt (times : list Z) (t : Z) : Z := Z.of_nat (length (filter (fun x => x <? t) times)).

Lemma cnt_lt_nil_of_ge l t : Forall (fun x => t <= x) l -> filter (fun x => x <? t) l = [].
Proof.
  induction 1 as [|x l Hx H IH]; [reflexivity|]. cbn [filter]. destruct (Z.ltb_spec x t); [lia|exact IH].
Qed.

Lemma first_ge_spec times t : StronglySorted Z.lt times -> forall i,
  first_ge times t i = if Nat.eqb (length (filter (fun x => x <? t) times)) (length times) then None else Some (i + cnt_lt times t).
Proof.
  unfold cnt_lt. induction 1 as [|x l Hl IH Hx]; intros i; [reflexivity|]. cbn [first_ge filter].
  destruct (Z.leb_spec t x).
  - destruct (Z.ltb_spec x t); [lia|]. rewrite cnt_lt_nil_of_ge.
    + cbn [length Nat.eqb]. f_equal. simpl. lia.
    + eapply Forall_impl; [|exact Hx]. intros; simpl in *; lia.
  - destruct (Z.ltb_spec x t); [|lia]. cbn [length Nat.eqb]. rewrite IH.
    destruct (Nat.eqb _ _); [reflexivity|]. f_equal. lia.
Qed.

Lemma last_lt_spec times t : StronglySorted Z.lt times -> forall i acc,
  last_lt times t i acc = match filter (fun x => x <? t) times with [] => acc | _ => Some (i + cnt_lt times t - 1) end.
Proof.
  unfold cnt_lt. induction 1 as [|x l Hl IH Hx]; intros i acc; [reflexivity|]. cbn [last_lt filter].
  rewrite IH. destruct (Z.ltb_spec x t).
  - destruct (filter (fun x0 => x0 <? t) l) as [|y r] eqn:E.
    + simpl. f_equal. lia.
    + cbn [length]. f_equal. lia.
  - rewrite cnt_lt_nil_of_ge; [reflexivity|]. eapply Forall_impl; [|exact Hx]. intros; simpl in *; lia.
Qed.

Lemma cnt_lt_le times t : 0 <= cnt_lt times t <= Z.of_nat (length times).
Proof.
  unfold cnt_lt. induction times as [|x l IH]; [simpl; lia|]. cbn [filter length]. destruct (x <? t); cbn [length]; lia.
Qed.

Lemma cnt_lt_mono times a b : a <= b -> cnt_lt times a <= cnt_lt times b.
Proof.
  intros Hab. unfold cnt_lt. induction times as [|x l IH]; [simpl; lia|]. cbn [filter].
  destruct (Z.ltb_spec x a), (Z.ltb_spec x b); cbn [length]; lia.
Qed.

Lemma cnt_lt_succ times x : In x times -> cnt_lt times x + 1 <= cnt_lt times (x + 1).
Proof.
  induction times as [|y l IH]; intros Hin; [destruct Hin|].
  pose proof (cnt_lt_mono l x (x + 1) ltac:(lia)) as Hm. unfold cnt_lt in *. cbn [filter].
  destruct Hin as [->|Hin].
  - rewrite Z.ltb_irrefl. destruct (Z.ltb_spec x (x + 1)); [|lia]. cbn [length]. lia.
  - specialize (IH Hin). destruct (Z.ltb_spec y x), (Z.ltb_spec y (x + 1)); cbn [length]; lia.
Qed.

(** Number of entries below the k-th entry is k. *)
Lemma cnt_lt_nth times : StronglySorted Z.lt times -> forall k, (k < length times)%nat ->
  cnt_lt times (nth k times 0) = Z.of_nat k.
Proof.
  unfold cnt_lt. induction 1 as [|x l Hl IH Hx]; intros k Hk; [simpl in Hk; lia|].
  rewrite Forall_forall in Hx. destruct k as [|k].
  - cbn [nth filter]. rewrite Z.ltb_irrefl. rewrite cnt_lt_nil_of_ge; [reflexivity|].
    apply Forall_forall. intros y Hy. specialize (Hx y Hy). lia.
  - cbn [nth filter]. simpl in Hk. destruct (Z.ltb_spec x (nth k l 0)).
    + cbn [length]. rewrite Nat2Z.inj_succ, IH by lia. lia.
    + assert (In (nth k l 0) l) by (apply nth_In; lia). specialize (Hx _ H0). lia.
Qed.

Lemma cnt_lt_pos times t : StronglySorted Z.lt times -> times <> [] -> nth 0 times 0 < t -> 1 <= cnt_lt times t.
Proof.
  intros Hs Hne Ht. unfold cnt_lt. destruct times as [|x l]; [congruence|]. cbn [nth] in Ht. cbn [filter].
  destruct (Z.ltb_spec x t); [cbn [length]; lia|lia].
Qed.

Lemma time2idx_right_spec times t : StronglySorted Z.lt times ->
  cnt_lt times t < Z.of_nat (length times) -> time2idx_right times t = Some (cnt_lt times t).
Proof.
  intros Hs H. unfold time2idx_right. rewrite (first_ge_spec times t Hs 0). unfold cnt_lt in *.
  destruct (Nat.eqb_spec (length (filter (fun x => x <? t) times)) (length times)); [lia|]. f_equal.
Qed.
Lemma time2idx_left_spec times t : StronglySorted Z.lt times ->
  1 <= cnt_lt times t -> time2idx_left times t = Some (cnt_lt times t - 1).
Proof.
  intros Hs H. unfold time2idx_left. rewrite (last_lt_spec times t Hs 0 None). unfold cnt_lt in *.
  destruct (filter (fun x => x <? t) times); [simpl in H; lia|]. f_equal.
Qed.
Lemma time2idx_left_none times t : StronglySorted Z.lt times ->
  cnt_lt times t = 0 -> time2idx_left times t = None.
Proof.
  intros Hs H. unfold time2idx_left. rewrite (last_lt_spec times t Hs 0 None). unfold cnt_lt in *.
  destruct (filter (fun x => x <? t) times); [reflexivity|]. simpl in H. lia.
Qed.

Lemma tiles_app lo mid hi a b : tiles lo mid a -> tiles mid hi b -> tiles lo hi (a ++ b).
Proof.
  revert lo. induction a as [|[s e] a IH]; intros lo; cbn [app tiles]; [intros ->; auto|].
  intros [-> [H1 H2]] Hb. split; [reflexivity|]. split; [exact H1|]. apply IH; auto.
Qed.

Lemma tiles_range_len lo hi rs : tiles lo hi rs -> range_len rs = hi - lo.
Proof.
  revert lo. induction rs as [|[s e] t IH]; intros lo; cbn [tiles]; [intros ->; simpl; lia|].
  intros [-> [H1 H2]]. unfold range_len in *. cbn [fold_right fst snd]. rewrite (IH e H2). lia.
Qed.

(** Consecutive starts a, a+step, ...: the ranges tile the rows from a to a + k*step. *)
Lemma step_ranges_tile times hw step : StronglySorted Z.lt times -> times <> [] -> 0 < step -> 0 <= hw ->
  forall k a, nth 0 times 0 <= a ->
  (forall i, (i < k)%nat -> cnt_lt times (a + Z.of_nat i * step) < Z.of_nat (length times)) ->
  exists rs, step_ranges times hw step (map (fun i => a + Z.of_nat i * step) (seq 0 k)) = Some rs /\
    tiles (cnt_lt times a) (cnt_lt times (a + Z.of_nat k * step)) rs.
Proof.
  intros Hs Hne Hst Hhw. induction k as [|k IH]; intros a Ha Hin.
  - exists []. split; [reflexivity|]. cbn [tiles]. f_equal. lia.
  - change (seq 0 (S k)) with (0 :: seq 1 k)%nat. rewrite <- seq_shift. cbn [map]. rewrite map_map.
    rewrite (map_ext _ (fun i => (a + step) + Z.of_nat i * step)) by (intros i; lia).
    destruct (IH (a + step) ltac:(lia)) as [rs [E T]].
    { intros i Hi. replace (a + step + Z.of_nat i * step) with (a + Z.of_nat (S i) * step) by lia. apply Hin. lia. }
    cbn [step_ranges]. replace (a + Z.of_nat 0 * step) with a by lia.
    assert (H0 : cnt_lt times a < Z.of_nat (length times)).
    { replace a with (a + Z.of_nat 0 * step) by lia. apply Hin. lia. }
    rewrite (time2idx_right_spec times (a - hw) Hs).
    2:{ pose proof (cnt_lt_mono times (a - hw) a ltac:(lia)). lia. }
    rewrite (time2idx_right_spec times a Hs H0).
    rewrite (time2idx_left_spec times (a + step) Hs (cnt_lt_pos times (a + step) Hs Hne ltac:(lia))).
    rewrite E. eexists. split; [reflexivity|].
    replace (a + Z.of_nat (S k) * step) with (a + step + Z.of_nat k * step) by lia.
    pose proof (cnt_lt_mono times a (a + step) ltac:(lia)).
    replace (cnt_lt times (a + step) - 1 + 1) with (cnt_lt times (a + step)) by lia.
    destruct (Z.leb_spec (cnt_lt times (a + step)) (cnt_lt times a)).
    + replace (cnt_lt times a) with (cnt_lt times (a + step)) by lia. exact T.
    + cbn [tiles]. split; [reflexivity|]. split; [lia|exact T].
Qed.

Lemma sorted_skipn times k : StronglySorted Z.lt times -> StronglySorted Z.lt (skipn k times).
Proof.
  intros H. revert k. induction H as [|x l Hl IH Hx]; intros [|k]; simpl; try constructor; auto.
Qed.

Lemma nth_skipn {A} (l : list A) k i d : nth i (skipn k l) d = nth (k + i) l d.
Proof. revert l; induction k as [|k IH]; intros [|x l]; simpl; auto. destruct i; auto. Qed.

Lemma sorted_nth_le times i j : StronglySorted Z.lt times -> (i <= j)%nat -> (j < length times)%nat ->
  nth i times 0 <= nth j times 0.
Proof.
  intros H. revert i j. induction H as [|x l Hl IH Hx]; intros i j Hij Hj; [simpl in Hj; lia|].
  rewrite Forall_forall in Hx. destruct i as [|i], j as [|j]; cbn [nth]; try lia.
  - assert (Hi : In (nth j l 0) l) by (apply nth_In; simpl in Hj; lia). specialize (Hx _ Hi). lia.
  - apply IH; simpl in Hj; lia.
Qed.

Lemma cnt_all_lt times t : StronglySorted Z.lt times -> times <> [] -> t <= nth (length times - 1) times 0 ->
  cnt_lt times t < Z.of_nat (length times).
Proof.
  intros Hs Hne Ht. assert (Hl : (0 < length times)%nat) by (destruct times; [congruence|simpl; lia]).
  pose proof (cnt_lt_mono times t _ Ht). rewrite cnt_lt_nth in H by (auto; lia). lia.
Qed.

Lemma date_range_in start stop step i : 0 < step -> start <= stop ->
  (i < Z.to_nat ((stop - start) / step + 1))%nat -> start + Z.of_nat i * step <= stop.
Proof.
  intros Hs Hle Hi. pose proof (Z.div_pos (stop - start) step ltac:(lia) Hs).
  assert (Z.of_nat i <= (stop - start) / step) by lia.
  pose proof (Z.mul_div_le (stop - start) step Hs). nia.
Qed.

Section Scored.
  Variables (times : list Z) (org hw scan_w step freq : Z).
  Hypothesis Hs : StronglySorted Z.lt times.
  Hypothesis Horg : 0 <= org < Z.of_nat (length times).
  Hypothesis Hstep : 0 < step.
  Hypothesis Hhw : 0 <= hw.
  Let n := Z.of_nat (length times).
  Let tlast := nth (length times - 1) times 0.
  Let dts := skipn (Z.to_nat org) times.
  Let start0 := Z.max (nth 0 times 0 + hw) (nth (Z.to_nat org) times 0).

  Lemma scored_rows_cases :
    (* early return *)
    ((tlast < start0 \/ tlast - nth 0 times 0 + freq < scan_w) /\
     scored_rows times org hw scan_w step freq = Some (0, [(org, n)])) \/
    (* loop *)
    (start0 <= tlast /\ scan_w <= tlast - nth 0 times 0 + freq /\
     exists a s1, 0 <= a /\ org + a < n /\ s1 = nth (Z.to_nat (org + a)) times 0 /\ start0 <= s1 /\
      (forall j, 0 <= j < a -> nth (Z.to_nat (org + j)) times 0 < start0) /\
      ((scored_rows times org hw scan_w step freq = None /\
        tlast + freq - step < s1 /\ s1 = nth 0 times 0 + hw) \/
       (exists rs, scored_rows times org hw scan_w step freq = Some (a, rs) /\ tiles (org + a) n rs /\
          ~ (Z.min (tlast + freq - step) tlast < s1 /\ s1 = nth 0 times 0 + hw)))).
  Proof.
    assert (Hne : times <> []) by (intros ->; simpl in Horg; lia).
    unfold scored_rows. fold n.
    replace (Z.to_nat (n - 1)) with (length times - 1)%nat by lia. fold tlast. fold dts. fold start0.
    destruct (Z.ltb_spec tlast start0) as [Hlt|Hge]; [left; split; [auto|reflexivity]|].
    assert (Hds : StronglySorted Z.lt dts) by (apply sorted_skipn; auto).
    assert (Hdl : Z.of_nat (length dts) = n - org) by (unfold dts; rewrite skipn_length; lia).
    assert (Hdne : dts <> []) by (intros E; rewrite E in Hdl; simpl in Hdl; lia).
    assert (Hdlast : nth (length dts - 1) dts 0 = tlast).
    { unfold dts at 2. rewrite nth_skipn. unfold tlast. f_equal. lia. }
    assert (Hca : cnt_lt dts start0 < Z.of_nat (length dts)) by (apply cnt_all_lt; auto; rewrite Hdlast; auto).
    rewrite (time2idx_right_spec dts start0 Hds Hca).
    set (a := cnt_lt dts start0) in *. pose proof (cnt_lt_le dts start0) as Ha0. fold a in Ha0.
    destruct (Z.ltb_spec (tlast - nth 0 times 0 + freq) scan_w) as [Hsw|Hsw]; [left; split; [auto|reflexivity]|].
    right. split; [exact Hge|]. split; [exact Hsw|].
    set (s1 := nth (Z.to_nat a) dts 0).
    assert (Es1 : s1 = nth (Z.to_nat (org + a)) times 0) by (unfold s1, dts; rewrite nth_skipn; f_equal; lia).
    (* s1 is the first data time at or after start0 *)
    assert (Hbelow : forall j, 0 <= j < a -> nth (Z.to_nat (org + j)) times 0 < start0).
    { intros j Hj. replace (nth (Z.to_nat (org + j)) times 0) with (nth (Z.to_nat j) dts 0) by (unfold dts; rewrite nth_skipn; f_equal; lia).
      destruct (Z.lt_ge_cases (nth (Z.to_nat j) dts 0) start0) as [|Hc]; [assumption|exfalso].
      pose proof (cnt_lt_mono dts _ _ Hc) as Hm. rewrite cnt_lt_nth in Hm by (auto; lia). fold a in Hm. lia. }
    assert (Hs1 : start0 <= s1).
    { destruct (Z.lt_ge_cases s1 start0) as [Hc|]; [exfalso|lia].
      assert (Hm : cnt_lt dts (s1 + 1) <= a) by (apply cnt_lt_mono; lia).
      assert (Hp : cnt_lt dts (s1 + 1) = a + 1); [|lia].
      clear - Hds Hca Ha0. unfold s1. assert (Hk : (Z.to_nat a < length dts)%nat) by lia.
      replace a with (Z.of_nat (Z.to_nat a)) at 2 by lia. revert Hk. generalize (Z.to_nat a). clear - Hds.
      unfold cnt_lt. induction Hds as [|x l Hl IH Hx]; intros k Hk; [simpl in Hk; lia|].
      rewrite Forall_forall in Hx. destruct k as [|k].
      - cbn [nth filter]. destruct (Z.ltb_spec x (x + 1)); [|lia]. rewrite cnt_lt_nil_of_ge; [reflexivity|].
        apply Forall_forall. intros y Hy. specialize (Hx y Hy). lia.
      - cbn [nth filter]. simpl in Hk. assert (Hi : In (nth k l 0) l) by (apply nth_In; lia). specialize (Hx _ Hi).
        destruct (Z.ltb_spec x (nth k l 0 + 1)); [|lia]. cbn [length]. rewrite Nat2Z.inj_succ, IH by lia. lia. }
    assert (Hs1n : org + a < n) by lia.
    assert (Hcs1 : cnt_lt times s1 = org + a).
    { rewrite Es1, cnt_lt_nth by (auto; lia). lia. }
    assert (Hs1last : s1 <= tlast).
    { rewrite Es1. unfold tlast. apply sorted_nth_le; auto; lia. }
    exists a, s1. split; [lia|]. split; [exact Hs1n|]. split; [exact Es1|]. split; [exact Hs1|]. split; [exact Hbelow|].
    set (stop := Z.min (tlast + freq - step) tlast).
    (* the loop *)
    assert (HL : exists rs e, step_ranges times hw step (date_range s1 stop step) = Some rs /\
        tiles (org + a) e rs /\ org + a <= e <= n /\ (stop < s1 -> e = org + a) /\ (s1 <= stop -> org + a < e)).
    { unfold date_range. destruct (Z.ltb_spec stop s1) as [Hst|Hst].
      - exists [], (org + a). split; [reflexivity|]. split; [reflexivity|]. lia.
      - set (k := Z.to_nat ((stop - s1) / step + 1)).
        destruct (step_ranges_tile times hw step Hs Hne Hstep Hhw k s1) as [rs [E T]].
        + unfold start0 in Hs1. lia.
        + intros i Hi. apply cnt_all_lt; auto.
          pose proof (date_range_in s1 stop step i Hstep Hst Hi). fold tlast. lia.
        + exists rs, (cnt_lt times (s1 + Z.of_nat k * step)). split; [exact E|]. rewrite Hcs1 in T. split; [exact T|].
          pose proof (cnt_lt_le times (s1 + Z.of_nat k * step)).
          pose proof (cnt_lt_mono times (s1 + 1) (s1 + Z.of_nat k * step)) as Hm2.
          assert (Hk1 : (1 <= k)%nat). { unfold k. pose proof (Z.div_pos (stop - s1) step ltac:(lia) Hstep). lia. }
          specialize (Hm2 ltac:(nia)).
          assert (Hgt : org + a + 1 <= cnt_lt times (s1 + 1)).
          { rewrite <- Hcs1. apply cnt_lt_succ. rewrite Es1. apply nth_In. lia. }
          split; [unfold n; lia|]. lia. }
    destruct HL as [rs [e [E [T [He [Hemp Hnemp]]]]]]. rewrite E.
    rewrite (tiles_range_len _ _ _ T).
    replace (n - org - (a + (e - (org + a)))) with (n - e) by lia.
    destruct (Z.ltb_spec 0 (n - e)) as [Hrem|Hrem].
    - replace (n - (n - e)) with e by lia.
      destruct (Z.lt_ge_cases (nth 0 times 0 + hw) (nth (Z.to_nat e) times 0)) as [Hok|Hbad].
      + rewrite (time2idx_left_spec times (nth (Z.to_nat e) times 0 - hw) Hs (cnt_lt_pos times (nth (Z.to_nat e) times 0 - hw) Hs Hne ltac:(lia))).
        right. eexists. split; [reflexivity|]. split.
        * eapply tiles_app; [exact T|]. cbn [tiles]. split; [reflexivity|]. split; [lia|reflexivity].
        * intros [H1 H2]. rewrite (Hemp H1), <- Es1 in Hok. lia.
      + left.
        assert (Hee : e = org + a).
        { destruct (Z.lt_ge_cases stop s1) as [Hc|Hc]; [auto|]. exfalso. specialize (Hnemp Hc).
          assert (nth (Z.to_nat (org + a)) times 0 < nth (Z.to_nat e) times 0); [|unfold start0 in Hs1; lia].
          pose proof (cnt_lt_nth times Hs (Z.to_nat (org + a)) ltac:(lia)).
          pose proof (cnt_lt_nth times Hs (Z.to_nat e) ltac:(lia)).
          destruct (Z.lt_ge_cases (nth (Z.to_nat (org + a)) times 0) (nth (Z.to_nat e) times 0)) as [|Hc2]; [assumption|].
          pose proof (cnt_lt_mono times _ _ Hc2). lia. }
        rewrite Hee, <- Es1 in Hbad |- *.
        assert (Hz : s1 = nth 0 times 0 + hw) by (unfold start0 in Hs1; lia).
        rewrite time2idx_left_none; [|auto|].
        * split; [reflexivity|]. split; [|exact Hz].
          destruct (Z.lt_ge_cases stop s1) as [Hc|Hc]; [unfold stop in Hc; lia|]. specialize (Hnemp Hc). lia.
        * rewrite Hz. replace (nth 0 times 0 + hw - hw) with (nth 0 times 0) by lia.
          rewrite cnt_lt_nth by (auto; lia). reflexivity.
    - right. exists rs. split; [reflexivity|]. split; [replace n with e by lia; exact T|].
      intros [H1 H2]. specialize (Hemp H1). lia.
  Qed.
End Scored.

(** The vectorised path of fit_predict. *)
Lemma vectorised_covers {A} (vals : list A) p n_hist n_step :
  0 <= n_hist <= p -> 0 < n_step -> p + 2 * n_step <= Z.of_nat (length vals) ->
  let '(scored, rest) := vectorised_rows vals p n_hist n_step in
  scored ++ rest = skipn (Z.to_nat p) vals /\ Z.of_nat (length rest) < n_step /\
  Z.of_nat (length scored) = vec_dim vals p n_step * n_step.
Proof.
  intros Hp Hs Hl. unfold vectorised_rows. set (D := vec_dim vals p n_step).
  pose proof (Z.div_mod (Z.of_nat (length vals) - p) n_step ltac:(lia)) as Hdm.
  pose proof (Z.mod_pos_bound (Z.of_nat (length vals) - p) n_step Hs) as Hmod.
  fold (vec_dim vals p n_step) in Hdm. fold D in Hdm.
  assert (HD : 1 <= D) by nia. rewrite Z.max_l by lia.
  assert (Hbl : Z.of_nat (length (py_slice vals (Some (p - n_hist)) (Some (p + D * n_step)))) = n_hist + n_step + (D - 1) * n_step)
    by (rewrite py_slice_length; nia).
  destruct (block_roundtrip _ (n_hist + n_step) n_step (D - 1) Hs ltac:(lia) ltac:(lia) Hbl) as [_ [_ E]].
  rewrite E. replace (n_hist + n_step - n_step) with n_hist by lia.
  rewrite py_slice_in by nia. rewrite skipn_firstn_comm, (skipn_skipn_add (Z.to_nat n_hist) (Z.to_nat (p - n_hist)) vals).
  replace (Z.to_nat (p - n_hist) + Z.to_nat n_hist)%nat with (Z.to_nat p) by lia.
  replace (Z.to_nat (p + D * n_step - (p - n_hist)) - Z.to_nat n_hist)%nat with (Z.to_nat (D * n_step)) by nia.
  assert (Hsl : Z.of_nat (length (firstn (Z.to_nat (D * n_step)) (skipn (Z.to_nat p) vals))) = D * n_step)
    by (rewrite firstn_length, skipn_length; nia).
  rewrite Hsl. rewrite slice_last by nia. split; [|split; [|reflexivity]].
  - replace (Z.to_nat (p + D * n_step)) with (Z.to_nat p + Z.to_nat (D * n_step))%nat by nia.
    rewrite <- skipn_skipn_add. apply firstn_skipn.
  - rewrite skipn_length. nia.
Qed.

(** Reachable states and one more scan. *)
Lemma reachable_step dirs ratio adapted l sc :
  exists s s', run dirs ratio adapted init l = Some s /\ run dirs ratio adapted init (l ++ [sc]) = Some s' /\
  (alert_fired s = false ->
     (s_enough sc = true /\ s_found sc <> [] ->
        exists f, In f (s_found sc) /\ (forall g, In g (s_found sc) -> f_time f <= f_time g) /\
          alert_fired s' = true /\ cps s' = last_n 10 (cps s ++ [f_time f]) /\
          alert_direction s' = Some (f_dir f) /\ pre_mean s' = f_mean f /\ pre_std s' = f_std f) /\
     (s_enough sc = false \/ s_found sc = [] -> s' = s)) /\
  (alert_fired s = true ->
     cps s' = cps s /\ alert_direction s' = alert_direction s /\
     exists normal, if_normal (baseline adapted s sc) (s_cur_mean sc) dirs ratio = Some normal /\
       (alert_fired s' = false <-> normal = true \/ CHANGEPOINT_RETENTION < s_time sc - last (cps s) 0)).
Proof.
  destruct (run_inv dirs ratio adapted l init init_inv) as [s [E Hs]].
  destruct (fit_step dirs ratio adapted s sc Hs) as [s' [E' [_ [H1 H2]]]].
  exists s, s'. split; [exact E|]. split; [|auto].
  rewrite run_app, E. cbn [run]. rewrite E'. reflexivity.
Qed.

(** Back to the baseline mean. *)
Lemma normal_at_baseline s c d ratio m sd dirs : alert_direction s = Some d -> pre_mean s = Some m -> pre_std s = Some sd ->
  (c == m)%Q -> (0 <= ratio)%Q -> (0 <= sd)%Q -> (dirs = None \/ (dirs = Some [d] /\ ~ (sd == 0)%Q)) ->
  if_normal s (Some c) dirs ratio = Some true.
Proof.
  intros Hd Hm Hs Hc Hr Hsd [->|[-> Hz]].
  - apply (normal_meaning s c m sd d ratio Hd Hm Hs). destruct d; nra.
  - apply (normal_one_sided s c m sd d ratio Hd Hm Hs Hz). destruct d; lra.
Qed.
