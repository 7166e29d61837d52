From Verif Require Import Common PySlice BacktestModel BacktestSpec.
Open Scope Z_scope.

Lemma absolute_size_spec n p : is_percent_of n p (absolute_size n p).
Proof.
  unfold is_percent_of, absolute_size. set (x := (inject_Z n * p / 100)%Q).
  assert (Hx : (x * 100 == inject_Z n * p)%Q) by (unfold x; field).
  pose proof (Qfloor_le x). pose proof (Qlt_floor x). split; rewrite <- Hx; lra.
Qed.

Lemma percent_unique n p s s' : is_percent_of n p s -> is_percent_of n p s' -> s = s'.
Proof.
  intros [A B] [C D].
  assert (inject_Z s < inject_Z (s' + 1))%Q by lra. assert (inject_Z s' < inject_Z (s + 1))%Q by lra.
  rewrite <- Zlt_Qlt in *. lia.
Qed.

(** * offsets *)
Definition size_of (n k : Z) (i : nat) : Z := if Z.of_nat i <? n mod k then n / k + 1 else n / k.
Fixpoint psum (n k : Z) (m : nat) : Z := match m with O => 0 | S m' => psum n k m' + size_of n k m' end.

Lemma psum_eq n k m : 0 < k -> psum n k m = Z.of_nat m * (n / k) + Z.min (Z.of_nat m) (n mod k).
Proof.
  intros Hk. pose proof (Z.mod_pos_bound n k Hk). induction m as [|m IH]; [simpl; lia|].
  cbn [psum]. rewrite IH. unfold size_of. destruct (Z.ltb_spec (Z.of_nat m) (n mod k)); lia.
Qed.

Lemma running_totals_length acc l : length (running_totals acc l) = length l.
Proof. revert acc; induction l as [|x l IH]; intros acc; simpl; auto. Qed.

Lemma running_nth n k m acc j i : (i < m)%nat ->
  nth i (running_totals (acc + psum n k j) (map (size_of n k) (seq j m))) 0 = acc + psum n k (S (j + i)).
Proof.
  revert acc j i; induction m as [|m IH]; intros acc j i Hi; [lia|]. cbn [seq map running_totals].
  destruct i as [|i].
  - cbn [nth]. rewrite Nat.add_0_r. cbn [psum]. lia.
  - cbn [nth]. replace (size_of n k j + (acc + psum n k j)) with (acc + psum n k (S j)) by (cbn [psum]; lia).
    rewrite IH by lia. f_equal. f_equal. lia.
Qed.

Lemma fold_offsets_nth L k l i : 0 <= L -> fold_offsets 0 L k = Some l -> (i < length l)%nat ->
  nth i l 0 = psum L (k - 1) i /\ Z.of_nat (length l) = k.
Proof.
  intros HL H Hi. unfold fold_offsets, array_split_sizes in H. rewrite Z.sub_0_r, Z.max_r in H by lia.
  destruct (Z.leb_spec (k - 1) 0); [discriminate|]. injection H as <-.
  cbn [length] in *. rewrite running_totals_length, map_length, seq_length in *. split; [|lia].
  destruct i as [|i]; [reflexivity|]. cbn [nth].
  pose proof (running_nth L (k - 1) (Z.to_nat (k - 1)) 0 0 i ltac:(lia)) as HR.
  cbn [psum] in HR. rewrite Z.add_0_l, Nat.add_0_l in HR. exact HR.
Qed.

Lemma last_nth (l : list Z) d : last l d = nth (length l - 1) l d.
Proof.
  induction l as [|a l IH]; [reflexivity|]. destruct l as [|b l]; [reflexivity|].
  change (last (a :: b :: l) d) with (last (b :: l) d). rewrite IH. simpl.
  rewrite Nat.sub_0_r. reflexivity.
Qed.

Lemma fold_offsets_spread L k l : 0 <= L -> fold_offsets 0 L k = Some l ->
  Z.of_nat (length l) = k /\ evenly_spread L l.
Proof.
  intros HL H.
  assert (Hk : 0 < k - 1 /\ (0 < length l)%nat).
  { unfold fold_offsets, array_split_sizes in H. destruct (Z.leb_spec (k - 1) 0); [discriminate|].
    injection H as <-. simpl. lia. }
  destruct Hk as [Hk Hpos].
  assert (Hn : forall i, (i < length l)%nat -> nth i l 0 = psum L (k - 1) i).
  { intros i Hi. apply (fold_offsets_nth L k l i HL H Hi). }
  destruct (fold_offsets_nth L k l 0 HL H Hpos) as [_ Hlen].
  split; [exact Hlen|].
  pose proof (Z.mod_pos_bound L (k - 1) Hk) as Hm. pose proof (Z.div_mod L (k - 1) ltac:(lia)) as Hd.
  assert (Hq : 0 <= L / (k - 1)) by (apply Z.div_pos; lia).
  split; [|split; [|split]].
  - rewrite Hn by lia. reflexivity.
  - rewrite last_nth, Hn by lia. rewrite psum_eq by lia.
    replace (Z.of_nat (length l - 1)) with (k - 1) by lia. rewrite Z.min_r by lia. lia.
  - intros i Hi. rewrite !Hn by lia. cbn [psum]. unfold size_of. destruct (_ <? _); lia.
  - intros i j Hi Hj. rewrite !Hn by lia. cbn [psum]. unfold size_of.
    destruct (Z.of_nat i <? _), (Z.of_nat j <? _); lia.
Qed.

Lemma fold_offsets_none start stop k : fold_offsets start stop k = None <-> k <= 1.
Proof.
  unfold fold_offsets, array_split_sizes. destruct (Z.leb_spec (k - 1) 0); split; intros; try lia; auto; discriminate.
Qed.

Lemma spread_bounds L l i : evenly_spread L l -> (i < length l)%nat -> 0 <= nth i l 0 <= L.
Proof.
  intros [H0 [HL [Hmono _]]] Hi.
  assert (Hle : forall i j, (i <= j)%nat -> (j < length l)%nat -> nth i l 0 <= nth j l 0).
  { intros a b Hab. induction Hab as [|b Hab IH]; intros Hb; [lia|].
    specialize (IH ltac:(lia)). specialize (Hmono b Hb). lia. }
  split.
  - rewrite <- H0 at 1. apply Hle; lia.
  - rewrite <- HL, last_nth. apply Hle; lia.
Qed.

(** * linspace *)
Lemma linspace_nth L k l i : 2 <= k -> linspace_int L k = Some l -> (i < length l)%nat ->
  Z.of_nat (length l) = k /\ nth i l 0 = Z.of_nat i * L / (k - 1).
Proof.
  intros Hk H Hi. unfold linspace_int in H. destruct (Z.ltb_spec k 0); [lia|].
  destruct (Z.eqb_spec k 1); [lia|]. injection H as <-. rewrite map_length, seq_length in *. split; [lia|].
  set (f := fun i => Qfloor (inject_Z (Z.of_nat i * L) / inject_Z (k - 1))).
  rewrite nth_indep with (d' := f O) by (rewrite map_length, seq_length; lia).
  rewrite (map_nth f), seq_nth by lia. simpl. unfold f.
  unfold Qdiv, Qmult, Qinv, inject_Z, Qfloor. simpl.
  destruct (k - 1) as [|p|p] eqn:E; try lia. simpl. rewrite Z.mul_1_r. reflexivity.
Qed.

Lemma div_gap a b k : 0 < k -> a / k + b / k <= (a + b) / k <= a / k + b / k + 1.
Proof.
  intros Hk. pose proof (Z.div_mod a k ltac:(lia)). pose proof (Z.div_mod b k ltac:(lia)).
  pose proof (Z.mod_pos_bound a k Hk). pose proof (Z.mod_pos_bound b k Hk).
  split.
  - apply Z.div_le_lower_bound; [lia|]. lia.
  - apply Z.lt_succ_r. apply Z.div_lt_upper_bound; [lia|]. lia.
Qed.

Lemma linspace_spread L k l : 0 <= L -> 2 <= k -> linspace_int L k = Some l ->
  Z.of_nat (length l) = k /\ evenly_spread L l.
Proof.
  intros HL Hk H.
  assert (Hlen : (0 < length l)%nat).
  { unfold linspace_int in H. destruct (Z.ltb_spec k 0); [lia|]. destruct (Z.eqb_spec k 1); [lia|].
    injection H as <-. rewrite map_length, seq_length. lia. }
  destruct (linspace_nth L k l 0 Hk H Hlen) as [HK _]. split; [exact HK|].
  assert (Hn : forall i, (i < length l)%nat -> nth i l 0 = Z.of_nat i * L / (k - 1))
    by (intros i Hi; apply (linspace_nth L k l i Hk H Hi)).
  assert (Hg : forall i, (S i < length l)%nat ->
            L / (k - 1) <= nth (S i) l 0 - nth i l 0 <= L / (k - 1) + 1).
  { intros i Hi. rewrite !Hn by lia.
    replace (Z.of_nat (S i) * L) with (Z.of_nat i * L + L) by lia.
    pose proof (div_gap (Z.of_nat i * L) L (k - 1) ltac:(lia)). lia. }
  assert (0 <= L / (k - 1)) by (apply Z.div_pos; lia).
  split; [|split; [|split]].
  - rewrite Hn by lia. reflexivity.
  - rewrite last_nth, Hn by lia. replace (Z.of_nat (length l - 1)) with (k - 1) by lia.
    rewrite Z.mul_comm. apply Z.div_mul. lia.
  - intros i Hi. specialize (Hg i Hi). lia.
  - intros i j Hi Hj. pose proof (Hg i Hi). pose proof (Hg j Hj). lia.
Qed.

(** * folds *)
Lemma orb_false_elim_Z a b c d : (a <=? b) || (c <=? d) = false -> b < a /\ d < c.
Proof. rewrite orb_false_iff, !Z.leb_gt. tauto. Qed.

Lemma simple_folds size a b trs tes : simple_splits size a b = Some (trs, tes) ->
  exists train test,
    is_percent_of size a train /\ is_percent_of size b test /\
    trs = [(0, train)] /\ tes = [(train, train + test)] /\
    causal_fold size 0 test (0, train) (train, train + test).
Proof.
  unfold simple_splits. intros H. exists (absolute_size size a), (absolute_size size b).
  destruct ((_ <=? 0) || (size <=? _)) eqn:E1 in H; [discriminate|]. apply orb_false_elim_Z in E1.
  destruct ((_ <=? 0) || (size <=? _)) eqn:E2 in H; [discriminate|]. apply orb_false_elim_Z in E2.
  destruct (Z.ltb_spec size (absolute_size size a + absolute_size size b)); [discriminate|].
  injection H as <- <-. repeat split; try apply absolute_size_spec; simpl; lia.
Qed.

Lemma fixed_folds size a b w trs tes : 0 <= size -> fixed_window_ctor a b w = true ->
  fixed_window_splits size a b w = Some (trs, tes) ->
  exists train test gap,
    is_percent_of size a train /\ is_percent_of size b test /\ is_percent_of size w gap /\
    trs = [(0, train)] /\ tes = [(train + gap, train + gap + test)] /\
    causal_fold size gap test (0, train) (train + gap, train + gap + test).
Proof.
  unfold fixed_window_splits. intros Hs Hc H.
  exists (absolute_size size a), (absolute_size size b), (absolute_size size w).
  destruct ((_ <=? 0) || (size <=? _)) eqn:E1 in H; [discriminate|]. apply orb_false_elim_Z in E1.
  destruct ((_ <=? 0) || (size <=? _)) eqn:E2 in H; [discriminate|]. apply orb_false_elim_Z in E2.
  destruct (Z.ltb_spec size (absolute_size size a + absolute_size size b + absolute_size size w)); [discriminate|].
  injection H as <- <-.
  assert (Hw : 0 <= absolute_size size w).
  { unfold fixed_window_ctor in Hc. rewrite !andb_true_iff, !Qle_bool_iff in Hc.
    destruct (absolute_size_spec size w) as [_ Hlt].
    assert (0 <= inject_Z size)%Q by (change 0%Q with (inject_Z 0); rewrite <- Zle_Qle; lia).
    assert (Hp : (inject_Z 0 < inject_Z (absolute_size size w + 1))%Q) by (change (inject_Z 0) with 0%Q; nra).
    rewrite <- Zlt_Qlt in Hp. lia. }
  repeat split; try apply absolute_size_spec; simpl; lia.
Qed.

Lemma rolling_folds size a b steps const trs tes :
  rolling_splits size a b steps const = Some (trs, tes) ->
  exists train test,
    is_percent_of size a train /\ is_percent_of size b test /\
    length trs = Z.to_nat steps /\ length tes = Z.to_nat steps /\
    forall i, (i < Z.to_nat steps)%nat ->
      causal_fold size 0 test (nth i trs (0, 0)) (nth i tes (0, 0)) /\
      (if const then snd (nth i trs (0, 0)) - fst (nth i trs (0, 0)) = train
       else fst (nth i trs (0, 0)) = 0) /\
      (i = 0%nat -> snd (nth i trs (0, 0)) = train) /\
      (2 <= steps -> S i = Z.to_nat steps -> snd (nth i tes (0, 0)) = size).
Proof.
  unfold rolling_splits. intros H. exists (absolute_size size a), (absolute_size size b).
  set (train := absolute_size size a) in *. set (test := absolute_size size b) in *.
  destruct ((_ <=? 0) || (size <=? _)) eqn:E1 in H; [discriminate|]. apply orb_false_elim_Z in E1.
  destruct ((_ <=? 0) || (size <=? _)) eqn:E2 in H; [discriminate|]. apply orb_false_elim_Z in E2.
  destruct (Z.ltb_spec size (train + test)); [discriminate|].
  destruct ((train + test =? size) && (1 <? steps)); [discriminate|].
  split; [apply absolute_size_spec|]. split; [apply absolute_size_spec|].
  destruct (Z.eqb_spec steps 1) as [->|Hne].
  - injection H as <- <-. split; [reflexivity|]. split; [reflexivity|].
    intros i Hi. assert (i = 0%nat) by lia. subst i. unfold causal_fold. cbn [nth fst snd].
    split; [lia|]. split; [destruct const; lia|]. split; [auto|lia].
  - destruct (fold_offsets 0 (size - train - test) steps) as [offs|] eqn:Eo; [|discriminate].
    destruct (fold_offsets_spread (size - train - test) steps offs ltac:(lia) Eo) as [Hlen Hsp].
    injection H as <- <-. rewrite !map_length. split; [lia|]. split; [lia|].
    intros i Hi.
    set (f := fun o => ((if const then o else 0), train + o)).
    set (g := fun o => (train + o, train + o + test)).
    rewrite (nth_indep (map f offs) (0, 0) (f 0)) by (rewrite map_length; lia).
    rewrite (nth_indep (map g offs) (0, 0) (g 0)) by (rewrite map_length; lia).
    rewrite (map_nth f), (map_nth g).
    pose proof (spread_bounds _ _ i Hsp ltac:(lia)) as Hb.
    unfold f, g, causal_fold; cbn [fst snd]. destruct Hsp as [Hz0 [HL _]].
    split; [destruct const; lia|]. split; [destruct const; lia|]. split.
    + intros ->. rewrite Hz0. lia.
    + intros _ Hlast. assert (nth i offs 0 = size - train - test); [|lia].
      rewrite <- HL, last_nth. f_equal. lia.
Qed.

Lemma pct_pos p : pct_ok p = true -> (0 < p /\ p <= 100)%Q.
Proof.
  unfold pct_ok. rewrite andb_true_iff, negb_true_iff, Qle_bool_iff. intros [H1 H2]. split; [|exact H2].
  destruct (Qlt_le_dec 0 p) as [|Hle]; [assumption|]. apply Qle_bool_iff in Hle. congruence.
Qed.

Lemma percent_ge1 size p : (100 <= inject_Z size * p)%Q -> 1 <= absolute_size size p.
Proof.
  intros H. destruct (absolute_size_spec size p) as [_ H2].
  assert (inject_Z 1 < inject_Z (absolute_size size p + 1))%Q by (change (inject_Z 1) with 1%Q; lra).
  rewrite <- Zlt_Qlt in H0. lia.
Qed.

Lemma percent_sum size a b : 0 <= size -> (a + b <= 100)%Q ->
  absolute_size size a + absolute_size size b <= size.
Proof.
  intros Hs H. destruct (absolute_size_spec size a) as [A _], (absolute_size_spec size b) as [B _].
  assert (0 <= inject_Z size)%Q by (change 0%Q with (inject_Z 0); rewrite <- Zle_Qle; lia).
  assert (inject_Z (absolute_size size a + absolute_size size b) <= inject_Z size)%Q.
  { rewrite inject_Z_plus. nra. }
  rewrite <- Zle_Qle in H1. lia.
Qed.

Lemma percent_sum_strict size a b : 0 < size -> (a + b < 100)%Q ->
  absolute_size size a + absolute_size size b < size.
Proof.
  intros Hs H. destruct (absolute_size_spec size a) as [A _], (absolute_size_spec size b) as [B _].
  assert (0 < inject_Z size)%Q by (change 0%Q with (inject_Z 0); rewrite <- Zlt_Qlt; lia).
  assert (inject_Z (absolute_size size a + absolute_size size b) < inject_Z size)%Q.
  { rewrite inject_Z_plus. nra. }
  rewrite <- Zlt_Qlt in H1. lia.
Qed.

Lemma simple_succeeds size a b : 0 <= size ->
  simple_ctor a b = true -> (a + b <= 100)%Q ->
  (100 <= inject_Z size * a)%Q -> (100 <= inject_Z size * b)%Q ->
  exists sp, simple_splits size a b = Some sp.
Proof.
  intros Hs Hc Hab Ha Hb. unfold simple_splits.
  pose proof (percent_ge1 size a Ha). pose proof (percent_ge1 size b Hb).
  pose proof (percent_sum size a b Hs Hab).
  destruct (Z.leb_spec (absolute_size size a) 0); [lia|]. destruct (Z.leb_spec size (absolute_size size a)); [lia|].
  destruct (Z.leb_spec (absolute_size size b) 0); [lia|]. destruct (Z.leb_spec size (absolute_size size b)); [lia|].
  destruct (Z.ltb_spec size (absolute_size size a + absolute_size size b)); [lia|]. simpl. eauto.
Qed.

Lemma rolling_succeeds size a b steps const : 0 <= size ->
  rolling_ctor a b steps = true -> 1 <= steps ->
  (100 <= inject_Z size * a)%Q -> (100 <= inject_Z size * b)%Q ->
  exists sp, rolling_splits size a b steps const = Some sp.
Proof.
  intros Hs Hc Hst Ha Hb. unfold rolling_ctor in Hc. rewrite !andb_true_iff in Hc.
  destruct Hc as [[[[_ _] Hsum] Heq] _]. apply Qle_bool_iff in Hsum.
  unfold rolling_splits.
  pose proof (percent_ge1 size a Ha). pose proof (percent_ge1 size b Hb).
  pose proof (percent_sum size a b Hs Hsum).
  destruct (Z.leb_spec (absolute_size size a) 0); [lia|]. destruct (Z.leb_spec size (absolute_size size a)); [lia|].
  destruct (Z.leb_spec (absolute_size size b) 0); [lia|]. destruct (Z.leb_spec size (absolute_size size b)); [lia|].
  destruct (Z.ltb_spec size (absolute_size size a + absolute_size size b)); [lia|]. cbn [orb].
  destruct (Z.ltb_spec 1 steps) as [Hs2|Hs2].
  - assert (Hlt : (a + b < 100)%Q).
    { destruct (Qlt_le_dec (a + b) 100) as [|Hge]; [assumption|].
      assert (Heq' : Qeq_bool (a + b) 100 = true) by (apply Qeq_bool_iff; lra).
      rewrite Heq' in Heq. discriminate. }
    pose proof (percent_sum_strict size a b ltac:(lia) Hlt).
    destruct (Z.eqb_spec (absolute_size size a + absolute_size size b) size); [lia|]. cbn [andb].
    destruct (Z.eqb_spec steps 1); [lia|].
    destruct (fold_offsets 0 _ steps) eqn:E; [eauto|]. apply fold_offsets_none in E. lia.
  - rewrite andb_false_r. destruct (Z.eqb_spec steps 1); [eauto|lia].
Qed.

Lemma fixed_succeeds size a b w : 0 <= size ->
  fixed_window_ctor a b w = true -> (a + b + w <= 100)%Q ->
  (100 <= inject_Z size * a)%Q -> (100 <= inject_Z size * b)%Q ->
  exists sp, fixed_window_splits size a b w = Some sp.
Proof.
  intros Hs Hc Hab Ha Hb. unfold fixed_window_splits.
  pose proof (percent_ge1 size a Ha). pose proof (percent_ge1 size b Hb).
  unfold fixed_window_ctor in Hc. rewrite !andb_true_iff, !Qle_bool_iff in Hc.
  destruct Hc as [[[Hpa Hpb] Hw0] _].
  pose proof (percent_sum size a b Hs ltac:(lra)).
  assert (Hall : absolute_size size a + absolute_size size b + absolute_size size w <= size).
  { destruct (absolute_size_spec size a) as [A _], (absolute_size_spec size b) as [B _], (absolute_size_spec size w) as [C _].
    assert (0 <= inject_Z size)%Q by (change 0%Q with (inject_Z 0); rewrite <- Zle_Qle; lia).
    assert (Hq : (inject_Z (absolute_size size a + absolute_size size b + absolute_size size w) <= inject_Z size)%Q).
    { rewrite !inject_Z_plus. nra. }
    rewrite <- Zle_Qle in Hq. lia. }
  destruct (Z.leb_spec (absolute_size size a) 0); [lia|]. destruct (Z.leb_spec size (absolute_size size a)); [lia|].
  destruct (Z.leb_spec (absolute_size size b) 0); [lia|]. destruct (Z.leb_spec size (absolute_size size b)); [lia|].
  destruct (Z.ltb_spec size (absolute_size size a + absolute_size size b + absolute_size size w)); [lia|].
  cbn [orb]. eauto.
Qed.

(** * create_model: truth and forecast alignment *)
Lemma create_model_spec forecast data off tr te r :
  create_model forecast data off tr te = Some r ->
  0 <= fst tr <= Z.of_nat (length data) /\ 0 <= snd tr <= Z.of_nat (length data) /\
  0 <= fst te <= Z.of_nat (length data) /\ 0 <= snd te <= Z.of_nat (length data) /\
  fr_train r = py_slice data (Some (fst tr)) (Some (snd tr)) /\
  fr_truth r = py_slice data (Some (fst te)) (Some (snd te)) /\
  fr_train r <> [] /\ fr_truth r <> [] /\
  exists f, forecast (fr_train r) (Z.of_nat (length (fr_truth r)) + off) = Some f /\
    fr_pred r = if off =? 0 then f else py_slice f (Some off) None.
Proof.
  unfold create_model. intros H.
  destruct ((_ || _) || (_ || _)) eqn:E1 in H; [discriminate|].
  destruct ((_ || _) || (_ || _)) eqn:E2 in H; [discriminate|].
  rewrite !orb_false_iff, !Z.ltb_ge in E1, E2.
  destruct (py_slice data (Some (fst tr)) (Some (snd tr))) as [|a1 l1] eqn:Et; [discriminate|].
  destruct (py_slice data (Some (fst te)) (Some (snd te))) as [|a2 l2] eqn:Ee; [discriminate|].
  destruct (forecast (a1 :: l1) _) as [f|] eqn:Ef in H; [|discriminate].
  injection H as <-. simpl fr_train. simpl fr_truth. simpl fr_pred.
  repeat split; try lia; try discriminate. exists f. split; [exact Ef|reflexivity].
Qed.

Lemma alignment forecast data gap n_test te r f j :
  create_model forecast data gap (0, te) (te + gap, te + gap + n_test) = Some r ->
  forecast (fr_train r) (n_test + gap) = Some f -> Z.of_nat (length f) = n_test + gap ->
  0 <= gap -> 0 <= j < n_test ->
  nth (Z.to_nat j) (fr_truth r) 0%Q = nth (Z.to_nat (te + gap + j)) data 0%Q /\
  nth (Z.to_nat j) (fr_pred r) 0%Q = nth (Z.to_nat (gap + j)) f 0%Q.
Proof.
  intros H Hf Hlen Hg Hj. apply create_model_spec in H. simpl in H.
  destruct H as [_ [A2 [A3 [A4 [B1 [B2 [_ [_ [f' [C1 C2]]]]]]]]]].
  split.
  - rewrite B2, py_slice_nth by lia. reflexivity.
  - assert (Hl : Z.of_nat (length (fr_truth r)) = n_test) by (rewrite B2, py_slice_length by lia; lia).
    rewrite Hl, Hf in C1. injection C1 as <-. rewrite C2. destruct (Z.eqb_spec gap 0) as [->|]; [reflexivity|].
    unfold py_slice. rewrite norm_idx_in by lia. rewrite Hlen.
    rewrite firstn_all2 by (rewrite skipn_length; lia).
    rewrite <- (firstn_skipn (Z.to_nat gap) f) at 2.
    rewrite app_nth2; rewrite firstn_length_le by lia; [|lia]. f_equal. lia.
Qed.

(** Without a matching gap the forecasts are shifted by [offset] steps against the truth. *)
Lemma misalignment forecast data off n_test te r f j :
  create_model forecast data off (0, te) (te, te + n_test) = Some r ->
  forecast (fr_train r) (n_test + off) = Some f -> Z.of_nat (length f) = n_test + off ->
  0 < off -> 0 <= j < n_test ->
  nth (Z.to_nat j) (fr_truth r) 0%Q = nth (Z.to_nat (te + j)) data 0%Q /\
  nth (Z.to_nat j) (fr_pred r) 0%Q = nth (Z.to_nat (off + j)) f 0%Q.
Proof.
  intros H Hf Hlen Hg Hj. apply create_model_spec in H. simpl in H.
  destruct H as [_ [A2 [A3 [A4 [B1 [B2 [_ [_ [f' [C1 C2]]]]]]]]]].
  split.
  - rewrite B2, py_slice_nth by lia. reflexivity.
  - assert (Hl : Z.of_nat (length (fr_truth r)) = n_test) by (rewrite B2, py_slice_length by lia; lia).
    rewrite Hl, Hf in C1. injection C1 as <-. rewrite C2. destruct (Z.eqb_spec off 0) as [->|]; [lia|].
    unfold py_slice. rewrite norm_idx_in by lia. rewrite Hlen.
    rewrite firstn_all2 by (rewrite skipn_length; lia).
    rewrite <- (firstn_skipn (Z.to_nat off) f) at 2.
    rewrite app_nth2; rewrite firstn_length_le by lia; [|lia]. f_equal. lia.
Qed.

(** * Errors and re-running *)
Open Scope Q_scope.

Definition wsum (method : list Q -> list Q -> Q) (total : Q) (rs : list fold_result) : Q :=
  qsum (map (fun r => inject_Z (Z.of_nat (length (fr_truth r))) / total * method (fr_truth r) (fr_pred r)) rs).

Lemma add_fold_nth methods total errs r i : (i < length methods)%nat -> length errs = length methods ->
  nth i (add_fold methods total errs r) 0 =
  nth i errs 0 + inject_Z (Z.of_nat (length (fr_truth r))) / total * nth i methods (fun _ _ => 0) (fr_truth r) (fr_pred r).
Proof.
  intros Hi Hl. unfold add_fold.
  set (f := fun p : (list Q -> list Q -> Q) * Q => snd p + inject_Z (Z.of_nat (length (fr_truth r))) / total * fst p (fr_truth r) (fr_pred r)).
  rewrite nth_indep with (d' := f ((fun _ _ => 0), 0)) by (rewrite map_length, combine_length; lia).
  rewrite (map_nth f). rewrite combine_nth by lia. unfold f. simpl. reflexivity.
Qed.
Lemma add_fold_length methods total errs r : length errs = length methods -> length (add_fold methods total errs r) = length methods.
Proof. intros H. unfold add_fold. rewrite map_length, combine_length. lia. Qed.

Lemma fold_errors_nth methods total rs errs i : (i < length methods)%nat -> length errs = length methods ->
  nth i (fold_left (add_fold methods total) rs errs) 0 == nth i errs 0 + wsum (nth i methods (fun _ _ => 0)) total rs.
Proof.
  revert errs. induction rs as [|r rs IH]; intros errs Hi Hl.
  - unfold wsum. simpl. lra.
  - simpl fold_left. rewrite IH; [|auto|apply add_fold_length; auto].
    rewrite add_fold_nth by auto. unfold wsum. simpl map. simpl qsum. lra.
Qed.

Lemma fold_errors_length methods total rs errs : length errs = length methods ->
  length (fold_left (add_fold methods total) rs errs) = length methods.
Proof. revert errs; induction rs as [|r rs IH]; intros errs H; simpl; auto. apply IH, add_fold_length; auto. Qed.

Lemma total_length_app a b : total_length (a ++ b) == total_length a + total_length b.
Proof. unfold total_length. rewrite map_app, qsum_app. reflexivity. Qed.

Lemma total_length_pos rs : rs <> [] -> forallb fold_ok rs = true -> 0 < total_length rs.
Proof.
  assert (Hnn : forall rs, 0 <= total_length rs).
  { intros l. unfold total_length. induction l as [|r l IH]; simpl; [lra|].
    assert (0 <= inject_Z (Z.of_nat (length (fr_truth r)))) by (unfold Qle, inject_Z; simpl; lia). lra. }
  intros Hne Hok. destruct rs as [|r rs]; [congruence|]. simpl in Hok. apply andb_true_iff in Hok.
  destruct Hok as [Hr _]. unfold fold_ok in Hr.
  destruct (fr_train r); [discriminate|]. destruct (fr_pred r); [discriminate|].
  destruct (fr_truth r) as [|qh qt] eqn:Et; [discriminate|].
  specialize (Hnn rs). unfold total_length in *. simpl map. simpl qsum. rewrite Et.
  assert (0 < inject_Z (Z.of_nat (length (qh :: qt)))) by (unfold Qlt, inject_Z; simpl; lia). lra.
Qed.

Lemma wsum_app m t a b : wsum m t (a ++ b) == wsum m t a + wsum m t b.
Proof. unfold wsum. rewrite map_app, qsum_app. reflexivity. Qed.

Lemma wsum_scale m t t' rs : ~ t == 0 -> t' == 2 * t -> wsum m t' rs == wsum m t rs / 2.
Proof.
  intros Ht H. induction rs as [|r rs IH]; unfold wsum in *; simpl; [field|].
  rewrite IH, H. field. exact Ht.
Qed.

(** First run from a fresh object: the error is the length-weighted mean of the fold errors. *)
Lemma first_run forecast methods data off multi sp st :
  run_backtest forecast methods data off multi sp (bt_init (length methods)) = Some st ->
  exists rs, create_models forecast data off (fst sp) (snd sp) = Some rs /\ bt_results st = rs /\ rs <> [] /\
    forallb fold_ok rs = true /\ length (bt_errors st) = length methods /\
    forall i, (i < length methods)%nat ->
      nth i (bt_errors st) 0 == wsum (nth i methods (fun _ _ => 0)) (total_length rs) rs.
Proof.
  unfold run_backtest. destruct (create_models _ _ _ _ _) as [rs|] eqn:E; [|discriminate].
  intros H. exists rs. split; [reflexivity|]. unfold calc_error in H. simpl bt_results in H.
  assert (Hr : (if multi then rs else [] ++ rs) = rs) by (destruct multi; reflexivity).
  simpl in Hr. rewrite Hr in H. destruct rs as [|r rs]; [discriminate|].
  destruct (forallb fold_ok (r :: rs)) eqn:Eok; [|discriminate]. injection H as <-.
  cbn [bt_results bt_errors]. repeat split; try discriminate; auto.
  - exact (fold_errors_length methods _ (r :: rs) _ (repeat_length _ _)).
  - intros i Hi. etransitivity; [apply (fold_errors_nth methods _ (r :: rs)); [auto|apply repeat_length]|].
    assert (nth i (repeat 0 (length methods)) 0 = 0) as ->; [|lra].
    destruct (nth_in_or_default i (repeat 0 (length methods)) 0) as [Hin|Hd]; [apply repeat_spec in Hin; auto|auto].
Qed.

(** Second run on the same object: every error is exactly doubled. *)
Lemma second_run_doubles forecast methods data off multi sp st :
  run_backtest forecast methods data off multi sp (bt_init (length methods)) = Some st ->
  exists st2, run_backtest forecast methods data off multi sp st = Some st2 /\
    forall i, (i < length methods)%nat -> nth i (bt_errors st2) 0 == 2 * nth i (bt_errors st) 0.
Proof.
  intros H. destruct (first_run _ _ _ _ _ _ _ H) as [rs [Hc [Hres [Hne [Hok [Hlen Herr]]]]]].
  unfold run_backtest. rewrite Hc. unfold calc_error. cbn [bt_results bt_errors bt_raw]. rewrite Hres.
  destruct multi.
  - destruct rs as [|r rs]; [congruence|]. rewrite Hok. eexists. split; [reflexivity|].
    intros i Hi. cbn [bt_errors]. rewrite fold_errors_nth, <- Herr by auto. ring.
  - destruct (rs ++ rs) as [|r l] eqn:Er; [destruct rs; simpl in Er; congruence|]. rewrite <- Er.
    rewrite forallb_app, Hok. cbn [andb]. eexists. split; [reflexivity|].
    intros i Hi. cbn [bt_errors]. rewrite fold_errors_nth by auto.
    pose proof (total_length_pos rs Hne Hok) as Hp.
    rewrite wsum_app, (wsum_scale _ (total_length rs) (total_length (rs ++ rs)) rs);
      [|lra|rewrite total_length_app; ring].
    rewrite <- Herr by auto. field.
Qed.
