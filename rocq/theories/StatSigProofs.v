(** Proofs about [StatSigModel]. *)
From Verif Require Import Common PySlice TSDataModel TSDataSpec TSDataProofs StatSigModel StatSigSpec.
Open Scope Z_scope.

(** ** lists in increasing time order *)
Lemma incr_app {V} (a b : list (Z * V)) : increasing (a ++ b) ->
  increasing a /\ increasing b /\ forall x y, In x a -> In y b -> fst x < fst y.
Proof.
  unfold increasing. induction a as [|x a IH]; simpl; intros H.
  - split; [constructor|]. split; [exact H|]. intros ? ? [].
  - inversion H as [|? ? H1 H2]; subst. destruct (IH H1) as [Ha [Hb Hc]].
    rewrite map_app, Forall_app in H2. destruct H2 as [H2 H3]. rewrite Forall_forall in H3.
    split; [constructor; assumption|]. split; [exact Hb|].
    intros x' y [<-|Hx] Hy; [apply H3, in_map, Hy|apply Hc; assumption].
Qed.
Lemma incr_sort {V} (l : list (Z * V)) : increasing l -> rows (of_rows true false l) = l.
Proof. intros H. apply sort_rows_id. apply strict_le. exact H. Qed.
Lemma incr_filter {V} f (l : list (Z * V)) : increasing l -> increasing (filter f l).
Proof.
  unfold increasing. induction l as [|x t IH]; simpl; intros H; [constructor|].
  inversion H as [|? ? H1 H2]; subst. destruct (f x); [|apply IH, H1]. simpl. constructor; [apply IH, H1|].
  apply Forall_forall. intros y Hy. apply in_map_iff in Hy. destruct Hy as [r [<- Hr]].
  apply filter_In in Hr. rewrite Forall_forall in H2. apply H2. apply in_map, Hr.
Qed.
Lemma filter_split_lt {V} (c : Z) (l : list (Z * V)) : increasing l ->
  filter (fun r => fst r <? c) l ++ filter (fun r => c <=? fst r) l = l.
Proof.
  unfold increasing. induction l as [|x t IH]; simpl; intros H; [reflexivity|].
  inversion H as [|? ? H1 H2]; subst.
  destruct (Z.ltb_spec (fst x) c), (Z.leb_spec c (fst x)); try lia.
  - simpl. f_equal. apply IH, H1.
  - rewrite (filter_none (fun r : Z * V => fst r <? c)).
    + simpl. f_equal. rewrite <- (IH H1) at 2. rewrite (filter_none (fun r : Z * V => fst r <? c)); [reflexivity|].
      intros y Hy. apply Z.ltb_ge. rewrite Forall_forall in H2. specialize (H2 _ (in_map fst _ _ Hy)). lia.
    + intros y Hy. apply Z.ltb_ge. rewrite Forall_forall in H2. specialize (H2 _ (in_map fst _ _ Hy)). lia.
Qed.

Section Detector.
  Context {V S : Type}.
  Variable T : list V -> list V -> S.
  Variable zero : S.
  Variables nc nt u : Z.
  Hypothesis Hu : 0 < u.
  Hypothesis Hnt : 1 <= nt.
  Hypothesis Hnc : 0 <= nc.

  Local Notation E total t :=
    (T (observed (fun x => (t - (nt - 1) * u <=? x) && (x <=? t)) total)
       (observed (fun x => (t - (nt + nc - 1) * u <=? x) && (x <? t - (nt - 1) * u)) total)).

  Lemma score_at_E pre p rest : increasing (pre ++ p :: rest) ->
    score_at T nc nt u (fst p) (pre ++ [p]) = E (pre ++ p :: rest) (fst p).
  Proof using Hu Hnt.
    intros H. destruct (incr_app _ _ H) as [_ [H2 H3]].
    assert (forall y, In y rest -> fst p < fst y) as Hrest.
    { intros y Hy. unfold increasing in H2. simpl in H2. inversion H2 as [|? ? ? F]; subst.
      rewrite Forall_forall in F. apply F, in_map, Hy. }
    unfold score_at, start_end_dates, observed, win.
    replace (pre ++ p :: rest) with ((pre ++ [p]) ++ rest) by (rewrite <- app_assoc; reflexivity).
    rewrite !(filter_app _ (pre ++ [p]) rest).
    rewrite (filter_none _ rest) by
      (intros y Hy; apply andb_false_iff; right; apply Z.leb_gt; auto).
    rewrite (filter_none _ rest) by
      (intros y Hy; apply andb_false_iff; right; apply Z.ltb_ge; specialize (Hrest y Hy); nia).
    rewrite !app_nil_r. f_equal; f_equal; apply filter_ext_in; intros y Hy.
    - assert (fst y <= fst p) as Hle.
      { apply in_app_or in Hy. destruct Hy as [Hy|[<-|[]]]; [|lia].
        specialize (H3 y p Hy (or_introl eq_refl)). lia. }
      replace (fst p + u - nt * u) with (fst p - (nt - 1) * u) by ring. f_equal.
      destruct (Z.ltb_spec (fst y) (fst p + u)), (Z.leb_spec (fst y) (fst p)); try reflexivity; lia.
    - replace (fst p + u - nt * u) with (fst p - (nt - 1) * u) by ring.
      replace (fst p + u - (nt + nc) * u) with (fst p - (nt + nc - 1) * u) by ring. reflexivity.
  Qed.

  Lemma point_loop_spec : forall data pre scores, increasing (pre ++ data) ->
    point_loop T nc nt u pre data scores
    = map (fun r => if existsb (Z.eqb (fst r)) (map fst data) then (fst r, E (pre ++ data) (fst r)) else r) scores.
  Proof using Hu Hnt.
    induction data as [|p rest IH]; intros pre scores H; cbn [point_loop].
    - rewrite <- (map_id scores) at 1. reflexivity.
    - assert (pre ++ p :: rest = (pre ++ [p]) ++ rest) as Eq by (rewrite <- app_assoc; reflexivity).
      rewrite incr_sort by (rewrite Eq in H; apply incr_app in H; tauto).
      rewrite IH by (rewrite <- Eq; exact H).
      unfold inplace_update. rewrite map_map. apply map_ext. intros r.
      cbn [map existsb].
      destruct (Z.eqb_spec (fst r) (fst p)) as [Er|Nr]; cbn [orb].
      + cbn [fst]. destruct (existsb (Z.eqb (fst r)) (map fst rest)) eqn:Ex.
        * exfalso. apply existsb_eqb in Ex. apply in_map_iff in Ex. destruct Ex as [y [Ey Hy]].
          destruct (incr_app _ _ H) as [_ [H2 _]]. unfold increasing in H2. simpl in H2.
          inversion H2 as [|? ? ? F]; subst. rewrite Forall_forall in F.
          specialize (F _ (in_map fst _ _ Hy)). lia.
        * rewrite Er. rewrite <- (score_at_E pre p rest H). reflexivity.
      + rewrite <- Eq. reflexivity.
  Qed.

  (** *** C17 *)
  Local Notation need := ((nc + nt - 1) * u).

  Lemma last_time_in (l : list (Z * V)) : l <> [] -> exists r, In r l /\ last_time l = fst r.
  Proof.
    intros H. unfold last_time. destruct (rev l) as [|r t] eqn:Er.
    - exfalso. apply H. rewrite <- (rev_involutive l), Er. reflexivity.
    - exists r. split; [|reflexivity]. apply in_rev. rewrite Er. left. reflexivity.
  Qed.
  Lemma last_time_max (l : list (Z * V)) r : increasing l -> In r l -> fst r <= last_time l.
  Proof.
    intros H Hr. unfold last_time. destruct (rev l) as [|x t] eqn:Er.
    - assert (l = []) by (rewrite <- (rev_involutive l), Er; reflexivity). subst. destruct Hr.
    - assert (l = rev t ++ [x]) as -> by (rewrite <- (rev_involutive l), Er; reflexivity).
      apply incr_app in H. destruct H as [_ [_ H]]. apply in_app_or in Hr.
      destruct Hr as [Hr|[<-|[]]]; [|lia]. specialize (H r x Hr (or_introl eq_refl)). lia.
  Qed.


  Lemma first_time_all (hist : option (list (Z * V))) data : data <> [] -> forall d, first_time hist data = fst (hd d (all_of hist data)).
  Proof.
    intros H d. destruct data as [|r data]; [congruence|]. unfold first_time, all_of.
    destruct hist as [[|x h]|]; reflexivity.
  Qed.

  Lemma handle_spec (hist : option (list (Z * V))) data : data <> [] -> increasing (all_of hist data) ->
    let '(data', hist', user) := handle_not_enough_history nc nt u hist data in
    hist' ++ data' = all_of hist data
    /\ (forall r, In r data' <-> In r data /\ first_time hist data + need <= fst r)
    /\ ((exists r0, In r0 (hist_list hist) /\ first_time hist data + need <= fst r0) ->
          hist' = hist_list hist /\ data' = data /\ user = hist)
    /\ (~ (exists r0, In r0 (hist_list hist) /\ first_time hist data + need <= fst r0) ->
          hist' = filter (fun r => fst r <? first_time hist data + need) (all_of hist data)
          /\ data' = filter (fun r => first_time hist data + need <=? fst r) (all_of hist data)
          /\ user = (match hist with Some h => Some (h ++ data) | None => None end)).
  Proof.
    intros Hd Hi. set (F := first_time hist data).
    assert (forall total : list (Z * V), total = all_of hist data ->
      let cut := (rows (of_rows true false (filter (fun r => (match total with r :: _ => fst r | [] => 0 end) + need <=? fst r) total)),
                  rows (of_rows true false (filter (fun r => fst r <? (match total with r :: _ => fst r | [] => 0 end) + need) total))) in
      cut = (filter (fun r => F + need <=? fst r) (all_of hist data), filter (fun r => fst r <? F + need) (all_of hist data))) as Hcut.
    { intros total ->. cbv zeta.
      assert ((match all_of hist data with r :: _ => fst r | [] => 0 end) = F) as ->.
      { unfold F. destruct data as [|r data]; [congruence|].
        rewrite (first_time_all hist (r :: data) Hd r). destruct (all_of hist (r :: data)) eqn:Ea; [|reflexivity].
        unfold all_of in Ea. destruct hist as [[|]|]; discriminate. }
      rewrite !incr_sort by (apply incr_filter; exact Hi). reflexivity. }
    assert (forall data' hist' user,
      data' = filter (fun r => F + need <=? fst r) (all_of hist data) ->
      hist' = filter (fun r => fst r <? F + need) (all_of hist data) ->
      user = (match hist with Some h => Some (h ++ data) | None => None end) ->
      ~ (exists r0, In r0 (hist_list hist) /\ F + need <= fst r0) ->
      hist' ++ data' = all_of hist data
      /\ (forall r, In r data' <-> In r data /\ F + need <= fst r)
      /\ ((exists r0, In r0 (hist_list hist) /\ F + need <= fst r0) ->
            hist' = hist_list hist /\ data' = data /\ user = hist)
      /\ (~ (exists r0, In r0 (hist_list hist) /\ F + need <= fst r0) ->
            hist' = filter (fun r => fst r <? F + need) (all_of hist data)
            /\ data' = filter (fun r => F + need <=? fst r) (all_of hist data)
            /\ user = (match hist with Some h => Some (h ++ data) | None => None end))) as Short.
    { intros data' hist' user E1 E2 E3 Hno. split; [subst; apply filter_split_lt, Hi|]. split; [|split].
      - intros r. rewrite E1, filter_In, Z.leb_le. split; intros [H1 H2]; (split; [|exact H2]).
        + unfold all_of in H1. destruct hist as [h|]; [|exact H1]. apply in_app_or in H1.
          destruct H1 as [H1|H1]; [|exact H1]. exfalso. apply Hno. exists r. split; [exact H1|exact H2].
        + unfold all_of. destruct hist as [h|]; [apply in_or_app; right|]; exact H1.
      - intros Hex. contradiction.
      - intros _. auto. }
    destruct hist as [h|].
    - destruct h as [|r h].
      + pose proof (Hcut data eq_refl) as Hc. cbv zeta in Hc.
        assert (handle_not_enough_history nc nt u (Some []) data
                = (filter (fun r => F + need <=? fst r) (all_of (Some []) data), filter (fun r => fst r <? F + need) (all_of (Some []) data), Some data)) as ->
          by (rewrite <- Hc; reflexivity).
        apply Short; try reflexivity. simpl. intros [r0 [[] _]].
      + destruct (Z.leb_spec (fst r + need) (last_time (r :: h))) as [Hle|Hlt].
        * assert (handle_not_enough_history nc nt u (Some (r :: h)) data = (data, r :: h, Some (r :: h))) as ->.
          { unfold handle_not_enough_history. apply Z.leb_le in Hle. rewrite Hle. reflexivity. }
          split; [reflexivity|]. change (fst r) with F in Hle.
          destruct (last_time_in (r :: h)) as [r0 [Hr0 Er0]]; [discriminate|].
          split; [|split].
          -- intros x. split; [|tauto]. intros Hx. split; [exact Hx|].
             destruct (incr_app (r :: h) data Hi) as [_ [_ Hi']]. specialize (Hi' r0 x Hr0 Hx). lia.
          -- intros _. auto.
          -- intros Hno. exfalso. apply Hno. exists r0. split; [exact Hr0|]. lia.
        * pose proof (Hcut ((r :: h) ++ data) eq_refl) as Hc. cbv zeta in Hc.
          assert (handle_not_enough_history nc nt u (Some (r :: h)) data
                = (filter (fun r => F + need <=? fst r) (all_of (Some (r :: h)) data), filter (fun r => fst r <? F + need) (all_of (Some (r :: h)) data), Some ((r :: h) ++ data))) as ->.
          { rewrite <- Hc. unfold handle_not_enough_history. apply Z.leb_gt in Hlt. rewrite Hlt. reflexivity. }
          apply Short; try reflexivity. intros [r0 [Hr0 H0]]. change (fst r) with F in Hlt.
          assert (increasing (r :: h)) as Hh by (exact (proj1 (incr_app (r :: h) data Hi))).
          pose proof (last_time_max (r :: h) r0 Hh Hr0). lia.
    - pose proof (Hcut data eq_refl) as Hc. cbv zeta in Hc.
      assert (handle_not_enough_history nc nt u None data
                = (filter (fun r => F + need <=? fst r) (all_of None data), filter (fun r => fst r <? F + need) (all_of None data), None)) as ->
          by (rewrite <- Hc; reflexivity).
      apply Short; try reflexivity. simpl. intros [r0 [[] _]].
  Qed.

  (** *** C15 *)
  Lemma data_nonneg_last (l : list (Z * S)) : increasing l -> l <> [] ->
    last_n l (length l) = l.
  Proof.
    intros H Hn. unfold last_n. rewrite c26_last.
    - cbn [rows]. replace (length l - Z.to_nat (Z.of_nat (length l)))%nat with O by lia. reflexivity.
    - apply strict_le. exact H.
    - cbn [rows]. destruct l; [congruence|]. simpl. lia.
  Qed.
  Lemma fit_predict_spec hist data : data <> [] -> increasing (all_of hist data) ->
    fst (fit_predict T zero nc nt u hist data)
    = map (fun r => (fst r, expected_score T zero nc nt u (all_of hist data) (first_time hist data) (fst r))) data.
  Proof using Hu Hnt.
    intros Hd Hi.
    assert (increasing data) as Hid.
    { unfold all_of in Hi. destruct hist; [apply incr_app in Hi; tauto|exact Hi]. }
    unfold fit_predict, should_update.
    destruct (Z.leb_spec (first_time hist data + need) (last_time data)) as [Hup|Hno].
    - pose proof (handle_spec hist data Hd Hi) as Hh.
      destruct (handle_not_enough_history nc nt u hist data) as [[data' hist'] user].
      destruct Hh as [H1 [H2 _]]. cbn [fst].
      rewrite point_loop_spec by (rewrite H1; exact Hi). rewrite H1.
      unfold init_scores. rewrite map_map.
      match goal with |- last_n (map ?f data) _ = _ => assert (map f data = map (fun r => (fst r, expected_score T zero nc nt u (all_of hist data) (first_time hist data) (fst r))) data) as Em end.
      { apply map_ext_in. intros r Hr. cbn [fst]. unfold expected_score.
        destruct (existsb (Z.eqb (fst r)) (map fst data')) eqn:Ex.
        - apply existsb_eqb in Ex. apply in_map_iff in Ex. destruct Ex as [y [Ey Hy]].
          apply H2 in Hy. destruct (Z.ltb_spec (fst r) (first_time hist data + need)); [lia|]. reflexivity.
        - destruct (Z.ltb_spec (fst r) (first_time hist data + need)) as [|Hge]; [reflexivity|].
          exfalso. assert (In r data') as Hin by (apply H2; auto).
          assert (existsb (Z.eqb (fst r)) (map fst data') = true) as Hc by (apply existsb_eqb, in_map, Hin).
          congruence. }
      rewrite Em. match goal with |- last_n ?l _ = _ => rewrite <- (map_length (fun r => (fst r, expected_score T zero nc nt u (all_of hist data) (first_time hist data) (fst r))) data); apply data_nonneg_last end.
      + unfold increasing. rewrite map_map. exact Hid.
      + destruct data; [congruence|discriminate].
    - cbn [fst]. unfold init_scores. apply map_ext_in. intros r Hr. unfold expected_score.
      pose proof (last_time_max data r Hid Hr).
      destruct (Z.ltb_spec (fst r) (first_time hist data + need)); [reflexivity|lia].
  Qed.

  (** the scores-only path uses the same windows *)
  Lemma removelast_filter (lo hi : Z) (l : list (Z * V)) : increasing l -> In hi (map fst l) -> lo <= hi ->
    removelast (filter (fun r => (lo <=? fst r) && (fst r <=? hi)) l)
    = filter (fun r => (lo <=? fst r) && (fst r <? hi)) l.
  Proof.
    intros H Hin Hlo. apply in_map_iff in Hin. destruct Hin as [p [Ep Hp]].
    apply in_split in Hp. destruct Hp as [a [b ->]].
    destruct (incr_app _ _ H) as [_ [H2 H3]].
    assert (forall y, In y b -> fst p < fst y) as Hb.
    { intros y Hy. unfold increasing in H2. simpl in H2. inversion H2 as [|? ? ? F]; subst.
      rewrite Forall_forall in F. apply F, in_map, Hy. }
    replace (a ++ p :: b) with ((a ++ [p]) ++ b) by (rewrite <- app_assoc; reflexivity).
    rewrite !(filter_app _ (a ++ [p]) b).
    rewrite (filter_none _ b) by (intros y Hy; apply andb_false_iff; right; apply Z.leb_gt; specialize (Hb y Hy); lia).
    rewrite (filter_none _ b) by (intros y Hy; apply andb_false_iff; right; apply Z.ltb_ge; specialize (Hb y Hy); lia).
    rewrite !app_nil_r, !filter_app. cbn [filter].
    replace ((lo <=? fst p) && (fst p <=? hi)) with true
      by (symmetry; apply andb_true_iff; split; apply Z.leb_le; lia).
    replace ((lo <=? fst p) && (fst p <? hi)) with false
      by (symmetry; apply andb_false_iff; right; apply Z.ltb_ge; lia).
    rewrite removelast_last, app_nil_r. apply filter_ext_in. intros y Hy.
    specialize (H3 y p Hy (or_introl eq_refl)).
    destruct (Z.leb_spec (fst y) hi), (Z.ltb_spec (fst y) hi); try reflexivity; lia.
  Qed.
  Lemma map_removelast {A B} (f : A -> B) l : map f (removelast l) = removelast (map f l).
  Proof. induction l as [|x [|y t] IH]; [reflexivity|reflexivity|].
    change (removelast (x :: y :: t)) with (x :: removelast (y :: t)). rewrite map_cons, IH. reflexivity. Qed.
  Lemma scores_only_spec hist data : data <> [] -> increasing (all_of hist data) ->
    fst (scores_only T zero nc nt u hist data)
    = map (fun r => (fst r, expected_score T zero nc nt u (all_of hist data) (first_time hist data) (fst r))) data.
  Proof using Hu Hnt Hnc.
    intros Hd Hi.
    assert (increasing data) as Hid.
    { unfold all_of in Hi. destruct hist; [apply incr_app in Hi; tauto|exact Hi]. }
    unfold scores_only, should_update. fold (all_of hist data).
    destruct (Z.leb_spec (first_time hist data + need) (last_time data)) as [Hup|Hno].
    - cbn [fst]. apply map_ext_in. intros r Hr. f_equal.
      assert ((match all_of hist data with r :: _ => fst r | [] => 0 end) = first_time hist data) as ->.
      { destruct data as [|r1 data]; [congruence|].
        rewrite (first_time_all hist (r1 :: data) Hd r1). destruct (all_of hist (r1 :: data)) eqn:Ea; [|reflexivity].
        unfold all_of in Ea. destruct hist as [[|]|]; discriminate. }
      unfold expected_score.
      destruct (Z.leb_spec (first_time hist data) (fst r - (nt - 1) * u - nc * u)) as [Hle|Hgt];
        destruct (Z.ltb_spec (fst r) (first_time hist data + need)) as [Hlt|Hge];
        try (exfalso; nia); [|reflexivity].
      f_equal. replace (fst r - (nt + nc - 1) * u) with (fst r - (nt - 1) * u - nc * u) by ring.
      unfold observed, closed_slice.
      destruct (existsb (Z.eqb (fst r - (nt - 1) * u)) (map fst (all_of hist data))) eqn:Ex.
      + rewrite <- map_removelast. f_equal. apply removelast_filter; [exact Hi| |nia].
        apply existsb_eqb. exact Ex.
      + f_equal. apply filter_ext_in. intros y Hy. f_equal.
        assert (fst y <> fst r - (nt - 1) * u) as Ne.
        { intros Hc. assert (existsb (Z.eqb (fst r - (nt - 1) * u)) (map fst (all_of hist data)) = true) as Hc2
            by (apply existsb_eqb; rewrite <- Hc; apply in_map, Hy). congruence. }
        destruct (Z.leb_spec (fst y) (fst r - (nt - 1) * u)), (Z.ltb_spec (fst y) (fst r - (nt - 1) * u)); try reflexivity; lia.
    - cbn [fst]. unfold init_scores. apply map_ext_in. intros r Hr. unfold expected_score.
      pose proof (last_time_max data r Hid Hr).
      destruct (Z.ltb_spec (fst r) (first_time hist data + need)); [reflexivity|lia].
  Qed.

  (** ** regular series *)
  Lemma grid_filter : forall (vals : list V) (P : Z -> bool) t0 (a b : Z),
    (forall i, 0 <= i -> P (t0 + i * u) = (a <=? i) && (i <? b)) ->
    observed P (grid t0 u vals) = firstn (Z.to_nat (b - Z.max a 0)) (skipn (Z.to_nat a) vals).
  Proof.
    unfold observed. induction vals as [|v vs IH]; intros P t0 a b HP.
    - rewrite skipn_nil, firstn_nil. reflexivity.
    - cbn [grid filter fst]. pose proof (HP 0 ltac:(lia)) as H0. rewrite Z.mul_0_l, Z.add_0_r in H0. rewrite H0.
      assert (forall i, 0 <= i -> P (t0 + u + i * u) = (a - 1 <=? i) && (i <? b - 1)) as HP'.
      { intros i Hi. replace (t0 + u + i * u) with (t0 + (i + 1) * u) by ring. rewrite HP by lia.
        f_equal; [destruct (Z.leb_spec a (i + 1)), (Z.leb_spec (a - 1) i)|
                  destruct (Z.ltb_spec (i + 1) b), (Z.ltb_spec i (b - 1))]; try reflexivity; lia. }
      specialize (IH P (t0 + u) (a - 1) (b - 1) HP').
      destruct (Z.leb_spec a 0) as [Ha|Ha]; [destruct (Z.ltb_spec 0 b) as [Hb|Hb]|]; cbn [andb].
      + cbn [map snd]. rewrite IH.
        replace (Z.to_nat (a - 1)) with O by lia. replace (Z.to_nat a) with O by lia. cbn [skipn].
        replace (Z.to_nat (b - Z.max a 0)) with (Datatypes.S (Z.to_nat (b - 1 - Z.max (a - 1) 0))) by lia. reflexivity.
      + rewrite IH. replace (Z.to_nat (b - Z.max a 0)) with O by lia.
        replace (Z.to_nat (b - 1 - Z.max (a - 1) 0)) with O by lia. reflexivity.
      + rewrite IH. replace (Z.to_nat a) with (Datatypes.S (Z.to_nat (a - 1))) by lia. cbn [skipn].
        f_equal. lia.
  Qed.
  Lemma grid_increasing : forall (vals : list V) t0, increasing (grid t0 u vals).
  Proof using Hu.
    unfold increasing. induction vals as [|v vs IH]; intros t0; cbn [grid map]; constructor; [apply IH|].
    clear IH. cbn [fst]. assert (forall t, t0 < t -> Forall (Z.lt t0) (map fst (grid t u vs))) as G; [|apply G; lia].
    induction vs as [|w ws IH2]; intros t Ht; cbn [grid map]; constructor; [exact Ht|]. apply IH2. lia.
  Qed.
  Lemma grid_length (vals : list V) : forall t0, length (grid t0 u vals) = length vals.
  Proof. induction vals as [|v vs IH]; intros t0; simpl; auto. Qed.
  Lemma grid_values (vals : list V) : forall t0, map snd (grid t0 u vals) = vals.
  Proof. induction vals as [|v vs IH]; intros t0; simpl; [reflexivity|]. rewrite IH. reflexivity. Qed.
  Lemma grid_app (a b : list V) : forall t0,
    grid t0 u (a ++ b) = grid t0 u a ++ grid (t0 + Z.of_nat (length a) * u) u b.
  Proof.
    induction a as [|x a IH]; intros t0; cbn [app grid length].
    - f_equal. lia.
    - rewrite IH. do 2 f_equal. f_equal. lia.
  Qed.
  Lemma grid_times (vals : list V) : forall t0,
    map fst (grid t0 u vals) = map (fun i => t0 + Z.of_nat i * u) (seq 0 (length vals)).
  Proof.
    induction vals as [|x vs IH]; intros t0; cbn [grid map length seq]; [reflexivity|].
    f_equal; [cbn [fst]; lia|]. rewrite IH. rewrite <- seq_shift, map_map. apply map_ext. intros i. lia.
  Qed.

  (** the expected score of point [k] of a regular series, by position *)
  Definition pos_score (vals : list V) (k : Z) : S :=
    if k <? nc + nt - 1 then zero
    else T (firstn (Z.to_nat nt) (skipn (Z.to_nat (k - nt + 1)) vals))
           (firstn (Z.to_nat nc) (skipn (Z.to_nat (k - nt - nc + 1)) vals)).
  Lemma expected_grid vals t0 k : 0 <= k ->
    expected_score T zero nc nt u (grid t0 u vals) t0 (t0 + k * u) = pos_score vals k.
  Proof using Hu Hnt Hnc.
    intros Hk. unfold expected_score, pos_score.
    destruct (Z.ltb_spec (t0 + k * u) (t0 + (nc + nt - 1) * u)) as [H1|H1];
      destruct (Z.ltb_spec k (nc + nt - 1)) as [H2|H2]; try (exfalso; nia); [reflexivity|].
    f_equal.
    - rewrite (grid_filter vals _ t0 (k - nt + 1) (k + 1)).
      + f_equal. lia.
      + intros i Hi. f_equal;
          [destruct (Z.leb_spec (t0 + k * u - (nt - 1) * u) (t0 + i * u)), (Z.leb_spec (k - nt + 1) i)
          |destruct (Z.leb_spec (t0 + i * u) (t0 + k * u)), (Z.ltb_spec i (k + 1))]; try reflexivity; exfalso; nia.
    - rewrite (grid_filter vals _ t0 (k - nt - nc + 1) (k - nt + 1)).
      + f_equal. lia.
      + intros i Hi. f_equal;
          [destruct (Z.leb_spec (t0 + k * u - (nt + nc - 1) * u) (t0 + i * u)), (Z.leb_spec (k - nt - nc + 1) i)
          |destruct (Z.ltb_spec (t0 + i * u) (t0 + k * u - (nt - 1) * u)), (Z.ltb_spec i (k - nt + 1))]; try reflexivity; exfalso; nia.
  Qed.
  (** only the values up to position [k] matter *)
  Lemma pos_score_local vals extra k : 0 <= k < Z.of_nat (length vals) ->
    pos_score (vals ++ extra) k = pos_score vals k.
  Proof using Hnt Hnc.
    intros Hk. unfold pos_score. destruct (Z.ltb_spec k (nc + nt - 1)); [reflexivity|].
    f_equal; rewrite skipn_app, firstn_app, skipn_length;
    match goal with |- _ ++ firstn ?n _ = _ => replace n with O by lia end; rewrite app_nil_r; reflexivity.
  Qed.
  (** and a window of enough earlier values suffices *)
  Lemma pos_score_shift vals (s len : nat) k : nc + nt - 1 <= k < Z.of_nat len ->
    pos_score (firstn len (skipn s vals)) k = pos_score vals (Z.of_nat s + k).
  Proof using Hnt Hnc.
    intros Hk. unfold pos_score.
    destruct (Z.ltb_spec k (nc + nt - 1)); [lia|].
    destruct (Z.ltb_spec (Z.of_nat s + k) (nc + nt - 1)); [lia|].
    f_equal; rewrite skipn_firstn_comm, firstn_firstn, skipn_skipn_add; (f_equal; [lia|f_equal; lia]).
  Qed.
End Detector.

(** ** splitting *)
Section Split.
  Context {V : Type}.

  Lemma py_last_spec {A} (l : list A) n : (0 < n <= length l)%nat -> py_last l n = skipn (length l - n) l.
  Proof.
    intros H. unfold py_last, py_slice, norm_idx.
    destruct (Z.ltb_spec (- Z.of_nat n) 0); [|lia].
    replace (Z.to_nat (Z.max 0 (- Z.of_nat n + Z.of_nat (length l)))) with (length l - n)%nat by lia.
    apply firstn_all2. rewrite skipn_length. lia.
  Qed.

  Lemma n_seq_spec len m : (0 < m)%nat ->
    (len <= m * n_seq len m)%nat /\ (m * n_seq len m < len + m)%nat.
  Proof.
    intros Hm. unfold n_seq. pose proof (Nat.div_mod len m ltac:(lia)) as E.
    pose proof (Nat.mod_upper_bound len m ltac:(lia)).
    destruct (Nat.eqb_spec (len mod m) 0); nia.
  Qed.
  Lemma remaining_spec len m : (0 < m)%nat -> remaining len m = (m * n_seq len m - len)%nat.
  Proof. intros Hm. unfold remaining. pose proof (n_seq_spec len m Hm). apply Nat.mod_small. lia. Qed.
  Lemma remaining_zero len m : (0 < m)%nat -> (remaining len m = 0 <-> len mod m = 0)%nat.
  Proof.
    intros Hm. rewrite remaining_spec by exact Hm. unfold n_seq.
    pose proof (Nat.div_mod len m ltac:(lia)) as E. pose proof (Nat.mod_upper_bound len m ltac:(lia)).
    destruct (Nat.eqb_spec (len mod m) 0); nia.
  Qed.

  Lemma window_app {A} k s (X Y : list A) : (s + k <= length X)%nat ->
    firstn k (skipn s (X ++ Y)) = firstn k (skipn s X).
  Proof.
    intros H. rewrite skipn_app, firstn_app, skipn_length.
    replace (k - (length X - s))%nat with O by lia. rewrite firstn_O, app_nil_r. reflexivity.
  Qed.

  (** every column but the padding is a window of the whole series *)
  Lemma next_columns_spec (hist data : list V) (m : nat) : (0 < m)%nat -> (0 < length hist)%nat ->
    forall todo j prev,
    (S j * m <= length data)%nat \/ todo = O ->
    ((j + todo) * m < length data \/ todo = O)%nat ->
    prev = firstn (length hist + m) (skipn (j * m) (hist ++ data)) ->
    next_columns (length hist) m data prev (S j * m) todo
    = map (fun i => firstn (length hist + m) (skipn (i * m) (hist ++ data))) (seq (S j) todo).
  Proof.
    intros Hm Hh. induction todo as [|k IH]; intros j prev H1 H2 Hp; [reflexivity|].
    cbn [next_columns seq map]. 
    destruct H1 as [H1|H1]; [|discriminate]. destruct H2 as [H2|H2]; [|discriminate].
    assert (length prev = (length hist + m)%nat) as Lp.
    { rewrite Hp, firstn_length, skipn_length, app_length. nia. }
    assert (py_last prev (length hist) ++ firstn m (skipn (S j * m) data)
            = firstn (length hist + m) (skipn (S j * m) (hist ++ data))) as Ec.
    { rewrite py_last_spec by lia. rewrite Lp. replace (length hist + m - length hist)%nat with m by lia.
      rewrite Hp. rewrite skipn_firstn_comm. replace (length hist + m - m)%nat with (length hist) by lia.
      rewrite skipn_skipn_add. replace (j * m + m)%nat with (S j * m)%nat by lia.
      set (X := skipn (S j * m) (hist ++ data)).
      assert (skipn (S j * m) data = skipn (length hist) X) as ->.
      { unfold X. rewrite skipn_skipn_add, skipn_app.
        rewrite (skipn_all2 hist) by lia. cbn [app]. f_equal. lia. }
      rewrite <- (firstn_skipn (length hist) X) at 3.
      rewrite firstn_app. rewrite (firstn_all2 (firstn _ X)) by (rewrite firstn_length; lia).
      f_equal. rewrite firstn_length. unfold X. rewrite skipn_length, app_length.
      f_equal. nia. }
    rewrite Ec. f_equal. replace (S j * m + m)%nat with (S (S j) * m)%nat by lia.
    apply IH; [| |reflexivity].
    - destruct k; [right; reflexivity|left; nia].
    - destruct k; [right; reflexivity|left; nia].
  Qed.

  Lemma big_columns_spec (one : V) m hist data :
    (0 < m)%nat -> (0 < length hist)%nat -> (0 < length data)%nat ->
    big_columns one m hist data
    = map (fun i => firstn (length hist + m) (skipn (i * m) ((hist ++ data) ++ repeat one (remaining (length data) m))))
          (seq 0 (n_seq (length data) m)).
  Proof.
    intros Hm Hh Hd. pose proof (n_seq_spec (length data) m Hm) as [N1 N2].
    assert (1 <= n_seq (length data) m)%nat as N0 by nia.
    set (n := n_seq (length data) m) in *. set (rem := remaining (length data) m).
    assert (rem = (m * n - length data)%nat) as Er by (apply remaining_spec, Hm).
    unfold big_columns. fold n. fold rem.
    pose proof (next_columns_spec hist data m Hm Hh (n - 1) 0 (hist ++ firstn m data)) as NC.
    rewrite Nat.mul_1_l in NC. rewrite NC. clear NC.
    2:{ destruct (Nat.eq_dec n 1); [right; lia|left; nia]. }
    2:{ destruct (Nat.eq_dec n 1); [right; lia|left; nia]. }
    2:{ cbn [Nat.mul skipn]. rewrite firstn_app. rewrite (firstn_all2 hist) by lia. f_equal. f_equal. lia. }
    set (g := fun i => firstn (length hist + m) (skipn (i * m) (hist ++ data))).
    assert ((hist ++ firstn m data) :: map g (seq 1 (n - 1)) = map g (seq 0 n)) as ->.
    { replace n with (S (n - 1)) at 2 by lia. cbn [seq map]. f_equal. unfold g. cbn [Nat.mul skipn].
      rewrite firstn_app. rewrite (firstn_all2 hist) by lia. f_equal. f_equal. lia. }
    replace n with (n - 1 + 1)%nat at 1 2 by lia. rewrite !seq_app, !map_app. cbn [seq map Nat.add].
    unfold pad_last. rewrite rev_app_distr. cbn [rev app]. rewrite rev_involutive. f_equal.
    - apply map_ext_in. intros i Hi. apply in_seq in Hi. unfold g. symmetry.
      apply window_app. rewrite app_length. nia.
    - f_equal. unfold g. set (X := hist ++ data). rewrite (skipn_app _ X).
      assert (length X = (length hist + length data)%nat) as LX by (unfold X; apply app_length).
      replace ((n - 1) * m - length X)%nat with O by nia. cbn [skipn].
      rewrite firstn_all2 by (rewrite skipn_length; nia).
      rewrite firstn_all2; [reflexivity|].
      rewrite app_length, skipn_length, repeat_length. nia.
  Qed.
End Split.

Lemma seq_plus k n : forall s, map (fun r => (k + r)%nat) (seq s n) = seq (k + s) n.
Proof.
  induction n as [|n IH]; intros s; [reflexivity|]. cbn [seq map]. f_equal. rewrite IH. f_equal. lia.
Qed.
Lemma concat_blocks {A} (f : nat -> A) m n :
  concat (map (fun j => map (fun r => f (j * m + r)%nat) (seq 0 m)) (seq 0 n)) = map f (seq 0 (n * m)).
Proof.
  induction n as [|n IH]; [reflexivity|].
  replace (S n) with (n + 1)%nat by lia. rewrite seq_app, map_app, concat_app, IH. cbn [seq map concat Nat.add].
  rewrite app_nil_r. replace ((n + 1) * m)%nat with (n * m + m)%nat by lia.
  rewrite seq_app, map_app. f_equal. cbn [Nat.add].
  replace (seq (n * m) m) with (seq (n * m + 0) m) by (f_equal; lia). rewrite <- seq_plus, map_map. reflexivity.
Qed.

Lemma skipn_map_seq {A} (f : nat -> A) s n : (s <= n)%nat -> skipn s (map f (seq 0 n)) = map (fun r => f (s + r)%nat) (seq 0 (n - s)).
Proof.
  intros H. replace n with (s + (n - s))%nat at 1 by lia. rewrite seq_app, map_app, skipn_app.
  rewrite skipn_all2 by (rewrite map_length, seq_length; lia).
  rewrite map_length, seq_length. replace (s - s)%nat with O by lia. cbn [skipn app Nat.add].
  replace (seq s (n - s)) with (seq (s + 0) (n - s)) by (f_equal; lia). rewrite <- seq_plus, map_map. reflexivity.
Qed.

(** ** C16: scores of a split regular series *)
Section Glue.
  Context {V S : Type}.
  Variable T : list V -> list V -> S.
  Variable zero : S.
  Variable one : V.
  Variables nc nt u : Z.
  Hypothesis Hu : 0 < u.
  Hypothesis Hnt : 1 <= nt.
  Hypothesis Hnc : 0 <= nc.

  Lemma combine_grid (times : list Z) (c : list V) t0 :
    times = map (fun i => t0 + Z.of_nat i * u) (seq 0 (length c)) -> combine times c = grid t0 u c.
  Proof.
    intros ->. rewrite <- grid_times. revert t0.
    induction c as [|x c IH]; intros t0; [reflexivity|]. cbn [grid map combine fst]. rewrite IH. reflexivity.
  Qed.
  Lemma combine_short {A B} (a : list A) (b : list B) : forall k, (length b <= k)%nat ->
    combine (firstn k a) b = combine a b.
  Proof.
    revert b. induction a as [|x a IH]; intros [|y b] [|k] H; simpl in *; try reflexivity; try lia.
    f_equal. apply IH. lia.
  Qed.

  (** scores of a regular series handed in without history *)
  Lemma fit_predict_grid t0 vals : vals <> [] ->
    map snd (fst (fit_predict T zero nc nt u None (grid t0 u vals)))
    = map (fun k => pos_score T zero nc nt vals (Z.of_nat k)) (seq 0 (length vals)).
  Proof using Hu Hnt Hnc.
    intros Hv. rewrite fit_predict_spec; try assumption.
    2:{ destruct vals; [congruence|discriminate]. }
    2:{ apply grid_increasing, Hu. }
    rewrite map_map. cbn [snd].
    assert (first_time None (grid t0 u vals) = t0) as Ef by (destruct vals; [congruence|reflexivity]).
    rewrite Ef. cbn [all_of].
    rewrite <- (map_map fst (fun t => expected_score T zero nc nt u (grid t0 u vals) t0 t)).
    rewrite grid_times, map_map. apply map_ext. intros k. apply expected_grid; try assumption. lia.
  Qed.

  Lemma py_drop_last {A} (l : list A) k : (0 < k <= length l)%nat ->
    py_slice l None (Some (- Z.of_nat k)) = firstn (length l - k) l.
  Proof.
    intros H. unfold py_slice, norm_idx. destruct (Z.ltb_spec (- Z.of_nat k) 0); [|lia].
    cbn [Z.to_nat skipn]. f_equal. lia.
  Qed.
  Lemma py_drop_none {A} (l : list A) : py_slice l None (Some (- Z.of_nat 0)) = [].
  Proof.
    unfold py_slice, norm_idx. change (- Z.of_nat 0) with 0. destruct (Z.ltb_spec 0 0); [lia|].
    replace (Z.to_nat (Z.min 0 (Z.of_nat (length l)) - 0)) with O by lia. reflexivity.
  Qed.

  (** the glued scores of [data], for a history of at least nc+nt-1 points *)
  Lemma glued (m : nat) (hist data : list V) t0 times :
    (0 < m)%nat -> (0 < length hist)%nat -> (0 < length data)%nat -> nc + nt - 1 <= Z.of_nat (length hist) ->
    (forall c : list V, length c = (length hist + m)%nat -> combine times c = grid t0 u c) ->
    let cols := big_columns one m hist data in
    let col_scores := map (fun c => map snd (fst (fit_predict T zero nc nt u None (combine times c)))) cols in
    let rem := remaining (length data) m in
    flatten_back (length hist) rem col_scores
    = if Nat.eqb rem 0 then []
      else map (fun i => pos_score T zero nc nt (hist ++ data) (Z.of_nat (length hist + i))) (seq 0 (length data)).
  Proof using Hu Hnt Hnc.
    intros Hm Hh Hd Hlen Ht. cbv zeta. set (rem := remaining (length data) m).
    pose proof (n_seq_spec (length data) m Hm) as [N1 N2].
    pose proof (remaining_spec (length data) m Hm) as Er. fold rem in Er.
    rewrite big_columns_spec by assumption. fold rem. set (n := n_seq (length data) m) in *.
    set (W := (hist ++ data) ++ repeat one rem).
    assert (length W = (length hist + n * m)%nat) as LW.
    { unfold W. rewrite !app_length, repeat_length. nia. }
    unfold flatten_back. rewrite !map_map.
    assert (concat (map (fun x => skipn (length hist) (map snd (fst (fit_predict T zero nc nt u None
              (combine times (firstn (length hist + m) (skipn (x * m) W))))))) (seq 0 n))
            = map (fun i => pos_score T zero nc nt W (Z.of_nat (length hist + i))) (seq 0 (n * m))) as Ec.
    { rewrite <- (concat_blocks (fun i => pos_score T zero nc nt W (Z.of_nat (length hist + i))) m n).
      f_equal. apply map_ext_in. intros j Hj. apply in_seq in Hj.
      assert (length (firstn (length hist + m) (skipn (j * m) W)) = (length hist + m)%nat) as Lc.
      { rewrite firstn_length, skipn_length, LW. nia. }
      rewrite Ht by exact Lc. rewrite fit_predict_grid.
      2:{ intros Hc. rewrite Hc in Lc. simpl in Lc. lia. }
      rewrite Lc. rewrite skipn_map_seq by lia. replace (length hist + m - length hist)%nat with m by lia.
      apply map_ext_in. intros r Hr. apply in_seq in Hr.
      rewrite pos_score_shift by lia. f_equal. lia. }
    rewrite Ec. clear Ec. destruct (Nat.eqb_spec rem 0) as [E0|N0].
    - rewrite E0. apply py_drop_none.
    - rewrite py_drop_last by (rewrite map_length, seq_length; nia).
      rewrite map_length, seq_length. replace (n * m - rem)%nat with (length data) by nia.
      rewrite firstn_map.
      replace (firstn (length data) (seq 0 (n * m))) with (seq 0 (length data)).
      2:{ replace (n * m)%nat with (length data + rem)%nat by nia. rewrite seq_app, firstn_app.
          rewrite seq_length. replace (length data - length data)%nat with O by lia.
          rewrite firstn_O, app_nil_r. symmetry. apply firstn_all2. rewrite seq_length. lia. }
      apply map_ext_in. intros i Hi. apply in_seq in Hi. unfold W.
      apply pos_score_local; try assumption. rewrite app_length. lia.
  Qed.

  Lemma grid_cut (vals : list V) : forall t0 k,
    filter (fun r => fst r <? t0 + Z.of_nat k * u) (grid t0 u vals) = grid t0 u (firstn k vals)
    /\ filter (fun r => t0 + Z.of_nat k * u <=? fst r) (grid t0 u vals)
       = grid (t0 + Z.of_nat (Nat.min k (length vals)) * u) u (skipn k vals).
  Proof using Hu.
    induction vals as [|v vs IH]; intros t0 k.
    - rewrite firstn_nil, skipn_nil. split; reflexivity.
    - cbn [grid filter fst]. destruct k as [|k].
      + destruct (Z.ltb_spec t0 (t0 + Z.of_nat 0 * u)); [lia|]. destruct (Z.leb_spec (t0 + Z.of_nat 0 * u) t0); [|lia].
        cbn [firstn skipn grid Nat.min]. split.
        * apply filter_none. intros y Hy. apply Z.ltb_ge.
          pose proof (grid_increasing u Hu (v :: vs) t0) as G. unfold increasing in G. cbn [grid map] in G.
          inversion G as [|? ? ? F]; subst. rewrite Forall_forall in F. specialize (F _ (in_map fst _ _ Hy)).
          cbn [fst] in F. lia.
        * replace (t0 + Z.of_nat 0 * u) with t0 by lia. f_equal.
          transitivity (filter (fun _ => true) (grid (t0 + u) u vs)).
          -- apply filter_ext_in. intros y Hy. apply Z.leb_le.
             pose proof (grid_increasing u Hu (v :: vs) t0) as G. unfold increasing in G. cbn [grid map] in G.
             inversion G as [|? ? ? F]; subst. rewrite Forall_forall in F. specialize (F _ (in_map fst _ _ Hy)).
             cbn [fst] in F. lia.
          -- clear. induction (grid (t0 + u) u vs) as [|x l IH]; simpl; [reflexivity|]. rewrite IH. reflexivity.
      + destruct (Z.ltb_spec t0 (t0 + Z.of_nat (Datatypes.S k) * u)); [|nia].
        destruct (Z.leb_spec (t0 + Z.of_nat (Datatypes.S k) * u) t0); [nia|].
        destruct (IH (t0 + u) k) as [I1 I2]. cbn [firstn skipn grid length].
        replace (t0 + Z.of_nat (Datatypes.S k) * u) with (t0 + u + Z.of_nat k * u) by nia.
        split; [rewrite I1; reflexivity|]. rewrite I2. f_equal. lia.
  Qed.
  Lemma grid_last t0 (vals : list V) : vals <> [] ->
    last_time (grid t0 u vals) = t0 + (Z.of_nat (length vals) - 1) * u.
  Proof.
    intros H. destruct (exists_last H) as [l [x ->]]. rewrite grid_app. unfold last_time.
    rewrite rev_app_distr. cbn [grid rev app fst]. rewrite app_length. simpl length. nia.
  Qed.
  Lemma grid_in_time t0 (vals : list V) r : In r (grid t0 u vals) ->
    exists i, (i < length vals)%nat /\ fst r = t0 + Z.of_nat i * u.
  Proof.
    revert t0. induction vals as [|v vs IH]; intros t0 H; [destruct H|]. cbn [grid] in H. destruct H as [<-|H].
    - exists O. split; [simpl; lia|]. cbn [fst]. lia.
    - destruct (IH _ H) as [i [Hi E]]. exists (Datatypes.S i). split; [simpl; lia|]. lia.
  Qed.
  Lemma grid_has t0 (vals : list V) : forall i, (i < length vals)%nat ->
    exists r, In r (grid t0 u vals) /\ fst r = t0 + Z.of_nat i * u.
  Proof.
    revert t0. induction vals as [|v vs IH]; intros t0 i Hi; [simpl in Hi; lia|]. destruct i as [|i].
    - exists (t0, v). split; [left; reflexivity|]. cbn [fst]. lia.
    - destruct (IH (t0 + u) i) as [r [Hr E]]; [simpl in Hi; lia|]. exists r. split; [right; exact Hr|]. lia.
  Qed.

  (** the user's regular history and data *)

  Lemma handle_grid t0 (vh vd : list V) given : (given = false -> vh = []) -> vd <> [] ->
    let h := grid_hist u t0 vh given in
    let d := grid (t0 + Z.of_nat (length vh) * u) u vd in
    let need := Z.to_nat (nc + nt - 1) in
    (should_update nc nt u h d = true <-> (need < length vh + length vd)%nat)
    /\ ((need < length vh + length vd)%nat ->
        exists vh' vd' user, handle_not_enough_history nc nt u h d
          = (grid (t0 + Z.of_nat (length vh') * u) u vd', grid t0 u vh', user)
          /\ vh' ++ vd' = vh ++ vd
          /\ length vh' = (if Nat.ltb need (length vh) then length vh else need)).
  Proof using Hu Hnt Hnc.
    intros Hg Hvd. cbv zeta. set (h := grid_hist u t0 vh given).
    set (d := grid (t0 + Z.of_nat (length vh) * u) u vd). set (need := Z.to_nat (nc + nt - 1)).
    assert (all_of h d = grid t0 u (vh ++ vd)) as Ea.
    { unfold h, grid_hist, d, all_of. destruct given.
      - rewrite grid_app. reflexivity.
      - rewrite (Hg eq_refl). cbn [length app Z.of_nat]. rewrite Z.mul_0_l, Z.add_0_r. reflexivity. }
    assert (d <> []) as Hd by (unfold d; destruct vd; [congruence|discriminate]).
    assert (first_time h d = t0) as Ef.
    { destruct vd as [|x0 xs]; [congruence|].
      rewrite (first_time_all h d Hd (0, x0)), Ea. destruct vh; reflexivity. }
    assert (last_time d = t0 + (Z.of_nat (length vh + length vd) - 1) * u) as El.
    { unfold d. rewrite grid_last by exact Hvd. lia. }
    assert (hist_list h = grid t0 u vh) as Eh.
    { unfold h, grid_hist. destruct given; [reflexivity|]. rewrite (Hg eq_refl). reflexivity. }
    split.
    - unfold should_update. rewrite Ef, El, Z.leb_le. unfold need. split; intros; nia.
    - intros Hneed. pose proof (handle_spec nc nt u h d Hd) as Hs. rewrite Ea in Hs.
      specialize (Hs (grid_increasing u Hu _ _)).
      destruct (handle_not_enough_history nc nt u h d) as [[data' hist'] user]. rewrite Ef, Eh in Hs.
      destruct Hs as [H1 [H2 [H3 H4]]].
      destruct (Nat.ltb_spec need (length vh)) as [Hlong|Hshort].
      + destruct H3 as [E1 [E2 E3]].
        { destruct (grid_has t0 vh need Hlong) as [r [Hr Er]]. exists r. split; [exact Hr|].
          rewrite Er. unfold need. nia. }
        exists vh, vd, user. rewrite E1, E2. split; [reflexivity|]. split; reflexivity.
      + destruct H4 as [E1 [E2 E3]].
        { intros [r [Hr Er]]. destruct (grid_in_time _ _ _ Hr) as [i [Hi Ei]]. rewrite Ei in Er. unfold need in *. nia. }
        exists (firstn need (vh ++ vd)), (skipn need (vh ++ vd)), user.
        destruct (grid_cut (vh ++ vd) t0 need) as [G1 G2].
        replace (t0 + (nc + nt - 1) * u) with (t0 + Z.of_nat need * u) in E1, E2 by (unfold need; nia).
        rewrite E1, E2, G1, G2. rewrite firstn_length.
        split; [reflexivity|]. split; [apply firstn_skipn|]. rewrite app_length. lia.
  Qed.

  Lemma combine_maps {A B C} (f : A -> B) (g : A -> C) l :
    combine (map f l) (map g l) = map (fun x => (f x, g x)) l.
  Proof. induction l as [|x l IH]; simpl; [reflexivity|]. rewrite IH. reflexivity. Qed.

  Lemma grid_freq t0 (vals : list V) : (2 <= length vals)%nat ->
    infer_freq_robust (MkSeries (grid t0 u vals) true) = Some u.
  Proof using Hu.
    intros H. apply (c28_majority _ (map fst (grid t0 u vals))).
    - intros _. apply strict_le, grid_increasing, Hu.
    - apply Permutation_refl.
    - apply strict_le, grid_increasing, Hu.
    - assert (gap_count u (map fst (grid t0 u vals)) = (length vals - 1)%nat) as ->.
      { clear H. revert t0. induction vals as [|v vs IH]; intros t0; [reflexivity|]. destruct vs as [|w ws]; [reflexivity|].
        specialize (IH (t0 + u)). cbn [grid map fst length] in *. cbn [gap_count].
        cbn [gap_count] in IH. rewrite IH. replace (t0 + u - t0) with u by lia. rewrite Z.eqb_refl. lia. }
      rewrite map_length, grid_length. lia.
  Qed.
  Lemma split_scores T0 t0 (vh vd : list V) given (m : nat) :
    (given = false -> vh = []) -> vd <> [] -> 1 <= nc -> 3 <= nc + nt -> (0 < m)%nat ->
    let h := grid_hist u t0 vh given in
    let d := grid (t0 + Z.of_nat (length vh) * u) u vd in
    let k := scored_points (Z.to_nat (nc + nt - 1)) (length vh) (length vd) in
    fit_predict_split T0 T zero one nc nt u m h d
    = Some (if Nat.ltb m k then
              if Nat.eqb (k mod m) 0 then map (fun r => (fst r, zero)) d
              else fst (fit_predict T zero nc nt u h d)
            else fst (fit_predict T0 zero nc nt u h d)).
  Proof using Hu Hnt Hnc.
    intros Hg Hvd Hnc1 Hn3 Hm. cbv zeta. assert (0 <= nc) as Hnc0 by lia.
    pose proof (handle_grid t0 vh vd given Hg Hvd) as HG. cbv zeta in HG.
    set (h := grid_hist u t0 vh given) in *. set (d := grid (t0 + Z.of_nat (length vh) * u) u vd) in *.
    set (need := Z.to_nat (nc + nt - 1)) in *.
    assert (all_of h d = grid t0 u (vh ++ vd)) as Ea.
    { unfold h, grid_hist, d, all_of. destruct given.
      - rewrite grid_app. reflexivity.
      - rewrite (Hg eq_refl). cbn [length app Z.of_nat]. rewrite Z.mul_0_l, Z.add_0_r. reflexivity. }
    assert (d <> []) as Hd by (unfold d; destruct vd; [congruence|discriminate]).
    assert (first_time h d = t0) as Ef.
    { rewrite (first_time_all h d Hd (hd (0, hd one vd) d)), Ea. destruct vh; [|reflexivity].
      destruct vd; [congruence|reflexivity]. }
    destruct HG as [HU HH]. unfold fit_predict_split.
    set (pos := fun i => pos_score T zero nc nt (vh ++ vd) (Z.of_nat i)).
    assert (fst (fit_predict T zero nc nt u h d)
            = combine (map fst d) (map (fun i => pos (length vh + i)%nat) (seq 0 (length vd)))) as EF.
    { rewrite fit_predict_spec; try assumption; [|rewrite Ea; apply grid_increasing, Hu].
      rewrite Ef, Ea. rewrite <- (combine_maps fst (fun r => expected_score T zero nc nt u (grid t0 u (vh ++ vd)) t0 (fst r))).
      f_equal. rewrite <- (map_map fst (fun t => expected_score T zero nc nt u (grid t0 u (vh ++ vd)) t0 t)).
      unfold d. rewrite grid_times, map_map. apply map_ext. intros i. unfold pos.
      rewrite <- (expected_grid T zero nc nt u Hu Hnt Hnc0 (vh ++ vd) t0) by lia. f_equal. lia. }
    assert (length d = length vd) as Ld by (unfold d; apply grid_length).
    destruct (should_update nc nt u h d) eqn:EU.
    - assert (need < length vh + length vd)%nat as Hneed by (apply HU; reflexivity).
      destruct (HH Hneed) as [vh' [vd' [user [E1 [E2 E3]]]]]. rewrite E1. rewrite !grid_values.
      assert (length vd' = scored_points need (length vh) (length vd)) as Lv.
      { assert (length vh' + length vd' = length vh + length vd)%nat as Lt
          by (rewrite <- !app_length, E2; reflexivity).
        unfold scored_points. destruct (Nat.ltb_spec need (length vh)); lia. }
      rewrite !grid_length.
      assert (0 < length vh')%nat as Lh' by (rewrite E3; destruct (Nat.ltb_spec need (length vh)); unfold need in *; lia).
      assert (need <= length vh')%nat as Lh2 by (rewrite E3; destruct (Nat.ltb_spec need (length vh)); lia).
      assert (length vh <= length vh')%nat as Lh3 by (rewrite E3; destruct (Nat.ltb_spec need (length vh)); lia).
      assert (length vh' + length vd' = length vh + length vd)%nat as Lt
          by (rewrite <- !app_length, E2; reflexivity).
      assert (0 < length vd')%nat as Lv0.
      { rewrite Lv. unfold scored_points. destruct (Nat.ltb_spec need (length vh)); [|lia].
        destruct vd; [congruence|simpl; lia]. }
      assert (length (grid (t0 + Z.of_nat (length vh') * u) u vd') = length vd') as Lg by apply grid_length.
      rewrite <- Lv.
      destruct (Nat.ltb_spec m (length vd')) as [Hfull|Hpart].
      + rewrite !grid_freq by lia. rewrite Z.eqb_refl. f_equal.
        rewrite (glued m vh' vd' t0); try assumption; try lia.
        2:{ intros c Hc. apply combine_grid. rewrite !grid_times, Hc, seq_app, map_app. f_equal.
            rewrite firstn_map. cbn [Nat.add].
            replace (firstn m (seq 0 (length vd'))) with (seq 0 m).
            2:{ replace (length vd') with (m + (length vd' - m))%nat by lia. rewrite seq_app, firstn_app, seq_length.
                replace (m - m)%nat with O by lia. rewrite firstn_O, app_nil_r. symmetry. apply firstn_all2.
                rewrite seq_length. lia. }
            replace (seq (length vh') m) with (seq (length vh' + 0) m) by (f_equal; lia).
            rewrite <- seq_plus, map_map. apply map_ext. intros i. lia. }
        rewrite E2.
        pose proof (remaining_zero (length vd') m Hm) as RZ.
        unfold back_scores.
        destruct (Nat.eqb_spec (remaining (length vd') m) 0) as [R0|R0];
          destruct (Nat.eqb_spec (length vd' mod m) 0) as [M0|M0]; try tauto.
        * cbn [length]. rewrite app_nil_r, Nat.sub_0_r, map_length.
          assert (combine (map fst d) (repeat zero (length d)) = map (fun r => (fst r, zero)) d) as Ez.
          { clear. induction d as [|x l IH]; simpl; [reflexivity|]. rewrite IH. reflexivity. }
          rewrite Ez. rewrite <- (map_length (fun r => (fst r, zero)) d). apply data_nonneg_last.
          -- unfold increasing. rewrite map_map. apply (grid_increasing u Hu).
          -- intros Hc. apply Hd. destruct d; [reflexivity|discriminate].
        * rewrite EF. rewrite !map_length, seq_length, Ld.
          assert (repeat zero (length vd - length vd')
                  ++ map (fun i => pos_score T zero nc nt (vh ++ vd) (Z.of_nat (length vh' + i))) (seq 0 (length vd'))
                  = map (fun i => pos (length vh + i)%nat) (seq 0 (length vd))) as Er.
          { replace (length vd) with ((length vd - length vd') + length vd')%nat at 2 by lia.
            rewrite seq_app, map_app. f_equal.
            - assert (forall i, In i (seq 0 (length vd - length vd')) -> pos (length vh + i)%nat = zero) as Hz.
              { intros i Hi. apply in_seq in Hi. unfold pos, pos_score.
                destruct (Z.ltb_spec (Z.of_nat (length vh + i)) (nc + nt - 1)); [reflexivity|].
                exfalso. revert E3. destruct (Nat.ltb_spec need (length vh)); unfold need in *; intros; lia. }
              rewrite (map_ext_in _ (fun _ => zero) _ Hz). clear.
              generalize 0%nat. generalize (length vd - length vd')%nat. 
              induction n as [|n IH]; intros s; simpl; [reflexivity|]. rewrite <- IH. reflexivity.
            - cbn [Nat.add]. replace (seq (length vd - length vd') (length vd')) with (seq ((length vd - length vd') + 0) (length vd')) by (f_equal; lia).
              rewrite <- seq_plus, map_map. apply map_ext. intros i. unfold pos. f_equal. lia. }
          rewrite Er. rewrite <- EF. rewrite <- Ld.
          assert (length (fst (fit_predict T zero nc nt u h d)) = length d) as LF.
          { rewrite EF, combine_length, !map_length, seq_length. lia. }
          rewrite <- LF. apply data_nonneg_last.
          -- unfold increasing. rewrite fit_predict_spec; try assumption; [|rewrite Ea; apply grid_increasing, Hu].
             rewrite map_map. cbn [fst]. apply (grid_increasing u Hu).
          -- intros Hc. rewrite Hc in LF. simpl in LF. destruct d; [congruence|discriminate].
      + f_equal. unfold fit_predict. rewrite EU, E1. reflexivity.
    - assert (~ (need < length vh + length vd)%nat) as Hneed by (intros Hc; apply HU in Hc; congruence).
      assert (scored_points need (length vh) (length vd) = O) as ->.
      { unfold scored_points. destruct (Nat.ltb_spec need (length vh)); lia. }
      destruct (Nat.ltb_spec m 0); [lia|]. f_equal. unfold fit_predict. rewrite EU. reflexivity.
  Qed.
End Glue.
