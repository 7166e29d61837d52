(** C283: the statistical significance detectors with removal of seasonality.  Read with
    StatSigSpec.v ([increasing], [all_of], [observed]). *)
From Coq Require Import QArith String.
From Verif Require Import Common PySlice TSDataModel TSDataProofs StatSigModel StatSigSpec StatSigProofs
  StatSigSeasonModel TsInterpProps DecompProps.
From Coq Require Import List Lia.
Open Scope Z_scope.

(** ** Specification *)

(** A decomposition gives one row of seasonal values and one row of the rest for each row. *)
Definition fits (handler : list (Z * list Q) -> option (list (list Q) * list (list Q))) : Prop :=
  forall l s d, handler l = Some (s, d) -> length s = length l /\ length d = length l.

(** The series with other values at the same times. *)
Definition replaced (l : list (Z * list Q)) (vs : list (list Q)) (l2 : list (Z * list Q)) : Prop :=
  map fst l2 = map fst l /\ map snd l2 = vs.

(** The response for time [t]: the numbers for the two windows that end at [t], over all
    the rows seen, with the prediction and the band moved up by the seasonal values. *)
Definition row_of (stat : list (list Q) -> list (list Q) -> list cell) (nc nt u : Z)
  (seen : list (Z * list Q)) (t : Z) : list cell :=
  stat (observed (fun x => (t - (nt - 1) * u <=? x) && (x <=? t))%bool seen)
       (observed (fun x => (t - (nt + nc - 1) * u <=? x) && (x <? t - (nt - 1) * u))%bool seen).
Definition moved (cells : list cell) (s : list Q) (out : list cell) : Prop :=
  length out = Nat.min (length cells) (length s)
  /\ forall i c x, nth_error cells i = Some c -> nth_error s i = Some x ->
       exists o, nth_error out i = Some o
         /\ c_score o = c_score c /\ c_mag o = c_mag c /\ c_sig o = c_sig c
         /\ c_pred o = (c_pred c + x)%Q /\ c_upper o = (c_upper c + x)%Q /\ c_lower o = (c_lower c + x)%Q.
(** The row before anything is computed: score 0, prediction and band at the value itself. *)
Definition untouched (v : list Q) (out : list cell) : Prop :=
  Forall2 (fun x o => c_score o = 0%Q /\ c_mag o = 0%Q /\ c_sig o = 0%Q
                      /\ c_pred o = x /\ c_upper o = x /\ c_lower o = x) v out.

(** ** Lemmas *)
Lemma zip_with_length {A B C} (f : A -> B -> C) : forall a b,
  length (zip_with f a b) = Nat.min (length a) (length b).
Proof. induction a as [|x a IH]; intros [|y b]; simpl; auto. Qed.
Lemma zip_with_nth {A B C} (f : A -> B -> C) : forall a b i x y,
  nth_error a i = Some x -> nth_error b i = Some y -> nth_error (zip_with f a b) i = Some (f x y).
Proof.
  induction a as [|h a IH]; intros [|k b] [|i] x y; simpl; intros Ha Hb; try discriminate.
  - congruence.
  - apply IH; assumption.
Qed.
Lemma moved_zip cells s : moved cells s (zip_with add_season_cell cells s).
Proof.
  split; [apply zip_with_length|]. intros i c x Hc Hx. exists (add_season_cell c x).
  split; [apply zip_with_nth; assumption|]. repeat split.
Qed.
Lemma untouched_init v : untouched v (map init_cell v).
Proof. unfold untouched. induction v; simpl; constructor; auto. repeat split. Qed.

Lemma map_fst_combine {A B} : forall (a : list A) (b : list B), length a = length b ->
  map fst (combine a b) = a /\ map snd (combine a b) = b.
Proof.
  induction a as [|x a IH]; intros [|y b] H; simpl in *; try discriminate; auto.
  destruct (IH b ltac:(congruence)) as [-> ->]. auto.
Qed.
Lemma replaced_with l vs : length vs = length l -> replaced l vs (with_values l vs).
Proof.
  intros H. unfold replaced, with_values. apply map_fst_combine. rewrite map_length. congruence.
Qed.
Lemma incr_same {A B} (l : list (Z * A)) (l' : list (Z * B)) : map fst l = map fst l' ->
  increasing l -> increasing l'.
Proof. unfold increasing. intros E H. rewrite <- E. exact H. Qed.

Lemma existsb_time t (ts : list Z) : existsb (Z.eqb t) ts = true <-> In t ts.
Proof.
  rewrite existsb_exists. split.
  - intros [x [Hx Ex]]. apply Z.eqb_eq in Ex. subst. exact Hx.
  - intros H. exists t. split; [exact H|apply Z.eqb_refl].
Qed.

Lemma last_n_id {A} (l : list (Z * A)) : increasing l -> l <> [] -> last_n l (length l) = l.
Proof. intros H Hn. apply data_nonneg_last; assumption. Qed.

Lemma init_rows_nth data i t v : nth_error data i = Some (t, v) ->
  nth_error (init_rows data) i = Some (t, map init_cell v).
Proof. intros H. unfold init_rows. exact (map_nth_error (fun r => (fst r, map init_cell (snd r))) i data H). Qed.
Lemma init_rows_fst data : map fst (init_rows data) = map fst data.
Proof. unfold init_rows. rewrite map_map. reflexivity. Qed.

(** the rows that are processed: those of the data from [first + (nc+nt-1)*u] on *)
Definition begins (nc nt u : Z) (hist : option (list (Z * list Q))) (data : list (Z * list Q)) : Z :=
  first_time hist data + (nc + nt - 1) * u.

Lemma handle_cut nc nt u (hist : option (list (Z * list Q))) data :
  data <> [] -> increasing (all_of hist data) ->
  let '(data', hist', _) := handle_not_enough_history nc nt u hist data in
  hist' ++ data' = all_of hist data
  /\ data' = filter (fun r => begins nc nt u hist data <=? fst r) data.
Proof.
  intros Hd Hi. pose proof (handle_spec nc nt u hist data Hd Hi) as H.
  destruct (handle_not_enough_history nc nt u hist data) as [[data' hist'] user].
  destruct H as [H1 [H2 [H3 H4]]]. split; [exact H1|]. unfold begins.
  set (st := first_time hist data + (nc + nt - 1) * u) in *.
  destruct (existsb (fun r0 => st <=? fst r0) (hist_list hist)) eqn:E.
  - apply existsb_exists in E. destruct E as [r0 [Hr0 E]]. apply Z.leb_le in E.
    destruct (H3 (ex_intro _ r0 (conj Hr0 E))) as [_ [-> _]].
    symmetry. clearbody st. clear - H2 Hi Hr0 E. unfold all_of in Hi. destruct hist as [h|]; [|destruct Hr0].
    apply incr_app in Hi. destruct Hi as [_ [_ Hi]]. cbn [hist_list] in Hr0.
    clear H2. induction data as [|x l IH]; [reflexivity|]. simpl.
    replace (st <=? fst x) with true.
    2:{ symmetry. apply Z.leb_le. specialize (Hi r0 x Hr0 (or_introl eq_refl)). lia. }
    f_equal. apply IH. intros a b Ha Hb. apply Hi; [exact Ha|right; exact Hb].
  - assert (~ exists r0, In r0 (hist_list hist) /\ st <= fst r0) as No.
    { intros [r0 [Hr0 Hle]]. assert (existsb (fun r => st <=? fst r) (hist_list hist) = true) as K.
      { apply existsb_exists. exists r0. split; [exact Hr0|]. apply Z.leb_le. exact Hle. }
      congruence. }
    destruct (H4 No) as [_ [-> _]]. unfold all_of. destruct hist as [h|]; [|reflexivity].
    rewrite filter_app. rewrite (filter_none _ h); [reflexivity|].
    intros x Hx. apply Z.leb_gt. destruct (Z.lt_ge_cases (fst x) st) as [?|?]; [assumption|].
    exfalso. apply No. exists x. split; [exact Hx|assumption].
Qed.

Lemma map_ext_init stat nc nt u L ts (A : list (Z * list Q)) :
  (forall r, In r A -> ~ In (fst r) ts) ->
  map (fun r : Z * list cell => if existsb (Z.eqb (fst r)) ts then (fst r, row_of stat nc nt u L (fst r)) else r)
    (init_rows A) = init_rows A.
Proof.
  intros H. transitivity (map (fun r : Z * list cell => r) (init_rows A)); [|apply map_id].
  apply map_ext_in. intros r Hr. destruct (existsb (Z.eqb (fst r)) ts) eqn:E; [|reflexivity].
  exfalso. apply existsb_time in E. unfold init_rows in Hr. apply in_map_iff in Hr.
  destruct Hr as [x [<- Hx]]. cbn [fst] in E. exact (H x Hx E).
Qed.
Lemma map_ext_done stat nc nt u L (D : list (Z * list Q)) ts :
  (forall r, In r D -> In (fst r) ts) ->
  map (fun r : Z * list cell => if existsb (Z.eqb (fst r)) ts then (fst r, row_of stat nc nt u L (fst r)) else r)
    (init_rows D) = map (fun r => (fst r, row_of stat nc nt u L (fst r))) D.
Proof.
  intros H. unfold init_rows. rewrite map_map. apply map_ext_in. intros r Hr. cbn [fst].
  replace (existsb (Z.eqb (fst r)) ts) with true; [reflexivity|].
  symmetry. apply existsb_time. apply H, Hr.
Qed.

Lemma add_season_app season A B : length season = length B ->
  add_season season (A ++ B)
  = A ++ zip_with (fun r s => (fst r, zip_with add_season_cell (snd r) s)) B season.
Proof.
  intros E. unfold add_season. rewrite app_length, E.
  replace (length A + length B - length B)%nat with (length A) by lia.
  rewrite firstn_app, skipn_app, firstn_all, skipn_all, Nat.sub_diag. cbn. rewrite app_nil_r. reflexivity.
Qed.
Lemma zip_fst B season : length season = length B ->
  map fst (zip_with (fun (r : Z * list cell) s => (fst r, zip_with add_season_cell (snd r) s)) B season) = map fst B.
Proof.
  revert season. induction B as [|b B IH]; intros [|s season] H; simpl in *; try discriminate; auto.
  f_equal. apply IH. congruence.
Qed.

Lemma combine_app_times (H D : list (Z * list Q)) h d : length h = length H ->
  with_values (H ++ D) (h ++ d) = with_values H h ++ with_values D d.
Proof.
  unfold with_values. revert h. induction H as [|x H IH]; intros [|y h] E; simpl in *; try discriminate; auto.
  f_equal. apply IH. congruence.
Qed.

Lemma processed_nonempty nc nt u hist (data : list (Z * list Q)) : data <> [] -> increasing data ->
  (should_update nc nt u hist data = true <->
   filter (fun r => begins nc nt u hist data <=? fst r) data <> []).
Proof.
  intros Hd Hi. unfold should_update. fold (begins nc nt u hist data). rewrite Z.leb_le. split.
  - intros H. destruct (last_time_in data Hd) as [r [Hr Er]]. rewrite Er in H.
    intros K. assert (In r (filter (fun r => begins nc nt u hist data <=? fst r) data)) as I.
    { apply filter_In. split; [exact Hr|]. apply Z.leb_le. exact H. }
    rewrite K in I. destruct I.
  - intros H. destruct (filter (fun r => begins nc nt u hist data <=? fst r) data) as [|r l] eqn:E; [congruence|].
    assert (In r (filter (fun r => begins nc nt u hist data <=? fst r) data)) as I by (rewrite E; left; reflexivity).
    apply filter_In in I. destruct I as [I1 I2]. apply Z.leb_le in I2.
    pose proof (last_time_max data r Hi I1). lia.
Qed.

(** Everything about an answer with removal of seasonality. *)
Lemma season_spec multi stat handler nc nt u split names hist data ans :
  0 < u -> 1 <= nt -> 0 <= nc -> data <> [] -> increasing (all_of hist data) -> fits handler ->
  fit_predict_season multi stat handler nc nt u split names hist data = Some ans ->
  let D := filter (fun r => begins nc nt u hist data <=? fst r) data in
  let A := filter (fun r => fst r <? begins nc nt u hist data) data in
  D <> [] ->
  exists H sD dD dH long,
    H ++ D = all_of hist data
    /\ handler D = Some (sD, dD)
    /\ (H = [] /\ dH = [] \/ exists sH, handler H = Some (sH, dH))
    /\ length dH = length H
    /\ (if multi then Some false else splits split (with_values H dH) (with_values D dD)) = Some long
    /\ a_rows ans = init_rows A
       ++ zip_with (fun r s => (fst r, zip_with add_season_cell (snd r) s))
            (if long then init_rows D
             else map (fun r => (fst r, row_of stat nc nt u (with_values (H ++ D) (dH ++ dD)) (fst r))) D) sD.
Proof.
  intros Hu Hnt Hnc Hd Hi Hfits Hrun D A HD.
  assert (increasing data) as Hid.
  { unfold all_of in Hi. destruct hist; [apply incr_app in Hi; tauto|exact Hi]. }
  unfold fit_predict_season in Hrun. destruct (Bool.eqb multi (Nat.eqb (length names) 1)); [discriminate|].
  rewrite (proj2 (processed_nonempty nc nt u hist data Hd Hid) HD) in Hrun.
  pose proof (handle_cut nc nt u hist data Hd Hi) as Hc.
  destruct (handle_not_enough_history nc nt u hist data) as [[data' hist'] user].
  destruct Hc as [Hc1 Hc2]. fold D in Hc2. subst data'.
  destruct (handler D) as [[sD dD]|] eqn:ED; [|discriminate].
  destruct (rest_of_history handler hist') as [dH|] eqn:EH; [|discriminate].
  destruct (Hfits _ _ _ ED) as [L1 L2].
  assert ((hist' = [] /\ dH = [] \/ exists sH, handler hist' = Some (sH, dH)) /\ length dH = length hist') as [K1 K2].
  { unfold rest_of_history in EH. destruct hist' as [|r l]; [injection EH as <-; auto|].
    destruct (handler (r :: l)) as [[sH d]|] eqn:E; [|discriminate]. injection EH as <-.
    destruct (Hfits _ _ _ E) as [_ L]. split; [right; exists sH; reflexivity|exact L]. }
  destruct (if multi then Some false else splits split (with_values hist' dH) (with_values D dD)) as [long|] eqn:EL; [|discriminate].
  injection Hrun as <-. cbn [a_rows].
  exists hist', sD, dD, dH, long.
  split; [exact Hc1|]. split; [reflexivity|]. split; [exact K1|]. split; [exact K2|]. split; [exact EL|].
  assert (data = A ++ D) as Hsplit by (symmetry; apply filter_split_lt; exact Hid).
  assert (map fst (with_values D dD) = map fst D) as FD by (apply replaced_with; exact L2).
  assert (map fst (with_values hist' dH) = map fst hist') as FH by (apply replaced_with; exact K2).
  assert ((if long then init_rows data
           else point_loop stat nc nt u (with_values hist' dH) (with_values D dD) (init_rows data))
          = init_rows A ++ (if long then init_rows D
             else map (fun r => (fst r, row_of stat nc nt u (with_values (hist' ++ D) (dH ++ dD)) (fst r))) D)) as ->.
  { destruct long.
    - rewrite Hsplit at 1. unfold init_rows. rewrite map_app. reflexivity.
    - assert (increasing (with_values hist' dH ++ with_values D dD)) as HI.
      { apply (incr_same (all_of hist data)); [|exact Hi]. rewrite <- Hc1, !map_app, FD, FH. reflexivity. }
      rewrite (point_loop_spec stat nc nt u Hu Hnt (with_values D dD) (with_values hist' dH) (init_rows data) HI).
      rewrite <- (combine_app_times hist' D dH dD K2).
      rewrite FD.
      assert (init_rows data = init_rows A ++ init_rows D) as ->
        by (rewrite Hsplit at 1; unfold init_rows; apply map_app).
      rewrite map_app. f_equal.
      + apply (map_ext_init stat nc nt u). intros r Hr Hin. apply in_map_iff in Hin. destruct Hin as [x [Ex Hx]].
        unfold A in Hr. apply filter_In in Hr. unfold D in Hx. apply filter_In in Hx.
        destruct Hr as [_ Hr], Hx as [_ Hx]. apply Z.ltb_lt in Hr. apply Z.leb_le in Hx. lia.
      + apply (map_ext_done stat nc nt u). intros r Hr. apply in_map, Hr. }
  set (B := if long then init_rows D else _).
  assert (length B = length D) as LB.
  { unfold B. destruct long; [unfold init_rows|]; rewrite map_length; reflexivity. }
  assert (map fst B = map fst D) as FB.
  { unfold B. destruct long; [apply init_rows_fst|]. rewrite map_map. reflexivity. }
  rewrite add_season_app by congruence.
  set (out := init_rows A ++ _).
  assert (map fst out = map fst data) as Fout.
  { unfold out. rewrite map_app, init_rows_fst, zip_fst by congruence. rewrite FB, <- map_app, <- Hsplit. reflexivity. }
  replace (length data) with (length out)
    by (rewrite <- (map_length fst out), Fout, map_length; reflexivity).
  apply last_n_id.
  - apply (incr_same data); [symmetry; exact Fout|exact Hid].
  - intros Eo. rewrite Eo in Fout. destruct data; [congruence|discriminate].
Qed.

Lemma nth_app_cases {A} (a b : list A) i x : nth_error (a ++ b) i = Some x ->
  (i < length a)%nat /\ nth_error a i = Some x
  \/ exists j, i = (length a + j)%nat /\ nth_error b j = Some x.
Proof.
  intros H. destruct (Nat.lt_ge_cases i (length a)) as [Hl|Hl].
  - left. rewrite nth_error_app1 in H by exact Hl. auto.
  - right. exists (i - length a)%nat. split; [lia|]. rewrite nth_error_app2 in H by exact Hl. exact H.
Qed.

Lemma rows_of_answer nc nt u hist (data : list (Z * list Q)) (out : list (Z * list cell)) B sD :
  let D := filter (fun r => begins nc nt u hist data <=? fst r) data in
  let A := filter (fun r => fst r <? begins nc nt u hist data) data in
  increasing data -> length sD = length D ->
  out = init_rows A ++ zip_with (fun r s => (fst r, zip_with add_season_cell (snd r) s)) B sD ->
  forall P : Z -> list Q -> list cell -> Prop,
  length B = length D -> (forall j t v, nth_error D j = Some (t, v) -> exists c, nth_error B j = Some (t, c) /\ P t v c) ->
  map fst out = map fst data
  /\ forall i t v, nth_error data i = Some (t, v) ->
     (t < begins nc nt u hist data ->
        exists o, nth_error out i = Some (t, o) /\ untouched v o)
     /\ (begins nc nt u hist data <= t ->
        exists j s c o, nth_error D j = Some (t, v) /\ nth_error sD j = Some s /\ P t v c
          /\ nth_error out i = Some (t, o) /\ moved c s o).
Proof.
  intros D A Hid LD Eo P LB HB.
  assert (data = A ++ D) as Hsplit by (symmetry; apply filter_split_lt; exact Hid).
  assert (map fst B = map fst D) as FB.
  { apply list_ext; [rewrite !map_length; exact LB|]. intros j x y Hx Hy.
    rewrite nth_error_map in Hx, Hy. destruct (nth_error D j) as [[t v]|] eqn:ED; [|discriminate].
    destruct (HB j t v ED) as [c [Hc _]]. rewrite Hc in Hx. cbn in Hx, Hy. congruence. }
  split.
  { rewrite Eo, map_app, init_rows_fst, zip_fst by congruence. rewrite FB, <- map_app, <- Hsplit. reflexivity. }
  intros i t v Hi. rewrite Hsplit in Hi. apply nth_app_cases in Hi.
  assert (length (init_rows A) = length A) as LA by (unfold init_rows; apply map_length).
  destruct Hi as [[Hl Hn]|[j [-> Hn]]].
  - split.
    + intros _. exists (map init_cell v). split; [|apply untouched_init].
      rewrite Eo, nth_error_app1 by lia. apply init_rows_nth, Hn.
    + intros Hge. exfalso. apply nth_error_In in Hn. unfold A in Hn. apply filter_In in Hn.
      destruct Hn as [_ Hn]. apply Z.ltb_lt in Hn. cbn [fst] in Hn. lia.
  - split.
    + intros Hlt. exfalso. apply nth_error_In in Hn. unfold D in Hn. apply filter_In in Hn.
      destruct Hn as [_ Hn]. apply Z.leb_le in Hn. cbn [fst] in Hn. lia.
    + intros _. destruct (HB j t v Hn) as [c [Hc HP]].
      assert (j < length D)%nat as Hj by (apply nth_error_Some; rewrite Hn; discriminate).
      destruct (nth_error sD j) as [s|] eqn:Es.
      2:{ exfalso. apply nth_error_None in Es. lia. }
      exists j, s, c, (zip_with add_season_cell c s).
      split; [exact Hn|]. split; [exact Es|]. split; [exact HP|].
      split; [|apply moved_zip].
      rewrite Eo, nth_error_app2 by lia. rewrite LA.
      replace (length A + j - length A)%nat with j by lia.
      exact (zip_with_nth _ _ _ _ _ _ Hc Es).
Qed.

(** C283: with rem_season the response has the times of the data.  A row before the first
    time with a full history keeps score 0 and its own value.  A later row has the numbers
    of the two windows over the rest that [SeasonalityHandler] leaves of the history and
    of the data, each decomposed on its own, and its prediction and band are moved by the
    seasonal value of that row.  Proved when the data from there on are not longer than
    max_split_ts_length (or use_corrected_scores is off). *)
Theorem C283_season_partial : forall multi stat handler nc nt u split names hist data ans,
  0 < u -> 1 <= nt -> 0 <= nc -> data <> [] -> increasing (all_of hist data) -> fits handler ->
  let start := first_time hist data + (nc + nt - 1) * u in
  let D := filter (fun r => start <=? fst r) data in
  D <> [] ->
  (multi = true \/ split = None \/ exists m, split = Some m /\ (length D <= m)%nat) ->
  fit_predict_season multi stat handler nc nt u split names hist data = Some ans ->
  exists H sD dD dH H2 D2,
    H ++ D = all_of hist data
    /\ handler D = Some (sD, dD) /\ (H = [] /\ dH = [] \/ exists sH, handler H = Some (sH, dH))
    /\ replaced H dH H2 /\ replaced D dD D2
    /\ map fst (a_rows ans) = map fst data
    /\ forall i t v, nth_error data i = Some (t, v) ->
       (t < start -> exists o, nth_error (a_rows ans) i = Some (t, o) /\ untouched v o)
       /\ (start <= t -> exists j s o,
             nth_error D j = Some (t, v) /\ nth_error sD j = Some s
             /\ nth_error (a_rows ans) i = Some (t, o)
             /\ moved (row_of stat nc nt u (H2 ++ D2) t) s o).
Proof.
  intros multi stat handler nc nt u split names hist data ans Hu Hnt Hnc Hd Hi Hf start D HD Hshort Hrun.
  assert (increasing data) as Hid.
  { unfold all_of in Hi. destruct hist; [apply incr_app in Hi; tauto|exact Hi]. }
  destruct (season_spec multi stat handler nc nt u split names hist data ans Hu Hnt Hnc Hd Hi Hf Hrun HD)
    as [H [sD [dD [dH [long [E1 [E2 [E3 [E4 [E5 E6]]]]]]]]]].
  unfold begins in E2, E5, E6, E1. fold start D in E1, E2, E5, E6.
  destruct (Hf _ _ _ E2) as [L1 L2].
  assert (long = false) as ->.
  { destruct Hshort as [->|[->|[m [-> Hm]]]].
    - injection E5 as <-. reflexivity.
    - destruct multi; injection E5 as <-; reflexivity.
    - destruct multi; [injection E5 as <-; reflexivity|]. unfold splits in E5.
      assert (length (with_values D dD) = length D) as LW
        by (unfold with_values; rewrite combine_length, map_length; lia).
      rewrite LW in E5. destruct (Nat.ltb_spec m (length D)); [lia|]. injection E5 as <-. reflexivity. }
  exists H, sD, dD, dH, (with_values H dH), (with_values D dD).
  split; [exact E1|]. split; [exact E2|]. split; [exact E3|].
  split; [apply replaced_with; exact E4|]. split; [apply replaced_with; exact L2|].
  rewrite (combine_app_times H D dH dD E4) in E6.
  set (L := with_values H dH ++ with_values D dD) in *.
  pose proof (rows_of_answer nc nt u hist data (a_rows ans)
    (map (fun r => (fst r, row_of stat nc nt u L (fst r))) D) sD Hid L1 E6
    (fun t _ c => c = row_of stat nc nt u L t)) as R.
  unfold begins in R. fold start D in R.
  destruct R as [R1 R2]; [apply map_length| |].
  { intros j t v Hj. exists (row_of stat nc nt u L t). split; [|reflexivity].
    exact (map_nth_error (fun r => (fst r, row_of stat nc nt u L (fst r))) j D Hj). }
  split; [exact R1|]. intros i t v Hn. destruct (R2 i t v Hn) as [Ra Rb].
  split; [exact Ra|]. intros Hge. destruct (Rb Hge) as [j [s [c [o [K1 [K2 [-> [K4 K5]]]]]]]].
  exists j, s, o. auto.
Qed.

(** C283: the whole of a part is decomposed, so the call raises unless
    [SeasonalityHandler] accepts the processed rows and the history before them; one row
    arriving after any amount of history is refused like any other short part. *)
Theorem C283_raises : forall multi stat handler nc nt u split names hist data,
  0 < u -> 1 <= nt -> 0 <= nc -> data <> [] -> increasing (all_of hist data) ->
  let start := first_time hist data + (nc + nt - 1) * u in
  let D := filter (fun r => start <=? fst r) data in
  D <> [] ->
  (handler D = None \/ exists H, H <> [] /\ H ++ D = all_of hist data /\ handler H = None) ->
  fit_predict_season multi stat handler nc nt u split names hist data = None.
Proof.
  intros multi stat handler nc nt u split names hist data Hu Hnt Hnc Hd Hi start D HD Hno.
  assert (increasing data) as Hid.
  { unfold all_of in Hi. destruct hist; [apply incr_app in Hi; tauto|exact Hi]. }
  unfold fit_predict_season. destruct (Bool.eqb multi (Nat.eqb (length names) 1)); [reflexivity|].
  rewrite (proj2 (processed_nonempty nc nt u hist data Hd Hid) HD).
  pose proof (handle_cut nc nt u hist data Hd Hi) as Hc.
  destruct (handle_not_enough_history nc nt u hist data) as [[data' hist'] user].
  destruct Hc as [Hc1 Hc2]. unfold begins in Hc2. fold start D in Hc2. subst data'.
  destruct Hno as [->|[H [Hne [HE Hno]]]]; [reflexivity|].
  rewrite <- HE in Hc1. apply app_inv_tail in Hc1. subst hist'.
  destruct (handler D) as [[sD dD]|]; [|reflexivity].
  unfold rest_of_history. destruct H; [congruence|]. rewrite Hno. reflexivity.
Qed.

Lemma regular_app {A} f (a b : list (Z * A)) : regular f (map fst (a ++ b)) ->
  regular f (map fst a) /\ regular f (map fst b).
Proof.
  rewrite map_app. intros R. split; intros i x y Hx Hy.
  - apply (R i); rewrite nth_error_app1; try assumption; apply nth_error_Some; congruence.
  - apply (R (length (map fst a) + i)%nat).
    + rewrite nth_error_app2 by lia. replace (length (map fst a) + i - length (map fst a))%nat with i by lia. exact Hx.
    + rewrite nth_error_app2 by lia.
      replace (Datatypes.S (length (map fst a) + i) - length (map fst a))%nat with (Datatypes.S i) by lia. exact Hy.
Qed.

(** C283 refuted: with rem_season and an evenly spaced series long enough to be split, every score of the
    answer is 0, and every prediction is the value itself plus the seasonal value,
    whatever the windows say. *)
Theorem C283_long_refuted : forall stat handler nc nt u m names hist data ans,
  0 < u -> 1 <= nt -> 0 <= nc -> data <> [] -> increasing (all_of hist data) -> fits handler ->
  let start := first_time hist data + (nc + nt - 1) * u in
  let D := filter (fun r => start <=? fst r) data in
  D <> [] -> (m < length D)%nat ->
  fit_predict_season false stat handler nc nt u (Some m) names hist data = Some ans ->
  (exists f, regular f (map fst (all_of hist data))) ->
  exists sD dD, handler D = Some (sD, dD)
  /\ forall i t v, nth_error data i = Some (t, v) ->
     exists o, nth_error (a_rows ans) i = Some (t, o)
       /\ Forall (fun c => c_score c = 0%Q /\ c_mag c = 0%Q /\ c_sig c = 0%Q) o
       /\ (start <= t -> exists j s base, nth_error D j = Some (t, v) /\ nth_error sD j = Some s
             /\ untouched v base /\ moved base s o).
Proof.
  intros stat handler nc nt u m names hist data ans Hu Hnt Hnc Hd Hi Hf start D HD Hm Hrun [f Hfreq].
  assert (increasing data) as Hid.
  { unfold all_of in Hi. destruct hist; [apply incr_app in Hi; tauto|exact Hi]. }
  destruct (season_spec false stat handler nc nt u (Some m) names hist data ans Hu Hnt Hnc Hd Hi Hf Hrun HD)
    as [H [sD [dD [dH [long [E1 [E2 [E3 [E4 [E5 E6]]]]]]]]]].
  unfold begins in E2, E5, E6, E1. fold start D in E1, E2, E5, E6.
  destruct (Hf _ _ _ E2) as [L1 L2].
  assert (long = true) as ->.
  { unfold splits in E5.
    assert (length (with_values D dD) = length D) as LW
      by (unfold with_values; rewrite combine_length, map_length; lia).
    rewrite LW in E5. destruct (Nat.ltb_spec m (length D)); [|lia].
    rewrite <- E1 in Hfreq. destruct (regular_app f H D Hfreq) as [R1 R2].
    rewrite <- (proj1 (replaced_with H dH E4)) in R1. rewrite <- (proj1 (replaced_with D dD L2)) in R2.
    unfold infer_freq_robust, times in E5. cbn [rows sort_flag] in E5.
    destruct (Nat.leb (length (with_values H dH)) 1); [discriminate|].
    destruct (mode0 (diffs (map fst (with_values H dH)))) as [f1|] eqn:M1; [|discriminate].
    destruct (Nat.leb (length (with_values D dD)) 1); [discriminate|].
    destruct (mode0 (diffs (map fst (with_values D dD)))) as [f2|] eqn:M2; [|discriminate].
    apply (mode_regular f) in M1; [|exact R1]. apply (mode_regular f) in M2; [|exact R2]. subst f1 f2.
    rewrite Z.eqb_refl in E5. injection E5 as <-. reflexivity. }
  exists sD, dD. split; [exact E2|].
  pose proof (rows_of_answer nc nt u hist data (a_rows ans) (init_rows D) sD Hid L1 E6
    (fun _ v c => c = map init_cell v)) as R.
  unfold begins in R. fold start D in R.
  destruct R as [_ R2]; [unfold init_rows; apply map_length| |].
  { intros j t v Hj. exists (map init_cell v). split; [apply init_rows_nth; exact Hj|reflexivity]. }
  assert (forall v o, untouched v o -> Forall (fun c => c_score c = 0%Q /\ c_mag c = 0%Q /\ c_sig c = 0%Q) o) as U.
  { intros v o Hu'. unfold untouched in Hu'. induction Hu' as [|x c v' o' Hx _ IH]; constructor; [tauto|exact IH]. }
  intros i t v Hn. destruct (R2 i t v Hn) as [Ra Rb].
  destruct (Z.lt_ge_cases t start) as [Hlt|Hge].
  - destruct (Ra Hlt) as [o [Ho Hu']]. exists o. split; [exact Ho|]. split; [apply (U v), Hu'|]. lia.
  - destruct (Rb Hge) as [j [s [c [o [K1 [K2 [-> [K4 K5]]]]]]]]. exists o. split; [exact K4|]. split.
    + apply Forall_forall. intros c Hc. destruct (In_nth_error o c Hc) as [k Hk].
      destruct K5 as [KL KN]. assert (k < length o)%nat as Hkl by (apply nth_error_Some; rewrite Hk; discriminate).
      destruct (nth_error (map init_cell v) k) as [c0|] eqn:Ec0; [|apply nth_error_None in Ec0; lia].
      destruct (nth_error s k) as [x|] eqn:Ex; [|apply nth_error_None in Ex; lia].
      destruct (KN k c0 x Ec0 Ex) as [o' [Ho' [S1 [S2 [S3 _]]]]]. assert (o' = c) as -> by congruence.
      rewrite nth_error_map in Ec0. destruct (nth_error v k); [|discriminate]. cbn in Ec0. injection Ec0 as <-.
      rewrite S1, S2, S3. cbn. auto.
    + intros _. exists j, s, (map init_cell v). split; [exact K1|]. split; [exact K2|].
      split; [apply untouched_init|exact K5].
Qed.

(** C283 refuted: the prediction and the band of the multivariate detector lose the names
    of the series when seasonality is removed; the scores keep them. *)
Theorem C283_names_refuted : forall stat handler nc nt u split names hist data ans,
  0 < u -> data <> [] -> increasing data ->
  (exists r, In r data /\ first_time hist data + (nc + nt - 1) * u <= fst r) ->
  fit_predict_season true stat handler nc nt u split names hist data = Some ans ->
  a_score_names ans = map Named names /\ length (a_band_names ans) = length names
  /\ forall i s, nth_error (a_band_names ans) i <> Some (Named s).
Proof.
  intros stat handler nc nt u split names hist data ans Hu Hd Hid [r [Hr Hge]] Hrun.
  unfold fit_predict_season in Hrun. destruct (Bool.eqb true (Nat.eqb (length names) 1)); [discriminate|].
  assert (filter (fun r => begins nc nt u hist data <=? fst r) data <> []) as HD.
  { intros K. assert (In r (filter (fun r => begins nc nt u hist data <=? fst r) data)) as I.
    { apply filter_In. split; [exact Hr|]. apply Z.leb_le. exact Hge. }
    rewrite K in I. destruct I. }
  rewrite (proj2 (processed_nonempty nc nt u hist data Hd Hid) HD) in Hrun.
  destruct (handle_not_enough_history nc nt u hist data) as [[data' hist'] user].
  destruct (handler data') as [[sD dD]|]; [|discriminate].
  destruct (rest_of_history handler hist'); [|discriminate].
  injection Hrun as <-. cbn [a_score_names a_band_names].
  split; [reflexivity|]. split; [rewrite map_length, seq_length; reflexivity|].
  intros i s K. rewrite nth_error_map in K. destruct (nth_error (seq 0 (length names)) i); discriminate.
Qed.

(** C283: the multivariate detector without removal of seasonality: the columns and times of
    the data; before the first time with a full history the row is untouched, from there
    on it holds the numbers of the two windows; one column alone is refused. *)
Theorem C283_multi : forall stat nc nt u names hist data,
  0 < u -> 1 <= nt -> 0 <= nc -> data <> [] -> increasing (all_of hist data) ->
  let start := first_time hist data + (nc + nt - 1) * u in
  (length names = 1%nat -> fit_predict_multi stat nc nt u names hist data = None)
  /\ (length names <> 1%nat -> exists ans,
      fit_predict_multi stat nc nt u names hist data = Some ans
      /\ a_score_names ans = map Named names /\ a_band_names ans = map Named names
      /\ map fst (a_rows ans) = map fst data
      /\ forall i t v, nth_error data i = Some (t, v) ->
         exists o, nth_error (a_rows ans) i = Some (t, o)
           /\ (t < start -> untouched v o)
           /\ (start <= t -> o = row_of stat nc nt u (all_of hist data) t)).
Proof.
  intros stat nc nt u names hist data Hu Hnt Hnc Hd Hi start.
  assert (increasing data) as Hid.
  { unfold all_of in Hi. destruct hist; [apply incr_app in Hi; tauto|exact Hi]. }
  unfold fit_predict_multi. split.
  { intros ->. reflexivity. }
  intros Hn. destruct (Nat.eqb_spec (length names) 1) as [|_]; [contradiction|].
  destruct (should_update nc nt u hist data) eqn:Eup.
  - pose proof (proj1 (processed_nonempty nc nt u hist data Hd Hid) Eup) as HD.
    pose proof (handle_cut nc nt u hist data Hd Hi) as Hc.
    destruct (handle_not_enough_history nc nt u hist data) as [[data' hist'] user].
    destruct Hc as [Hc1 Hc2].
    eexists. split; [reflexivity|]. cbn [a_rows a_score_names a_band_names].
    split; [reflexivity|]. split; [reflexivity|].
    rewrite (point_loop_spec stat nc nt u Hu Hnt) by (rewrite Hc1; exact Hi). rewrite Hc1.
    set (F := fun r : Z * list cell => _).
    assert (map fst (map F (init_rows data)) = map fst data) as Fm.
    { rewrite map_map. rewrite <- init_rows_fst. apply map_ext. intros r. unfold F.
      destruct (existsb (Z.eqb (fst r)) (map fst data')); reflexivity. }
    replace (length data) with (length (map F (init_rows data)))
      by (rewrite <- (map_length fst (map F (init_rows data))), Fm, map_length; reflexivity).
    rewrite last_n_id.
    2:{ apply (incr_same data); [symmetry; exact Fm|exact Hid]. }
    2:{ intros K. rewrite K in Fm. destruct data; [congruence|discriminate]. }
    split; [exact Fm|]. intros i t v Hnth.
    rewrite (map_nth_error F i (init_rows data) (init_rows_nth _ _ _ _ Hnth)).
    exists (if existsb (Z.eqb t) (map fst data') then row_of stat nc nt u (all_of hist data) t else map init_cell v).
    split; [unfold F; cbn [fst]; destruct (existsb (Z.eqb t) (map fst data')); reflexivity|].
    assert (existsb (Z.eqb t) (map fst data') = (start <=? t)) as ->.
    { destruct (Z.leb_spec start t) as [Hle|Hlt].
      - apply existsb_time. apply in_map_iff. exists (t, v). split; [reflexivity|].
        rewrite Hc2. apply filter_In. split; [apply (nth_error_In data i), Hnth|]. apply Z.leb_le. exact Hle.
      - destruct (existsb (Z.eqb t) (map fst data')) eqn:E; [|reflexivity].
        exfalso. apply existsb_time in E. apply in_map_iff in E. destruct E as [x [Ex Hx]].
        rewrite Hc2 in Hx. apply filter_In in Hx. destruct Hx as [_ Hx]. apply Z.leb_le in Hx.
        unfold begins in Hx. fold start in Hx. lia. }
    destruct (Z.leb_spec start t) as [Hle|Hlt].
    + split; [lia|]. intros _. reflexivity.
    + split; [intros _; apply untouched_init|lia].
  - eexists. split; [reflexivity|]. cbn [a_rows a_score_names a_band_names].
    split; [reflexivity|]. split; [reflexivity|]. split; [apply init_rows_fst|].
    intros i t v Hnth. exists (map init_cell v). split; [apply init_rows_nth; exact Hnth|].
    split; [intros _; apply untouched_init|]. intros Hle. exfalso.
    assert (filter (fun r => begins nc nt u hist data <=? fst r) data <> []) as HD.
    { intros K. assert (In (t, v) (filter (fun r => begins nc nt u hist data <=? fst r) data)) as I.
      { apply filter_In. split; [apply (nth_error_In data i), Hnth|]. apply Z.leb_le. exact Hle. }
      rewrite K in I. destruct I. }
    apply (proj2 (processed_nonempty nc nt u hist data Hd Hid)) in HD. congruence.
Qed.

(** C283: the univariate detector refuses several columns, the multivariate one refuses a
    single column; before the first full window the answer is untouched rows, whatever the
    decomposition does. *)
Theorem C283_kind : forall (multi : bool) stat handler nc nt u split names hist data,
  (if multi then length names = 1%nat else length names <> 1%nat) ->
  fit_predict_season multi stat handler nc nt u split names hist data = None.
Proof.
  intros multi stat handler nc nt u split names hist data H. unfold fit_predict_season.
  destruct multi; [rewrite H; reflexivity|].
  apply Nat.eqb_neq in H. rewrite H. reflexivity.
Qed.
Theorem C283_quiet : forall (multi : bool) stat handler nc nt u split names
  (hist : option (list (Z * list Q))) (data : list (Z * list Q)),
  (if multi then length names <> 1%nat else length names = 1%nat) ->
  data <> [] -> (forall r, In r data -> fst r < first_time hist data + (nc + nt - 1) * u) ->
  exists ans, fit_predict_season multi stat handler nc nt u split names hist data = Some ans
    /\ a_score_names ans = map Named names /\ a_band_names ans = map Named names
    /\ Forall2 (fun r o => fst o = fst r /\ untouched (snd r) (snd o)) data (a_rows ans).
Proof.
  intros multi stat handler nc nt u split names hist data H Hd Hlt. unfold fit_predict_season.
  replace (Bool.eqb multi (Nat.eqb (length names) 1)) with false.
  2:{ destruct multi; [apply Nat.eqb_neq in H|apply Nat.eqb_eq in H]; rewrite H; reflexivity. }
  replace (should_update nc nt u hist data) with false.
  2:{ symmetry. unfold should_update. apply Z.leb_gt. destruct (last_time_in data Hd) as [r [Hr ->]]. apply Hlt, Hr. }
  eexists. split; [reflexivity|]. cbn [a_rows a_score_names a_band_names].
  split; [reflexivity|]. split; [reflexivity|]. clear. unfold init_rows.
  induction data as [|r l IH]; simpl; constructor; [|exact IH]. split; [reflexivity|apply untouched_init].
Qed.

(** ** A concrete case: a week of seasonality 1, 2, 3, ... on a level.
    The handler of the case takes the day of the week off and refuses fewer than 7 rows. *)
Definition day_value (t : Z) : Q := inject_Z (t mod 7).
Definition case_handler (l : list (Z * list Q)) : option (list (list Q) * list (list Q)) :=
  if Nat.ltb (length l) 7 then None
  else Some (map (fun r => map (fun _ => day_value (fst r)) (snd r)) l,
             map (fun r => map (fun v => Qred (v - day_value (fst r))) (snd r)) l).
Definition case_data (n : nat) : list (Z * list Q) :=
  map (fun k => let t := Z.of_nat k in
        (t, [Qred (day_value t + (if t <? 12 then 10 else 20)%Q)])) (seq 0 n).
Definition case_mean (l : list (list Q)) : Q :=
  Qred (fold_right Qplus 0%Q (map (fun r => nth 0 r 0%Q) l) / inject_Z (Z.of_nat (length l))).
Definition case_stat (test control : list (list Q)) : list cell :=
  let d := Qred (case_mean test - case_mean control) in
  [MkCell d (Qred (case_mean control + 1)) (Qred (case_mean control - 1)) (case_mean control) d
     (if Qle_bool 5 d then 1%Q else 0%Q)].

Lemma case_fits : fits case_handler.
Proof.
  intros l s d H. unfold case_handler in H. destruct (Nat.ltb (length l) 7); [discriminate|].
  injection H as <- <-. rewrite !map_length. auto.
Qed.

(** 20 rows, control 6, test 2: the first seven rows have no full window. *)
Example C283_case :
  (length (case_data 20) = 20%nat /\ increasing (all_of None (case_data 20)))
  /\ (exists ans, fit_predict_season false case_stat case_handler 6 2 1 None ["value"%string] None (case_data 20) = Some ans
       /\ option_map (fun r => map c_score (snd r)) (nth_error (a_rows ans) 13) = Some [10%Q]
       /\ option_map (fun r => map (fun c => Qred (c_pred c)) (snd r)) (nth_error (a_rows ans) 13) = Some [16%Q])
  /\ (exists ans, fit_predict_season false case_stat case_handler 6 2 1 (Some 5%nat) ["value"%string] None (case_data 20) = Some ans
       /\ Forall (fun r => Forall (fun c => c_score c = 0%Q) (snd r)) (a_rows ans))
  /\ fit_predict_season false case_stat case_handler 6 2 1 None ["value"%string]
       (Some (case_data 19)) (skipn 19 (case_data 20)) = None
  /\ regular 1 (map fst (all_of None (case_data 20))).
Proof.
  split; [split; [reflexivity|]|].
  { unfold increasing, case_data. cbn. repeat constructor; vm_compute; reflexivity. }
  split; [eexists; vm_compute; auto|].
  split; [eexists; split; [vm_compute; reflexivity|repeat constructor]|].
  split; [vm_compute; reflexivity|].
  intros i a b Ha Hb. unfold all_of, case_data in *. rewrite map_map in *. cbn [fst] in *.
  rewrite nth_error_map in *.
  destruct (nth_error (seq 0 20) i) as [x|] eqn:E1; [|discriminate].
  destruct (nth_error (seq 0 20) (Datatypes.S i)) as [y|] eqn:E2; [|discriminate].
  cbn in Ha, Hb. injection Ha as <-. injection Hb as <-.
  assert (Datatypes.S i < 20)%nat as Hl.
  { rewrite <- (seq_length 20 0). apply nth_error_Some. congruence. }
  apply (nth_error_nth _ _ O) in E1, E2. rewrite seq_nth in E1, E2 by lia. lia.
Qed.

Print Assumptions C283_season_partial.
Print Assumptions C283_raises.
Print Assumptions C283_long_refuted.
Print Assumptions C283_names_refuted.
Print Assumptions C283_multi.

Print Assumptions C283_kind.
Print Assumptions C283_quiet.
