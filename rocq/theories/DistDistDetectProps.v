(** Theorems about which rows the distribution distance detector compares: C101. *)
From Verif Require Import Common PySlice TSDataModel TSDataSpec TSDataProofs RollingProofs RollingProps.
From Verif Require Import DistDistModel DistDistSpec DistDistProofs DistDistProps.
From Coq Require Import Sorted Permutation.
Open Scope Z_scope.

Lemma strict_filter {A} (f : Z * A -> bool) l : StronglySorted Z.lt (map fst l) -> StronglySorted Z.lt (map fst (filter f l)).
Proof.
  induction l as [|r t IH]; cbn [filter map]; intros H; [constructor|]. inversion H as [|? ? H1 H2]; subst. rewrite Forall_forall in H2.
  destruct (f r); [|apply IH, H1]. cbn [map]. constructor; [apply IH, H1|]. apply Forall_forall. intros x Hx.
  apply in_map_iff in Hx as (r' & <- & Hr). apply filter_In in Hr as [Hr _]. apply H2, in_map, Hr.
Qed.
Lemma comparator_some w total t : strictly_in_time_order total ->
  match comparator w total t with
  | Some o => exists tt, reference w total t (tt, o)
  | None => ~ exists o, reference w total t o
  end.
Proof.
  intros H. unfold comparator. pose proof (strict_filter (fun r => t - w * ns <=? fst r) total H) as Hf.
  assert (Hin : forall r, In r (filter (fun r => t - w * ns <=? fst r) total) <-> In r total /\ t - seconds w <= fst r).
  { intros r. rewrite filter_In, Z.leb_le. reflexivity. }
  destruct (filter _ total) as [|r u].
  - intros (o & Ho & Hw & _). apply (proj2 (Hin o)). split; assumption.
  - cbn [map] in Hf. inversion Hf as [|? ? F1 F2]; subst. rewrite Forall_forall in F2.
    assert (Hmin : forall r', In r' total -> t - seconds w <= fst r' -> fst r <= fst r').
    { intros r' Hr Hw. destruct (proj2 (Hin r') (conj Hr Hw)) as [<-|Hu]; [lia|]. specialize (F2 _ (in_map fst _ _ Hu)). lia. }
    destruct (proj1 (Hin r) (or_introl eq_refl)) as [Hr Hw].
    assert (Ens : seconds w = w * ns) by reflexivity.
    destruct (Z.ltb_spec (9 * (w * ns)) (10 * (t - fst r))).
    + exists (fst r). destruct r as [tr vr]. cbn [fst snd] in *. split; [exact Hr|]. split; [exact Hw|]. split; [exact Hmin|]. cbn [fst]. lia.
    + intros (o & Ho & How & Hom & Hlt). specialize (Hmin o Ho How). lia.
Qed.

Section Scores.
Variable metric : list Q -> list Q -> option Q.
Variable jensenshannon : list Q -> list Q -> option Q.

(** the distance between the reference row and the point's row *)
Definition distance_is (c : dcfg) (old new : list Q) (v : option Q) : Prop :=
  if is_jsd c then exists p q, percentile_to_prob old new = Some (p, q) /\ v = jensenshannon p q
  else v = metric old new.

Lemma scores_of_some c total : strictly_in_time_order total -> forall l sc, scores_of metric jensenshannon c total l = Some sc ->
  Forall2 (fun r v => exists o, reference (window_size_sec c) total (fst r) o /\ distance_is c (snd o) (snd r) v) l sc.
Proof.
  intros H. induction l as [|r t IH]; intros sc E; cbn [scores_of] in E; [injection E as <-; constructor|].
  pose proof (comparator_some (window_size_sec c) total (fst r) H) as C. destruct (comparator _ _ _) as [o|]; [|discriminate].
  destruct (score _ _ c o (snd r)) as [v|] eqn:Es; [|discriminate]. destruct (scores_of _ _ c total t) as [vs|]; [|discriminate].
  injection E as <-. destruct C as (tt & C). constructor; [|apply IH; reflexivity]. exists (tt, o). split; [exact C|]. cbn [snd].
  unfold distance_is. unfold score in Es. destruct (is_jsd c).
  - destruct (percentile_to_prob o (snd r)) as [[p q]|]; [|discriminate]. injection Es as <-. exists p, q. split; reflexivity.
  - injection Es as <-. reflexivity.
Qed.
Lemma scores_of_none c total : strictly_in_time_order total -> is_jsd c = false -> forall l, scores_of metric jensenshannon c total l = None ->
  exists r, In r l /\ ~ exists o, reference (window_size_sec c) total (fst r) o.
Proof.
  intros H Hj. induction l as [|r t IH]; intros E; cbn [scores_of] in E; [discriminate|].
  pose proof (comparator_some (window_size_sec c) total (fst r) H) as C. destruct (comparator _ _ _) as [o|].
  - unfold score in E. rewrite Hj in E. destruct (scores_of _ _ c total t); [discriminate|]. destruct (IH eq_refl) as (r' & Hr & N).
    exists r'. split; [right; exact Hr|exact N].
  - exists r. split; [left; reflexivity|exact C].
Qed.
Lemma sorted_cut {A} (l : list (Z * A)) start : StronglySorted Z.lt (map fst l) ->
  exists pre suf, l = pre ++ suf /\ filter (fun r => start <=? fst r) l = suf /\ (forall r, In r pre -> fst r < start) /\ (forall r, In r suf -> start <= fst r).
Proof.
  induction l as [|r t IH]; intros H; [exists [], []; repeat split; intros r []|]. cbn [map] in H. inversion H as [|? ? H1 H2]; subst. rewrite Forall_forall in H2.
  destruct (IH H1) as (pre & suf & E & F & P1 & P2). cbn [filter]. destruct (Z.leb_spec start (fst r)).
  - exists [], (r :: t). split; [reflexivity|]. split; [|split; [intros r' []|]].
    + f_equal. rewrite F. clear - H H0 H1 H2 E P1. destruct pre as [|r' pre']; [exact (eq_sym E)|]. exfalso. specialize (P1 r' (or_introl eq_refl)).
      specialize (H2 (fst r')). rewrite E in H2. specialize (H2 (or_introl eq_refl)). lia.
    + intros r' [<-|Hr]; [lia|]. specialize (H2 _ (in_map fst _ _ Hr)). lia.
  - exists (r :: pre), suf. repeat split; [rewrite E; reflexivity|exact F| |exact P2]. intros r' [<-|Hr]; [exact H0|apply P1, Hr].
Qed.
Lemma sorted_parts {A} (a b : list (Z * A)) : StronglySorted Z.lt (map fst (a ++ b)) ->
  StronglySorted Z.lt (map fst a) /\ StronglySorted Z.lt (map fst b) /\ forall r r', In r a -> In r' b -> fst r < fst r'.
Proof.
  induction a as [|x t IH]; cbn [app map]; intros H; [repeat split; [constructor|exact H|intros r r' []]|].
  inversion H as [|? ? H1 H2]; subst. destruct (IH H1) as (A1 & A2 & A3). rewrite Forall_forall in H2. repeat split.
  - constructor; [exact A1|]. apply Forall_forall. intros y Hy. apply H2. rewrite map_app. apply in_or_app. left. exact Hy.
  - exact A2.
  - intros r r' [<-|Hr] Hr'; [|apply A3; assumption]. apply H2. rewrite map_app. apply in_or_app. right. apply in_map, Hr'.
Qed.
Lemma strict_sorted l : StronglySorted Z.lt l -> StronglySorted Z.le l.
Proof. induction 1 as [|x t Ht IH Hx]; constructor; [exact IH|]. rewrite Forall_forall in *. intros y Hy. specialize (Hx y Hy). lia. Qed.
Lemma increasing_true l : StronglySorted Z.lt l -> increasing_times l = true.
Proof.
  induction 1 as [|x t Ht IH Hx]; [reflexivity|]. cbn [increasing_times]. destruct t as [|y u]; [reflexivity|].
  rewrite Forall_forall in Hx. specialize (Hx y (or_introl eq_refl)). rewrite IH. rewrite (proj2 (Z.leb_le x y)) by lia. reflexivity.
Qed.
Lemma nondecreasing_iff l : nondecreasing l = true <-> rising l.
Proof.
  unfold rising. split.
  - induction l as [|x t IH]; intros H; [constructor|]. cbn [nondecreasing] in H. destruct t as [|y u]; [repeat constructor|].
    apply andb_true_iff in H as [H1 H2]. apply Qle_bool_iff in H1. specialize (IH H2). constructor; [exact IH|].
    inversion IH as [|? ? I1 I2]; subst. constructor; [exact H1|]. rewrite Forall_forall in *. intros z Hz. eapply Qle_trans; [exact H1|apply I2, Hz].
  - induction 1 as [|x t Ht IH Hx]; [reflexivity|]. cbn [nondecreasing]. destruct t as [|y u]; [reflexivity|].
    rewrite Forall_forall in Hx. rewrite IH. rewrite (proj2 (Qle_bool_iff _ _) (Hx y (or_introl eq_refl))). reflexivity.
Qed.

Definition history_rows (hist : option (series (list Q))) : list (Z * list Q) := match hist with Some h => rows h | None => [] end.
Lemma total_is hist data : strictly_in_time_order (history_rows hist ++ rows data) ->
  match hist with Some h => rows (append_rows (getitem h None None) data) | None => rows (getitem data None None) end = history_rows hist ++ rows data.
Proof.
  intros H. destruct (sorted_parts _ _ H) as (H1 & H2 & _). destruct hist as [h|]; cbn; rewrite py_slice_none, sort_rows_id; try reflexivity;
  apply strict_sorted; assumption.
Qed.

(** the rows from the first one with a reference on *)
Lemma first_valid w total : strictly_in_time_order total ->
  match filter (fun r => match comparator w total (fst r) with Some _ => true | None => false end) total with
  | [] => forall r, In r total -> ~ exists o, reference w total (fst r) o
  | v :: _ => In v total /\ (exists o, reference w total (fst v) o) /\ forall r, In r total -> fst r < fst v -> ~ exists o, reference w total (fst r) o
  end.
Proof.
  intros H. pose proof (strict_filter (fun r => match comparator w total (fst r) with Some _ => true | None => false end) total H) as Hf.
  assert (Hin : forall r, In r (filter (fun r => match comparator w total (fst r) with Some _ => true | None => false end) total)
                          <-> In r total /\ exists o, reference w total (fst r) o).
  { intros r. rewrite filter_In. pose proof (comparator_some w total (fst r) H) as C. destruct (comparator w total (fst r)).
    - destruct C as (tt & C). split; intros [A _]; (split; [exact A|]); [eexists; exact C|reflexivity].
    - split; intros [A B]; [discriminate|contradiction]. }
  destruct (filter _ total) as [|v u].
  - intros r Hr Ho. apply (proj2 (Hin r)). split; assumption.
  - destruct (proj1 (Hin v) (or_introl eq_refl)) as [A B]. split; [exact A|]. split; [exact B|]. intros r Hr Hlt Ho.
    cbn [map] in Hf. inversion Hf as [|? ? F1 F2]; subst. rewrite Forall_forall in F2.
    destruct (proj2 (Hin r) (conj Hr Ho)) as [<-|Hu]; [lia|]. specialize (F2 _ (in_map fst _ _ Hu)). lia.
Qed.

(** Every point gets one score, at its own time: the distance to its reference row, or 0 while
    there is no reference yet for it nor for any row before it. *)
Theorem C101_compared : forall c data hist out,
  strictly_in_time_order (history_rows hist ++ rows data) ->
  dist_fit_predict metric jensenshannon c data hist = Some out ->
  let total := history_rows hist ++ rows data in
  Forall2 (fun r s => fst s = fst r /\
     ((exists o, reference (window_size_sec c) total (fst r) o /\ distance_is c (snd o) (snd r) (snd s)) \/
      (snd s = Some 0%Q /\ forall r', In r' total -> fst r' <= fst r -> ~ exists o, reference (window_size_sec c) total (fst r') o)))
    (rows data) (rows out).
Proof.
  intros c data hist out H E total. unfold dist_fit_predict in E. rewrite (total_is hist data H) in E. fold total in E, H.
  destruct (sorted_parts _ _ H) as (H1 & H2 & H3). destruct total as [|r0 rest] eqn:Et; [discriminate|]. rewrite <- Et in *. clear Et.
  match type of E with (if ?b then _ else _) = _ => destruct b; [discriminate|] end.
  match type of E with (if ?b then _ else _) = _ => destruct b; [discriminate|] end.
  match type of E with (if ?b then _ else _) = _ => destruct b; [discriminate|] end.
  pose proof (first_valid (window_size_sec c) total H) as V. destruct (filter _ total) as [|v u]; [discriminate|]. destruct V as (V1 & V2 & V3).
  destruct (rows data) as [|d0 dr] eqn:Ed; [discriminate|]. rewrite <- Ed in *.
  assert (Hd0 : forall r, In r (rows data) -> fst d0 <= fst r).
  { rewrite Ed in H2 |- *. cbn [map] in H2. inversion H2 as [|? ? G1 G2]; subst. rewrite Forall_forall in G2. intros r [<-|Hr]; [lia|].
    specialize (G2 _ (in_map fst _ _ Hr)). lia. }
  set (start := Z.max (fst v) (fst d0)) in E.
  assert (Ef : filter (fun r => start <=? fst r) total = filter (fun r => start <=? fst r) (rows data)).
  { unfold total. rewrite filter_app. assert (N : filter (fun r => start <=? fst r) (history_rows hist) = []).
    { assert (Hlt : forall r, In r (history_rows hist) -> fst r < start) by (intros r Hr; specialize (H3 r d0 Hr); rewrite Ed in H3; specialize (H3 (or_introl eq_refl)); lia).
      clear - Hlt. induction (history_rows hist) as [|r t IH]; [reflexivity|]. cbn [filter]. specialize (Hlt r (or_introl eq_refl)) as Hr.
      rewrite (proj2 (Z.leb_gt start (fst r))) by lia. apply IH. intros; apply Hlt; right; assumption. }
    rewrite N, Ed. reflexivity. }
  rewrite Ef in E. destruct (sorted_cut (rows data) start H2) as (pre & suf & Es & Ef' & P1 & P2). rewrite Ef' in E.
  destruct (scores_of metric jensenshannon c total suf) as [sc|] eqn:Esc; [|discriminate].
  pose proof (scores_of_some c total H suf sc Esc) as K. pose proof (forall2_len' _ _ _ K) as Lk.
  assert (Lp : (length (rows data) - length sc = length pre)%nat) by (rewrite Es, app_length; lia). rewrite Lp in E.
  rewrite of_columns_sorted in E; [|rewrite map_length, app_length, repeat_length, Es, app_length; lia|apply strict_sorted, H2].
  injection E as <-. cbn [rows]. clear Ed Ef Ef' Lp Esc. revert K. rewrite Es. rewrite map_app. intros K.
  assert (Hpre : forall r, In r pre -> forall r', In r' total -> fst r' <= fst r -> ~ exists o, reference (window_size_sec c) total (fst r') o).
  { intros r Hr r' Hr' Hle. apply V3; [exact Hr'|]. specialize (P1 r Hr). assert (Hd : In r (rows data)) by (rewrite Es; apply in_or_app; left; exact Hr).
    specialize (Hd0 r Hd). lia. }
  replace (combine (map fst pre ++ map fst suf) (repeat (Some 0%Q) (length pre) ++ sc))
    with (combine (map fst pre) (repeat (Some 0%Q) (length pre)) ++ combine (map fst suf) sc).
  2:{ clear. induction pre as [|r t IH]; [reflexivity|]. cbn. rewrite IH. reflexivity. }
  apply Forall2_app.
  - clear - Hpre. induction pre as [|r t IH]; [constructor|]. cbn. constructor.
    + cbn. split; [reflexivity|]. right. split; [reflexivity|]. apply Hpre. left. reflexivity.
    + apply IH. intros r' Hr. apply Hpre. right. exact Hr.
  - clear - K. induction K as [|r v l sc Hr K IH]; [constructor|]. cbn. constructor; [|exact IH]. cbn. split; [reflexivity|]. left. exact Hr.
Qed.

(** When it raises (for distances that compare any two rows). *)
Theorem C101_raises : forall c data hist,
  strictly_in_time_order (history_rows hist ++ rows data) -> rows data <> [] -> is_jsd c = false ->
  let total := history_rows hist ++ rows data in
  let has_reference t := exists o, reference (window_size_sec c) total t o in
  dist_fit_predict metric jensenshannon c data hist = None <->
  (* the rows span less than a window *)
  last (map fst total) 0 - hd 0 (map fst total) < seconds (window_size_sec c) \/
  (* a row is not a rising list, and that is checked *)
  (check_monotonic c = true /\ exists r, In r total /\ ~ rising (snd r)) \/
  (* nothing can be compared *)
  (forall r, In r total -> ~ has_reference (fst r)) \/
  (* or a point cannot be, although a row at or before it could *)
  (exists r r', In r (rows data) /\ ~ has_reference (fst r) /\ In r' total /\ fst r' <= fst r /\ has_reference (fst r')).
Proof.
  intros c data hist H Hne Hj total has. subst has. unfold dist_fit_predict. rewrite (total_is hist data H). fold total. fold total in H.
  destruct (sorted_parts _ _ H) as (H1 & H2 & H3). destruct (rows data) as [|d0 dr] eqn:Ed; [contradiction|].
  destruct total as [|r0 rest] eqn:Et; [unfold total in Et; apply app_eq_nil in Et as [_ Et]; discriminate|]. rewrite <- Et in *.
  replace (hd 0 (map fst total)) with (fst r0) by (rewrite Et; reflexivity). clear Et. unfold seconds. fold ns. change 1000000000 with ns.
  destruct (Z.ltb_spec (last (map fst total) 0 - fst r0) (window_size_sec c * ns)) as [Hsp|Hsp]; [split; intros _; [left; exact Hsp|reflexivity]|].
  destruct (check_monotonic c && negb (forallb (fun r => nondecreasing (snd r)) total)) eqn:Em.
  { split; intros _; [|reflexivity]. right; left. apply andb_true_iff in Em as [E1 E2]. split; [exact E1|]. apply negb_true_iff in E2.
    clear - E2. induction total as [|r t IH]; [discriminate|]. cbn [forallb] in E2. destruct (nondecreasing (snd r)) eqn:En.
    - destruct (IH E2) as (r' & A & B). exists r'. split; [right; exact A|exact B].
    - exists r. split; [left; reflexivity|]. intros C. apply nondecreasing_iff in C. congruence. }
  rewrite (increasing_true _ H). cbn [negb].
  assert (Nm : ~ (check_monotonic c = true /\ exists r, In r total /\ ~ rising (snd r))).
  { intros (A & r & B & C). rewrite A in Em. cbn [andb] in Em. apply negb_false_iff in Em. rewrite forallb_forall in Em. apply C, nondecreasing_iff, Em, B. }
  pose proof (first_valid (window_size_sec c) total H) as V. destruct (filter _ total) as [|v u]; [split; intros _; [right; right; left; exact V|reflexivity]|].
  destruct V as (V1 & V2 & V3).
  assert (Hd0 : forall r, In r (d0 :: dr) -> fst d0 <= fst r).
  { cbn [map] in H2. inversion H2 as [|? ? G1 G2]; subst. rewrite Forall_forall in G2. intros r [<-|Hr]; [lia|].
    specialize (G2 _ (in_map fst _ _ Hr)). lia. }
  set (start := Z.max (fst v) (fst d0)).
  assert (Hf : forall r, In r (filter (fun r => start <=? fst r) total) <-> In r (d0 :: dr) /\ fst v <= fst r).
  { intros r. rewrite filter_In, Z.leb_le. unfold total. split.
    - intros [A B]. apply in_app_iff in A as [A|A]; [specialize (H3 r d0 A (or_introl eq_refl)); lia|]. split; [exact A|lia].
    - intros [A B]. split; [apply in_or_app; right; exact A|]. specialize (Hd0 r A). lia. }
  destruct (scores_of metric jensenshannon c total _) as [sc|] eqn:Esc.
  - pose proof (scores_of_some c total H _ sc Esc) as K. pose proof (forall2_len' _ _ _ K) as Lk.
    assert (Ll : (length sc <= length (d0 :: dr))%nat).
    { rewrite <- Lk. apply NoDup_incl_length.
      - apply NoDup_filter. apply NoDup_map_inv with (f := fst). clear - H. unfold strictly_in_time_order in H.
        induction H as [|x t Ht IH Hx]; constructor; [|exact IH]. rewrite Forall_forall in Hx. intros C. specialize (Hx x C). lia.
      - intros r Hr. apply Hf in Hr. apply Hr. }
    rewrite of_columns_sorted; [|rewrite map_length, app_length, repeat_length; lia|apply strict_sorted, H2].
    split; [discriminate|]. intros [A|[A|[A|(r & r' & A & B & C & D & F)]]]; [lia|contradiction| |].
    + exfalso. apply (A v V1 V2).
    + exfalso. apply B. assert (Hv : fst v <= fst r).
      { destruct (Z.le_gt_cases (fst v) (fst r)) as [L|L]; [exact L|]. exfalso. apply (V3 r' C ltac:(lia) F). }
      destruct (forall2_in _ _ _ r K (proj2 (Hf r) (conj A Hv))) as (s & _ & o & Ho & _). exists o. exact Ho.
  - split; [intros _|reflexivity]. destruct (scores_of_none c total H Hj _ Esc) as (r & Hr & N). apply Hf in Hr as [A B].
    right; right; right. exists r, v. repeat split; assumption.
Qed.
End Scores.

Definition d_cfg : dcfg := MkDcfg 100 true true.
Definition sec (t : Z) : Z := t * 1000000000.
Definition d_hist : series (list Q) := MkSeries [(sec 0, [1;2;3]%Q); (sec 50, [1;1;4]%Q)] true.
Definition d_data : series (list Q) := MkSeries [(sec 90, [2;2;2]%Q); (sec 95, [1;2;3]%Q); (sec 150, [1;2;5]%Q)] true.
(** the first point has no reference, the second is compared with time 0, the third with
    time 50 *)
Example C101_case : strictly_in_time_order (history_rows (Some d_hist) ++ rows d_data) /\
  exists out, dist_fit_predict (fun _ _ => None) (fun p q => Some (qsum p - nth 0 q 0)%Q) d_cfg d_data (Some d_hist) = Some out /\
  map (fun r => option_map Qred (snd r)) (rows out) = [Some 0; Some (2#3); Some (2#3)]%Q.
Proof.
  split.
  - unfold strictly_in_time_order. cbn. repeat (constructor; try reflexivity).
  - eexists. split; [vm_compute; reflexivity|]. vm_compute. reflexivity.
Qed.
Definition d_cfg2 : dcfg := MkDcfg 100 false false.
Example C101_raises_case : rows d_data <> [] /\ is_jsd d_cfg2 = false /\
  dist_fit_predict (fun a b => Some (qsum a - qsum b)%Q) (fun _ _ => None) d_cfg2 d_data (Some d_hist) <> None /\
  dist_fit_predict (fun a b => Some (qsum a - qsum b)%Q) (fun _ _ => None) d_cfg2
    (append_rows d_data (MkSeries [(sec 300, [1;2;3]%Q)] true)) (Some d_hist) = None.
Proof. split; [discriminate|]. split; [reflexivity|]. split; [vm_compute; discriminate|vm_compute; reflexivity]. Qed.

Print Assumptions C101_compared.
Print Assumptions C101_raises.
