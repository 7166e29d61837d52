(** C296: recommending a detector *)
From Coq Require Import List Bool Arith ZArith QArith Qround Qabs String Lia Permutation.
From Verif Require Import Common DetMetaModel DetMetaProps.
Import ListNotations.
Open Scope nat_scope.

(** ** Specification *)
(** the value of a feature, NaN if the row has none *)
Fixpoint value_at {A} (k : string) (d : list (string * option A)) : option A := match d with [] => None | (k', v) :: r => if String.eqb k' k then v else value_at k r end.
Definition zeros (row : list (option Q)) : list Q := map (fun v => match v with Some x => x | None => 0%Q end) row.
(** a row of features as numbers *)
Definition as_numbers (d : feats) (x : list (string * option Q)) : Prop :=
  Forall2 (fun a b => fst b = fst a /\ match snd a with FNum v => snd b = v | FText (Some v) => snd b = v | FText None => False end) d x.

(** ** The constructor *)
Theorem C296_accepted columns fr down : (exists s, make_select columns fr down = Some s) <->
  30 < List.length (f_rows fr) /\ exists cols, columns = Some cols /\ In "hpt_res"%string cols /\ In "features"%string cols /\ In "best_model"%string cols.
Proof.
  unfold make_select. destruct columns as [cols|]; [| split; [intros (s & E); discriminate | intros (_ & c & E & _); discriminate]].
  assert (X : forall k, existsb (String.eqb k) cols = true <-> In k cols).
  { intros k. rewrite existsb_exists. split; [intros (y & I & E); apply String.eqb_eq in E; congruence | intros I; exists k; split; [exact I | apply String.eqb_refl]]. }
  destruct (_ <=? 30) eqn:L.
  - apply Nat.leb_le in L. split; [intros (s & E); discriminate | intros [H _]; lia].
  - apply Nat.leb_gt in L. cbn [forallb]. split.
    + intros (s & E). split; [exact L |]. exists cols. split; [reflexivity |]. rewrite <- !X. destruct (existsb _ cols); [| discriminate]. destruct (existsb _ cols); [| discriminate]. destruct (existsb _ cols); [| discriminate]. repeat split.
    + intros (_ & c & E & A & B & C). injection E as <-. apply X in A, B, C. rewrite A, B, C. eexists. reflexivity.
Qed.
Theorem C296_untrained columns fr down s d h cs : make_select columns fr down = Some s -> predict s d = None /\ fit_results s = None /\ pred_by_feature s h cs = None.
Proof.
  unfold make_select. destruct columns as [cols|]; [| discriminate]. destruct (_ <=? 30); [discriminate |]. destruct (forallb _ _); [| discriminate]. intros E. injection E as <-. split; [reflexivity |].
  assert (G : forall h cs, pred_by_feature {| m_frame := fr; m_down := down; m_clf := None; m_results := None |} h cs = None).
  { clear. intros h cs. unfold pred_by_feature. cbn [m_clf]. destruct (open_column _ _) as [[hf l]|]; [| reflexivity]. destruct (update_all _ _ _); [| reflexivity]. destruct (all_some _); reflexivity. }
  split; apply G.
Qed.
(** report_metrics says it trains if that has not been done; it raises *)
Theorem C296_report_refuted columns fr down s : make_select columns fr down = Some s -> report_metrics s = None.
Proof. unfold make_select. destruct columns as [cols|]; [| discriminate]. destruct (_ <=? 30); [discriminate |]. destruct (forallb _ _); [| discriminate]. intros E. injection E as <-. reflexivity. Qed.

(** ** Rounding *)
Theorem C296_rounded x : (Qabs (four_decimals x - x) <= 1 # 20000)%Q /\ (exists n, four_decimals x * 10000 == inject_Z n)%Q /\ (forall n, (x == inject_Z n / 10000)%Q -> (four_decimals x == x)%Q).
Proof.
  assert (R : forall y, (inject_Z (round_even y) - y <= 1#2)%Q /\ (y - inject_Z (round_even y) <= 1#2)%Q).
  { intros y. unfold round_even. pose proof (Qfloor_le y) as A. pose proof (Qlt_floor y) as B. rewrite inject_Z_plus in B. set (f := Qfloor y) in *. change (inject_Z 1) with 1%Q in B.
    destruct (Qcompare (y - inject_Z f) (1#2)) eqn:C.
    - apply Qeq_alt in C. destruct (Z.even f); [split; Lqa.lra |]. rewrite inject_Z_plus. change (inject_Z 1) with 1%Q. split; Lqa.lra.
    - apply Qlt_alt in C. split; Lqa.lra.
    - apply Qgt_alt in C. rewrite inject_Z_plus. change (inject_Z 1) with 1%Q. split; Lqa.lra. }
  split; [| split].
  - unfold four_decimals. destruct (R (x * 10000)%Q) as [A B]. set (n := inject_Z (round_even (x * 10000))) in *. clearbody n. apply Qabs_Qle_condition. assert (E : (n / 10000 - x == (n - x * 10000) * (1#10000))%Q) by field. rewrite E. split; Lqa.lra.
  - exists (round_even (x * 10000)). unfold four_decimals. field.
  - intros n E. assert (E1 : (x * 10000 == inject_Z n)%Q) by (rewrite E; field). unfold four_decimals. destruct (R (x * 10000)%Q) as [A B]. set (m := round_even (x * 10000)) in *. clearbody m.
    assert (G : m = n).
    { assert (A' : (inject_Z m < inject_Z (n + 1))%Q) by (rewrite inject_Z_plus; change (inject_Z 1) with 1%Q; Lqa.lra).
      assert (B' : (inject_Z n < inject_Z (m + 1))%Q) by (rewrite inject_Z_plus; change (inject_Z 1) with 1%Q; Lqa.lra). rewrite <- Zlt_Qlt in A', B'. lia. }
    rewrite G. symmetry. exact E.
Qed.

(** ** Alignment of the rows *)
Lemma add_old l k : In k l -> add_name l k = l.
Proof. intros I. unfold add_name. assert (E : existsb (String.eqb k) l = true) by (apply existsb_exists; exists k; split; [exact I | apply String.eqb_refl]). rewrite E. reflexivity. Qed.
Lemma add_new l k : ~ In k l -> add_name l k = l ++ [k].
Proof. intros N. unfold add_name. destruct (existsb (String.eqb k) l) eqn:E; [| reflexivity]. apply existsb_exists in E. destruct E as (y & I & E). apply String.eqb_eq in E. subst y. contradiction. Qed.
Lemma add_all_old : forall ks l, (forall k, In k ks -> In k l) -> fold_left add_name ks l = l.
Proof. induction ks as [|k ks IH]; intros l H; [reflexivity |]. cbn [fold_left]. rewrite (add_old l k (H k (or_introl eq_refl))). apply IH. intros k1 I. apply H. right. exact I. Qed.
Lemma add_all_new : forall ks l, NoDup (l ++ ks) -> fold_left add_name ks l = l ++ ks.
Proof.
  induction ks as [|k ks IH]; intros l N; [cbn; rewrite app_nil_r; reflexivity |]. cbn [fold_left]. rewrite add_new; [| intros I; apply NoDup_remove_2 in N; apply N, in_or_app; left; exact I].
  rewrite IH; rewrite <- app_assoc; [reflexivity | exact N].
Qed.
Lemma names_first {A} (d : dict A) rows : NoDup (map fst d) -> (forall r k, In r rows -> In k (map fst r) -> In k (map fst d)) -> names (d :: rows) = map fst d.
Proof.
  intros N H. unfold names. cbn [fold_left]. rewrite (add_all_new (map fst d) [] N). cbn [app]. induction rows as [|r rows IH]; [reflexivity |]. cbn [fold_left].
  rewrite add_all_old; [| intros k I; exact (H r k (or_introl eq_refl) I)]. apply IH. intros r1 k I. apply H. right. exact I.
Qed.
Lemma get_value (d : dict (option Q)) k : match get k d with Some v => v | None => None end = value_at k d.
Proof. induction d as [|[k1 v1] d IH]; [reflexivity |]. cbn. destruct (String.eqb k1 k); [reflexivity | exact IH]. Qed.
Lemma own_values (d : dict (option Q)) : NoDup (map fst d) -> map (fun k => value_at k d) (map fst d) = map snd d.
Proof.
  rewrite map_map. intros N. apply map_ext_in. intros [k v] I. cbn [fst snd]. induction d as [|[k1 v1] d IH]; [destruct I |]. cbn in N |- *. inversion N as [|a b N1 N2]. subst a b.
  destruct (String.eqb k1 k) eqn:E.
  - apply String.eqb_eq in E. subst k1. destruct I as [I|I]; [congruence |]. destruct N1. apply (in_map fst) in I. exact I.
  - destruct I as [I|I]; [injection I as -> ->; rewrite String.eqb_refl in E; discriminate | exact (IH N2 I)].
Qed.
Lemma aligned_first (d : dict (option Q)) (rows : list (dict (option Q))) : NoDup (map fst d) -> (forall r k, In r rows -> In k (map fst r) -> In k (map fst d)) ->
  aligned (d :: rows) = map (fun r => map (fun k => value_at k r) (map fst d)) (d :: rows).
Proof. intros N H. unfold aligned. rewrite (names_first d rows N H). apply map_ext. intros r. apply map_ext. intros k. apply get_value. Qed.

(** predict: the classifier's answer for the features of the series, rounded to four decimals, in their order *)
Theorem C296_predict s clf d : m_clf s = Some clf -> NoDup (map fst d) -> predict s d = Some (clf (map (fun kv => option_map four_decimals (snd kv)) d)).
Proof.
  intros C N. unfold predict. rewrite C. assert (NF : NoDup (map fst (ts_features d))) by (unfold ts_features; rewrite map_map; exact N).
  rewrite (aligned_first (ts_features d) [] NF); [| intros r k []]. cbn [map nth_error]. rewrite (own_values _ NF). unfold ts_features. rewrite map_map. reflexivity.
Qed.

Lemma plain_numbers d d' : Forall2 number_is d d' -> as_numbers d (plain d').
Proof.
  intros F. induction F as [|[k v] [k' w] d d' [E1 E2] F IH]; [constructor |]. cbn [plain map fst snd] in *. constructor; [| exact IH]. cbn [fst snd]. split; [exact E1 |].
  destruct v as [x|[x|]]; cbn in E2; [subst w; reflexivity | subst w; reflexivity | contradiction].
Qed.
Lemma plain_names d x : as_numbers d x -> map fst x = map fst d.
Proof. intros F. induction F as [|a b d x [E _] F IH]; [reflexivity |]. cbn. congruence. Qed.

Lemma pred_rows (h : list feats) (cs : list (cell feats)) : (forall c, In c cs -> exists d, content h c = Some d /\ numeric d) ->
  exists hf l hf' xs, open_column h cs = Some (hf, l) /\ update_all change_dtype hf l = Some hf' /\ all_some (map (nth_error hf') l) = Some xs /\ List.length xs = List.length cs /\
    forall i c, nth_error cs i = Some c -> exists d d', content h c = Some d /\ nth_error xs i = Some d' /\ Forall2 number_is d d'.
Proof.
  intros H. destruct (open_spec cs h) as (hf & l & E1 & L1 & P1 & C1 & W1 & N1); [intros c I; destruct (H c I) as (d & -> & _); discriminate |].
  assert (RF : forall i c, nth_error cs i = Some c -> exists a d, nth_error l i = Some a /\ nth_error hf a = Some d /\ content h c = Some d /\ numeric d).
  { intros i c Nc. destruct (C1 i c Nc) as (a & Na & V). destruct (H c (nth_error_In _ _ Nc)) as (d & Dc & Nd). exists a, d. repeat (split; [congruence |]). exact Nd. }
  assert (RA : forall a, In a l -> exists d, nth_error hf a = Some d /\ numeric d).
  { intros a I. destruct (In_nth_error _ _ I) as (i & Ni). destruct (nth_some cs i) as (c & Nc); [rewrite <- L1; exact (nth_lt _ _ _ Ni) |]. destruct (RF i c Nc) as (a' & d & A1 & A2 & A3 & A4). exists d. split; [congruence | exact A4]. }
  destruct (update_all_ok change_dtype numeric) with (l := l) (h := hf) as (hf' & E2); [intros x Nx; destruct (dtype_ok x Nx) as (y & Y & _ & NY & _); exists y; split; assumption | exact RA |].
  assert (V : forall a d, In a l -> nth_error hf a = Some d -> numeric d -> exists d', nth_error hf' a = Some d' /\ Forall2 number_is d d').
  { intros a d I Nd Num0. destruct (dtype_ok d Num0) as (d' & D1 & D2 & D3 & D4). exists d'. split; [| exact D2]. destruct (update_all_spec _ _ _ _ E2) as [_ U]. rewrite U, Nd.
    pose proof (proj1 (count_occ_In Nat.eq_dec l a) I) as K. destruct (count_occ Nat.eq_dec l a) as [|m]; [lia |]. cbn [times]. rewrite D1. clear - D4. induction m as [|m IH]; [reflexivity |]. cbn [times]. rewrite D4. exact IH. }
  destruct (all_some_map (nth_error hf') l) as (xs & E3 & L3 & N3); [intros a I; destruct (RA a I) as (d & Nd & Nn); destruct (V a d I Nd Nn) as (d' & -> & _); discriminate |].
  exists hf, l, hf', xs. split; [exact E1 |]. split; [exact E2 |]. split; [exact E3 |]. split; [congruence |].
  intros i c Nc. destruct (RF i c Nc) as (a & d & A1 & A2 & A3 & A4). destruct (V a d (nth_error_In _ _ A1) A2 A4) as (d' & D1 & D2). exists d, d'. split; [exact A3 |]. split; [| exact D2]. rewrite (N3 i a A1). exact D1.
Qed.

(** pred_by_feature: each row's answer is the classifier's for the row's features, under the names of the first row whatever the order of its own *)
Theorem C296_by_name s clf h cs c0 d0 : m_clf s = Some clf -> (forall c, In c cs -> exists d, content h c = Some d /\ numeric d) ->
  nth_error cs 0 = Some c0 -> content h c0 = Some d0 -> NoDup (map fst d0) -> (forall c d k, In c cs -> content h c = Some d -> In k (map fst d) -> In k (map fst d0)) ->
  exists answers, pred_by_feature s h cs = Some answers /\ List.length answers = List.length cs /\
    forall i c d, nth_error cs i = Some c -> content h c = Some d -> exists x, as_numbers d x /\ nth_error answers i = Some (clf (map (fun k => value_at k x) (map fst d0))).
Proof.
  intros C H N0 D0 ND SUB. destruct (pred_rows h cs H) as (hf & l & hf' & xs & E1 & E2 & E3 & LX & V). unfold pred_by_feature. rewrite E1, E2, E3, C.
  destruct (V 0 c0 N0) as (d1 & x0 & A1 & A2 & A3). rewrite D0 in A1. injection A1 as <-. destruct xs as [|x1 xs]; [discriminate |]. injection A2 as ->.
  assert (F0 : map fst (plain x0) = map fst d0) by (apply plain_names, plain_numbers; exact A3).
  eexists. split; [reflexivity |]. cbn [map]. rewrite aligned_first.
  - split; [change (plain x0 :: map plain xs) with (map plain (x0 :: xs)); rewrite !map_length; exact LX |]. intros i c d Nc Dc. destruct (V i c Nc) as (d1 & x & B1 & B2 & B3). rewrite Dc in B1. injection B1 as <-.
    exists (plain x). split; [apply plain_numbers; exact B3 |]. rewrite F0. change (plain x0 :: map plain xs) with (map plain (x0 :: xs)). rewrite !nth_error_map, B2. reflexivity.
  - rewrite F0. exact ND.
  - intros r k I K. rewrite F0. apply in_map_iff in I. destruct I as (x & <- & I). destruct (In_nth_error _ _ I) as (i & Ni). destruct (nth_some cs (S i)) as (c & Nc); [rewrite <- LX; cbn; pose proof (nth_lt _ _ _ Ni); lia |].
    destruct (V (S i) c Nc) as (d & x' & B1 & B2 & B3). cbn in B2. rewrite Ni in B2. injection B2 as <-. rewrite (plain_names d (plain x) (plain_numbers d x B3)) in K. exact (SUB c d k (nth_error_In _ _ Nc) B1 K).
Qed.

(** ** Training *)
Lemma nth_error_ext' {A} : forall l m : list A, (forall i, nth_error l i = nth_error m i) -> l = m.
Proof.
  induction l as [|x l IH]; intros [|y m] H; [reflexivity | discriminate (H 0) | discriminate (H 0) |]. pose proof (H 0) as E. cbn in E. injection E as ->. f_equal. apply IH. intros i. exact (H (S i)).
Qed.
Lemma train_rows learn s s' : digestible (m_down s) (m_frame s) -> NoDup (held (hres_cells (m_frame s))) -> train learn s = Some s' ->
  exists xs rows clf res, learn rows (map snd (f_rows (m_frame s))) = Some (clf, res) /\ m_clf s' = Some clf /\ m_results s' = Some res /\ m_down s' = m_down s /\
    unaligned xs = Some rows /\ List.length xs = List.length (f_rows (m_frame s)) /\
    (forall i cf ch b, nth_error (f_rows (m_frame s)) i = Some (cf, ch, b) -> exists d x, content (f_feats (m_frame s)) cf = Some d /\ nth_error xs i = Some x /\ as_numbers d x) /\
    digestible (m_down s') (m_frame s') /\ NoDup (held (hres_cells (m_frame s'))) /\ List.length (f_rows (m_frame s')) = List.length (f_rows (m_frame s)) /\ map snd (f_rows (m_frame s')) = map snd (f_rows (m_frame s)) /\
    (forall i x, nth_error xs i = Some x -> exists cf ch b d, nth_error (f_rows (m_frame s')) i = Some (cf, ch, b) /\ content (f_feats (m_frame s')) cf = Some d /\ plain d = x /\ change_dtype d = Some d).
Proof.
  intros D N T. unfold train in T. destruct (preprocess_spec _ _ D N) as (fr' & table & EP & LT & RT & NT & C). rewrite EP in T. destruct (preprocess_again _ _ _ _ D N EP) as [D' N'].
  destruct (all_some_map (fun t : nat * nat * string => nth_error (f_feats fr') (fst (fst t))) table) as (xs & EX & LX & NX).
  { intros t I. destruct (In_nth_error _ _ I) as (i & Ni). destruct (nth_some (f_rows (m_frame s)) i) as ([[cf ch] b] & Nr); [rewrite <- LT; exact (nth_lt _ _ _ Ni) |].
    destruct (C i cf ch b Nr) as (fa & ha & d & d' & r & r' & H1 & _ & H3 & _). rewrite Ni in H1. injection H1 as ->. cbn [fst]. congruence. }
  rewrite EX in T. destruct (unaligned (map plain xs)) as [rows|] eqn:U; [| discriminate]. destruct (learn rows (map snd table)) as [[clf res]|] eqn:LE; [| discriminate]. injection T as <-.
  assert (LB : map snd table = map snd (f_rows (m_frame s))).
  { apply nth_error_ext'. intros i. rewrite !nth_error_map. destruct (nth_error (f_rows (m_frame s)) i) as [[[cf ch] b]|] eqn:Nr.
    - destruct (C i cf ch b Nr) as (fa & ha & d & d' & r & r' & H1 & _). rewrite H1. reflexivity.
    - apply nth_error_None in Nr. assert (X : nth_error table i = None) by (apply nth_error_None; lia). rewrite X. reflexivity. }
  exists (map plain xs), rows, clf, res. cbn [m_frame m_down m_clf m_results]. rewrite <- LB. split; [exact LE |]. split; [reflexivity |]. split; [reflexivity |]. split; [reflexivity |]. split; [exact U |]. split; [rewrite map_length; lia |]. split; [| split; [exact D' | split; [exact N' | split; [| split]]]].
  - intros i cf ch b Nr. destruct (C i cf ch b Nr) as (fa & ha & d & d' & r & r' & H1 & H2 & H3 & H4 & _). exists d, (plain d'). split; [exact H2 |]. split; [rewrite nth_error_map, (NX i _ H1); cbn [fst]; rewrite H3; reflexivity | apply plain_numbers; exact H4].
  - rewrite RT, map_length. exact LT.
  - rewrite RT, map_map. reflexivity.
  - intros i x Nx. apply nth_map_inv in Nx. destruct Nx as (d' & Nd & <-). destruct (nth_some table i) as (t & Nt); [rewrite <- LX; exact (nth_lt _ _ _ Nd) |].
    destruct (nth_some (f_rows (m_frame s)) i) as ([[cf ch] b] & Nr); [rewrite <- LT; exact (nth_lt _ _ _ Nt) |]. destruct (C i cf ch b Nr) as (fa & ha & d & d1 & r & r' & H1 & H2 & H3 & H4 & H5 & H6 & _).
    rewrite Nt in H1. injection H1 as ->. exists (Held fa), (Held ha), b, d1. split; [rewrite RT, nth_error_map, Nt; reflexivity |]. split; [exact H3 |]. rewrite (NX i _ Nt) in Nd. cbn [fst] in Nd. split; [congruence | exact H6].
Qed.

Lemma plain_fixed d x : change_dtype d = Some d -> as_numbers d x -> x = plain d.
Proof.
  intros E F. revert E. induction F as [|[k v] [k' w] d x [E1 E2] F IH]; intros E; [reflexivity |]. cbn [fst snd] in *. subst k'. unfold change_dtype in *. cbn [on_values] in E.
  destruct (to_float v) as [v'|] eqn:TV; [| discriminate]. destruct (on_values _ d) as [d'|] eqn:OV; [| discriminate]. injection E as -> ->. cbn [plain map fst snd]. rewrite (IH eq_refl).
  destruct v as [y|[y|]]; cbn in TV; try discriminate. subst w. reflexivity.
Qed.
Lemma unaligned_rows xs rows : unaligned xs = Some rows -> rows = map (fun x => zeros (map snd x)) xs.
Proof.
  destruct xs as [|d xs]; [discriminate |]. unfold unaligned. destruct (forallb _ _); [| discriminate]. intros E. injection E as <-. unfold zeros. cbn [map]. rewrite map_map. f_equal. apply map_ext. intros x. rewrite map_map. reflexivity.
Qed.

(** when every row has the same names in the same order, the classifier is trained on the rows' features (0 for NaN) with their labels, and fit_results gives its answers
    for the same rows *)
Theorem C296_trained_partial learn s s' ns : digestible (m_down s) (m_frame s) -> NoDup (held (hres_cells (m_frame s))) -> f_rows (m_frame s) <> [] -> train learn s = Some s' ->
  NoDup ns -> (forall c d, In c (feats_cells (m_frame s)) -> content (f_feats (m_frame s)) c = Some d -> map fst d = ns) ->
  exists xs clf res, learn (map zeros xs) (map snd (f_rows (m_frame s))) = Some (clf, res) /\ List.length xs = List.length (f_rows (m_frame s)) /\
    (forall i cf ch b, nth_error (f_rows (m_frame s)) i = Some (cf, ch, b) -> exists d x, content (f_feats (m_frame s)) cf = Some d /\ as_numbers d x /\ nth_error xs i = Some (map snd x)) /\
    m_clf s' = Some clf /\ fit_results s' = Some (map clf xs) /\ report_metrics s' = Some [(fst res, "fit_error", "Inverted F-score"); (snd res, "pred_error", "Inverted F-score")]%string.
Proof.
  intros D N NE T NN NS. destruct (train_rows learn s s' D N T) as (xs & rows & clf & res & LE & MC & MR & MD & U & LX & V & D' & N' & LF & LB & W).
  exists (map (map snd) xs), clf, res. rewrite (unaligned_rows _ _ U) in LE. rewrite map_map. split; [exact LE |]. split; [rewrite map_length; exact LX |].
  split; [intros i cf ch b Nr; destruct (V i cf ch b Nr) as (d & x & A1 & A2 & A3); exists d, x; split; [exact A1 |]; split; [exact A3 |]; rewrite nth_error_map; exact (f_equal (option_map (map snd)) A2) |].
  split; [exact MC |]. split; [| unfold report_metrics; rewrite MR; destruct res; reflexivity].
  assert (NX : forall i x, nth_error xs i = Some x -> map fst x = ns).
  { intros i x Nx. destruct (nth_some (f_rows (m_frame s)) i) as ([[cf ch] b] & Nr); [rewrite <- LX; exact (nth_lt _ _ _ Nx) |]. destruct (V i cf ch b Nr) as (d & x' & A1 & A2 & A3). rewrite Nx in A2. injection A2 as <-.
    rewrite (plain_names d x A3). apply (NS cf d); [apply (nth_error_In _ i); unfold feats_cells; rewrite nth_error_map, Nr; reflexivity | exact A1]. }
  set (cs := feats_cells (m_frame s')) in *. assert (LC : List.length cs = List.length xs) by (unfold cs, feats_cells; rewrite map_length; lia).
  assert (WC : forall i x, nth_error xs i = Some x -> exists c d, nth_error cs i = Some c /\ content (f_feats (m_frame s')) c = Some d /\ plain d = x /\ change_dtype d = Some d).
  { intros i x Nx. destruct (W i x Nx) as (cf & ch & b & d & B1 & B2 & B3 & B4). exists cf, d. split; [unfold cs, feats_cells; rewrite nth_error_map, B1; reflexivity |]. repeat (split; [assumption |]). assumption. }
  destruct xs as [|x0 xs0] eqn:EX; [destruct (f_rows (m_frame s)); [congruence | discriminate LX] |]. rewrite <- EX in *. assert (N0 : nth_error xs 0 = Some x0) by (rewrite EX; reflexivity).
  destruct (WC 0 x0 N0) as (c0 & d0 & B1 & B2 & B3 & B4). assert (F0 : map fst d0 = ns) by (rewrite <- (NX 0 x0 N0), <- B3; unfold plain; rewrite map_map; reflexivity).
  assert (ALL : forall c d, In c cs -> content (f_feats (m_frame s')) c = Some d -> exists i x, nth_error xs i = Some x /\ nth_error cs i = Some c /\ plain d = x /\ change_dtype d = Some d).
  { intros c d I Dc. destruct (In_nth_error _ _ I) as (i & Ni). destruct (nth_some xs i) as (x & Nx); [rewrite <- LC; exact (nth_lt _ _ _ Ni) |]. destruct (WC i x Nx) as (c1 & d1 & G1 & G2 & G3 & G4). rewrite Ni in G1. injection G1 as <-. rewrite Dc in G2. injection G2 as <-. exists i, x. repeat (split; [assumption |]). assumption. }
  destruct (C296_by_name s' clf (f_feats (m_frame s')) cs c0 d0 MC (proj1 D') B1 B2) as (answers & P1 & P2 & P3).
  - rewrite F0. exact NN.
  - intros c d k I Dc K. destruct (ALL c d I Dc) as (i & x & G1 & _ & G3 & _). rewrite F0, <- (NX i x G1), <- G3. unfold plain. rewrite map_map. exact K.
  - change (fit_results s') with (pred_by_feature s' (f_feats (m_frame s')) cs). rewrite P1. apply (f_equal Some). apply nth_error_ext'. intros i. rewrite map_map, nth_error_map. change (@nth_error (list (string * option Q)) xs i) with (@nth_error (dict (option Q)) xs i). destruct (@nth_error (dict (option Q)) xs i) as [x|] eqn:Nx.
    + destruct (WC i x Nx) as (c & d & G1 & G2 & G3 & G4). destruct (P3 i c d G1 G2) as (x' & K1 & K2). rewrite K2. rewrite (plain_fixed d x' G4 K1), G3, F0. cbn [option_map]. rewrite <- (NX i x Nx) at 1. rewrite own_values; [reflexivity |]. rewrite (NX i x Nx). exact NN.
    + apply nth_error_None in Nx. apply nth_error_None. lia.
Qed.

(** training again gives the classifier the same rows and labels, so the same answers *)
Theorem C296_again learn s s' s'' : digestible (m_down s) (m_frame s) -> NoDup (held (hres_cells (m_frame s))) -> train learn s = Some s' -> train learn s' = Some s'' ->
  m_clf s'' = m_clf s' /\ m_results s'' = m_results s'.
Proof.
  intros D N T T'. destruct (train_rows learn s s' D N T) as (xs & rows & clf & res & LE & MC & MR & MD & U & LX & V & D' & N' & LF & LB & W).
  destruct (train_rows learn s' s'' D' N' T') as (xs2 & rows2 & clf2 & res2 & LE2 & MC2 & MR2 & MD2 & U2 & LX2 & V2 & _).
  assert (EX : xs2 = xs).
  { apply nth_error_ext'. intros i. destruct (nth_error xs i) as [x|] eqn:Nx.
    - destruct (W i x Nx) as (cf & ch & b & d & G1 & G2 & G3 & G4). destruct (V2 i cf ch b G1) as (d' & x' & K1 & K2 & K3). rewrite G2 in K1. injection K1 as <-. rewrite K2, (plain_fixed d x' G4 K3), G3. reflexivity.
    - apply nth_error_None in Nx. apply nth_error_None. lia. }
  subst xs2. rewrite U in U2. injection U2 as <-. rewrite LB, LE in LE2. injection LE2 as <- <-. split; congruence.
Qed.

(** rows with the same names in different orders: a classifier that is right on every row it was trained on is wrong on the same rows *)
Theorem C296_order_refuted : exists learn s s' answers,
  (forall rows labels clf res, learn rows labels = Some (clf, res) -> map (fun r => clf (map Some r)) rows = labels) /\
  digestible (m_down s) (m_frame s) /\ NoDup (held (hres_cells (m_frame s))) /\ (forall c d, In c (feats_cells (m_frame s)) -> content (f_feats (m_frame s)) c = Some d -> Permutation (map fst d) ["a"; "b"]%string) /\
  make_select (Some ["hpt_res"; "features"; "best_model"]%string) (m_frame s) default_down = Some s /\ train learn s = Some s' /\ fit_results s' = Some answers /\ answers <> map snd (f_rows (m_frame s)).
Proof.
  set (clf := fun r : list (option Q) => match r with [Some a; Some b] => if Qle_bool a b then "X" else "Y" | _ => "X" end%string).
  set (learn := fun (rows : list (list Q)) (labels : list string) => if list_eq_dec string_dec (map (fun r => clf (map Some r)) rows) labels then Some (clf, ([]:list Q, []:list Q)) else None).
  set (fr := {| f_feats := []; f_hres := []; f_rows := (Written (Some [("a", FNum (Some 1%Q)); ("b", FNum (Some 2%Q))]), Written (Some []), "X") :: repeat (Written (Some [("b", FNum (Some 5%Q)); ("a", FNum (Some 4%Q))]), Written (Some []), "Y") 30 |}%string).
  exists learn, {| m_frame := fr; m_down := default_down; m_clf := None; m_results := None |}. eexists _, (repeat "X"%string 31).
  split; [intros rows labels c res E; unfold learn in E; destruct (list_eq_dec _ _ _) as [G|G]; [injection E as <- _; exact G | discriminate] |].
  assert (IC : forall c, In c (feats_cells fr) -> c = Written (Some [("a", FNum (Some 1%Q)); ("b", FNum (Some 2%Q))])%string \/ c = Written (Some [("b", FNum (Some 5%Q)); ("a", FNum (Some 4%Q))])%string).
  { intros c I. unfold feats_cells, fr in I. cbn [f_rows map fst] in I. destruct I as [I|I]; [left; congruence | right]. apply in_map_iff in I. destruct I as (r & E & I). apply repeat_spec in I. subst r. cbn in E. congruence. }
  cbn [m_frame m_down]. split; [split |].
  - intros c I. destruct (IC c I) as [-> | ->]; eexists; (split; [reflexivity |]); intros k v J; cbn in J; intuition congruence.
  - intros c I. exists []. split; [| intros alg p e k v []]. unfold hres_cells, fr in I. cbn [f_rows map fst snd] in I. destruct I as [I|I]; [rewrite <- I; reflexivity |]. apply in_map_iff in I. destruct I as (r & E & I). apply repeat_spec in I. subst r. cbn in E. rewrite <- E. reflexivity.
  - split; [vm_compute; constructor |]. split; [| split; [reflexivity | split; [vm_compute; reflexivity | split; [vm_compute; reflexivity | discriminate]]]].
    intros c d I E. destruct (IC c I) as [-> | ->]; cbn in E; injection E as <-; cbn; [apply Permutation_refl | apply perm_swap].
Qed.

(** thirty-one rows, half a feature given as a text *)
Example C296_case : exists s s' : select, let fr := m_frame s in digestible (m_down s) fr /\ NoDup (held (hres_cells fr)) /\ f_rows fr <> [] /\ m_clf s = None /\
  train (fun rows labels => Some (fun r => match r with [Some x] => if Qle_bool x 1 then "BOCPD" else "CUSUM" | _ => "CUSUM" end, ([0%Q], [1#2])))%string s = Some s' /\
  fit_results s' = Some ("CUSUM" :: repeat "BOCPD" 30)%string /\ predict s' [("mean", Some (100004#100000))%Q]%string = Some "BOCPD"%string /\ predict s' [("mean", Some (100006#100000))%Q]%string = Some "CUSUM"%string.
Proof.
  set (fr := {| f_feats := []; f_hres := []; f_rows := (Written (Some [("mean", FText (Some (Some (3#2))))]), Written (Some []), "CUSUM") :: repeat (Written (Some [("mean", FNum (Some (1#2)))]), Written (Some []), "BOCPD") 30 |}%string).
  exists {| m_frame := fr; m_down := default_down; m_clf := None; m_results := None |}. eexists. cbv zeta. cbn [m_frame m_down].
  split; [split |].
  - intros c I. unfold feats_cells, fr in I. cbn [f_rows map fst] in I. destruct I as [I|I]; [subst c | apply in_map_iff in I; destruct I as (r & E & I); apply repeat_spec in I; subst r; cbn in E; subst c]; eexists; (split; [reflexivity |]); intros k v J; cbn in J; intuition congruence.
  - intros c I. exists []. split; [| intros alg p e k v []]. unfold hres_cells, fr in I. cbn [f_rows map fst snd] in I. destruct I as [I|I]; [rewrite <- I; reflexivity |]. apply in_map_iff in I. destruct I as (r & E & I). apply repeat_spec in I. subst r. cbn in E. rewrite <- E. reflexivity.
  - split; [vm_compute; constructor |]. split; [discriminate |]. split; [reflexivity |]. split; [vm_compute; reflexivity |]. split; [vm_compute; reflexivity |]. split; vm_compute; reflexivity.
Qed.

Print Assumptions C296_accepted.
Print Assumptions C296_untrained.
Print Assumptions C296_report_refuted.
Print Assumptions C296_rounded.
Print Assumptions C296_predict.
Print Assumptions C296_by_name.
Print Assumptions C296_trained_partial.
Print Assumptions C296_again.
Print Assumptions C296_order_refuted.
