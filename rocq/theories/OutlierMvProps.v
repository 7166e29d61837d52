(** The multivariate anomaly detector: C109 - C112. *)
From Verif Require Import Common BacktestModel RollingModel DTWModel MedianSpec RollingSpec RollingStatsProps OutlierModel OutlierSpec OutlierProps OutlierUnitsProps OutlierRemoveProps.
From Coq Require Import Sorted Permutation.
Open Scope nat_scope.

(** ** C110: cleaning the training data *)
Lemma keep3_spec l x : l <> [] -> (keep3 (qavg l) (nanvar l) x = false <-> is_hole l x).
Proof.
  intros Hl. pose proof (qavg_mean l Hl) as M. pose proof (nanvar_ok l Hl) as V. unfold keep3, is_hole. split.
  - intros H. exists (qavg l), (nanvar l). split; [exact M|]. split; [exact V|]. apply andb_false_iff in H as [H|H].
    + left. apply negb_false_iff, Qeq_bool_iff in H. exact H.
    + right. apply orb_false_iff in H as (A & B). unfold qltb in A, B. apply negb_false_iff, Qle_bool_iff in A. apply negb_false_iff, Qle_bool_iff in B. split; assumption.
  - intros (m & v & Hm & Hv & H). pose proof (mean_unique _ _ _ Hl M Hm) as E1. pose proof (variance_unique _ _ _ Hl V Hv) as E2. apply andb_false_iff.
    destruct H as [H|(A & B)]; [left; apply negb_false_iff, Qeq_bool_iff; rewrite E2; exact H|right].
    apply orb_false_iff. unfold qltb. split; apply negb_false_iff, Qle_bool_iff; [rewrite E1; exact A|rewrite E1, E2; exact B].
Qed.
Lemma clean_column_ok l : cleaned l (clean_column l).
Proof.
  unfold cleaned, clean_column. set (holes := map _ l). exists holes. assert (L : length holes = length l) by (unfold holes; apply map_length).
  split; [exact L|]. split; [rewrite interpolate_length; exact L|]. split.
  - intros i x E. unfold holes. rewrite nth_error_map, E. cbn [option_map]. assert (Hl : l <> []) by (intros ->; destruct i; discriminate).
    pose proof (keep3_spec l x Hl) as K. destruct (keep3 (qavg l) (nanvar l) x); [right|left].
    + split; [intros C; apply K in C; discriminate|reflexivity].
    + split; [apply K; reflexivity|reflexivity].
  - intros i Hi. rewrite interpolate_nth by lia. destruct (interp_ok holes i) as [(v & -> & H)|(-> & H)]; [left; exists v; split; [reflexivity|exact H]|right; split; [reflexivity|exact H]].
Qed.
Lemma exists_le_mean l m : l <> [] -> mean_of l m -> exists x, In x l /\ (x <= m)%Q.
Proof.
  intros Hl Hm. destruct (existsb (fun x => Qle_bool x m) l) eqn:E.
  - apply existsb_exists in E as (x & A & B). exists x. split; [exact A|apply Qle_bool_iff, B].
  - exfalso. assert (H : forall x, In x l -> (m < x)%Q). { intros x Hx. apply Qnot_le_lt. intros C. apply Qle_bool_iff in C. assert (existsb (fun x => Qle_bool x m) l = true) by (apply existsb_exists; exists x; split; assumption). congruence. }
    unfold mean_of in Hm. assert (G : (m * inject_Z (Z.of_nat (length l)) < qsum l)%Q); [|lra]. clear E Hm. destruct l as [|a t]; [contradiction|]. clear Hl. revert H. revert a.
    induction t as [|b t IH]; intros a H.
    + cbn [length qsum]. change (inject_Z (Z.of_nat 1)) with 1%Q. specialize (H a (or_introl eq_refl)). lra.
    + specialize (IH b ltac:(intros x Hx; apply H; right; exact Hx)). specialize (H a (or_introl eq_refl)). change (qsum (a :: b :: t)) with (a + qsum (b :: t))%Q.
      change (length (a :: b :: t)) with (S (length (b :: t))). rewrite Nat2Z.inj_succ. unfold Z.succ. rewrite inject_Z_plus. change (inject_Z 1) with 1%Q. lra.
Qed.
(** The training data of a metric that varies is complete after cleaning; entries less than
    three standard deviations above the mean keep their values, the others are interpolated. *)
Theorem C110_cleaned_partial : forall width rows j,
  j < width -> rows <> [] ->
  let col := map (fun r => nth j (snd r) 0%Q) rows in
  let c := nth j (clean_data width rows) [] in
  length (clean_data width rows) = width /\ cleaned col c /\
  (forall v, variance_of col v -> ~ (v == 0)%Q -> forall i, i < length rows -> exists x, nth_error c i = Some (Some x)) /\
  (forall i x, nth_error col i = Some x -> ~ is_hole col x -> nth_error c i = Some (Some x)).
Proof.
  intros width rows j Hj Hr col c. assert (Ec : c = clean_column col).
  { unfold c, clean_data. rewrite (nth_indep _ [] (clean_column (column 0 rows))) by (rewrite map_length, seq_length; exact Hj).
    rewrite (map_nth (fun j => clean_column (column j rows))), seq_nth by exact Hj. reflexivity. }
  split; [unfold clean_data; rewrite map_length, seq_length; reflexivity|]. rewrite Ec. pose proof (clean_column_ok col) as H. split; [exact H|].
  assert (Hl : col <> []) by (unfold col; destruct rows; [contradiction|discriminate]). assert (L : length col = length rows) by (unfold col; apply map_length). split.
  - intros v Hv Nz i Hi. destruct H as (holes & L1 & L2 & H1 & H2). destruct (H2 i ltac:(lia)) as [(x & E & _)|(_ & C)]; [exists x; exact E|]. exfalso.
    destruct (exists_le_mean col (qavg col) Hl (qavg_mean col Hl)) as (x & Hx & Lx). apply In_nth_error in Hx as (k & Ek).
    destruct (H1 k x Ek) as [((m & v' & Hm & Hv' & D) & _)|(_ & E)]; [|apply (C k x E)].
    pose proof (mean_unique _ _ _ Hl (qavg_mean col Hl) Hm) as Em. pose proof (variance_unique _ _ _ Hl Hv Hv') as Ev. pose proof (variance_nonneg _ _ Hl Hv').
    destruct D as [D|(D1 & D2)]; [apply Nz; rewrite Ev; exact D|]. assert (E0 : (x - m == 0)%Q) by lra. rewrite E0 in D2. apply Nz. rewrite Ev. lra.
  - intros i x E N. unfold clean_column. assert (Hi : i < length col) by (apply nth_error_Some; congruence). rewrite interpolate_nth by (rewrite map_length; exact Hi).
    f_equal. apply interp_id. rewrite nth_error_map, E. cbn [option_map]. destruct (keep3 (qavg col) (nanvar col) x) eqn:K; [reflexivity|]. apply keep3_spec in K; [contradiction|exact Hl].
Qed.
(** Cleaning is one-sided: an entry more than three standard deviations below the mean stays.
    And a constant metric loses all its values. *)
Definition c110_rows : list (Z * list Q) := map (fun i => (Z.of_nat i, [if Nat.eqb i 5 then (-100)%Q else 1%Q; 7%Q])) (seq 0 12).
Theorem C110_symmetric_refuted : exists rows i x m v,
  nth_error (map (fun r => nth 0 (snd r) 0%Q) rows) i = Some x /\ mean_of (map (fun r => nth 0 (snd r) 0%Q) rows) m /\ variance_of (map (fun r => nth 0 (snd r) 0%Q) rows) v /\
  (x < m)%Q /\ (9 * v < (x - m) * (x - m))%Q /\ nth_error (nth 0 (clean_data 2 rows) []) i = Some (Some x).
Proof.
  exists c110_rows, 5, (-100)%Q, (qavg (column 0 c110_rows)), (nanvar (column 0 c110_rows)). split; [reflexivity|]. split; [apply qavg_mean; discriminate|]. split; [apply nanvar_ok; discriminate|].
  split; [vm_compute; reflexivity|]. split; [vm_compute; reflexivity|]. vm_compute. reflexivity.
Qed.
Theorem C110_constant_refuted : forall width rows j c, j < width -> rows <> [] -> (forall r, In r rows -> nth j (snd r) 0%Q == c)%Q ->
  forall i, i < length rows -> nth_error (nth j (clean_data width rows) []) i = Some None.
Proof.
  intros width rows j c Hj Hr Hc i Hi. destruct (C110_cleaned_partial width rows j Hj Hr) as (_ & (holes & L1 & L2 & H1 & H2) & _). rewrite map_length in *.
  assert (Hl : map (fun r => nth j (snd r) 0%Q) rows <> []) by (destruct rows; [contradiction|discriminate]).
  set (col := map (fun r => nth j (snd r) 0%Q) rows) in *. assert (Hcol : forall x, In x col -> (x == c)%Q) by (intros x Hx; apply in_map_iff in Hx as (r & <- & Hr'); apply Hc, Hr').
  assert (Em : (qavg col == c)%Q). { pose proof (qavg_mean col Hl) as M. apply (mean_unique col); [exact Hl|exact M|]. unfold mean_of. clear - Hcol. induction col as [|a t IH]; [cbn [length qsum]; change (inject_Z (Z.of_nat 0)) with 0%Q; ring|]. cbn [length qsum]. rewrite Nat2Z.inj_succ. unfold Z.succ. rewrite inject_Z_plus, Qmult_plus_distr_r, IH by (intros; apply Hcol; right; assumption). rewrite (Hcol a (or_introl eq_refl)). change (inject_Z 1) with 1%Q. ring. }
  assert (Ev : (nanvar col == 0)%Q). { apply (variance_unique col); [exact Hl|apply nanvar_ok, Hl|]. exists (qavg col). split; [apply qavg_mean, Hl|]. unfold mean_of. 
    assert (E : (qsum (map (fun x => (x - qavg col) * (x - qavg col)) col) == qsum (map (fun _ => 0) col))%Q) by (apply qsum_ext; intros x Hx; rewrite (Hcol x Hx), Em; ring).
    rewrite E. clear. induction col; cbn [map qsum]; [ring|]. rewrite <- IHcol. ring. }
  destruct (H2 i ltac:(lia)) as [(v & E & O)|(E & _)]; [|exact E]. exfalso.
  assert (N : forall k x, nth_error holes k <> Some (Some x)).
  { intros k x Ek. assert (Hk : k < length holes) by (apply nth_error_Some; congruence). destruct (nth_error col k) as [y|] eqn:Ey; [|apply nth_error_None in Ey; unfold col in Ey; rewrite map_length in Ey; lia].
    destruct (H1 k y Ey) as [(_ & C)|(C & _)]; [congruence|]. apply C. exists (qavg col), (nanvar col). split; [apply qavg_mean, Hl|]. split; [apply nanvar_ok, Hl|]. left. exact Ev. }
  destruct O as [(p & q & x & y & _ & _ & E1 & _)|[(p & x & _ & _ & E1 & _)|(q & y & _ & _ & E1 & _)]]; eapply N; eassumption.
Qed.

(** ** C109: the schedule *)
Section Schedule.
Variable M : Type.
Variable fit : list Z -> list (list (option Q)) -> option M.
Variable predict : M -> list Q.
Variable single : M -> list Q -> list Q.
Variable overall : M -> list Q -> Q.
Variable chi2_sf : nat -> Q -> Q.
Notation detector := (mv_detector M fit predict single overall chi2_sf).
Notation step := (score_step M fit predict single overall chi2_sf).
Notation loop := (mv_loop M fit predict single overall chi2_sf).

Lemma loop_some g look width rows stop : (0 < g)%Z -> forall n fuel t, (stop <= t + g * Z.of_nat n)%Z -> (forall i, i < n -> (t + g * Z.of_nat i < stop)%Z) -> n <= fuel ->
  loop fuel g look width rows t stop = mapM (fun i => step g look width rows (t + g * Z.of_nat i)%Z) (seq 0 n).
Proof.
  intros Hg. induction n as [|n IH]; intros fuel t H1 H2 Hf.
  - destruct fuel; cbn [mv_loop]; (destruct (Z.ltb_spec t stop); [lia|reflexivity]).
  - destruct fuel as [|fuel]; [lia|]. cbn [mv_loop]. destruct (Z.ltb_spec t stop) as [L|L]; [|specialize (H2 0 ltac:(lia)); lia].
    cbn [seq mapM]. replace (t + g * Z.of_nat 0)%Z with t by lia. destruct (step g look width rows t) as [s|]; [|reflexivity].
    rewrite (IH fuel (t + g)%Z) by (lia || (intros i Hi; specialize (H2 (S i) ltac:(lia)); lia)).
    rewrite <- seq_shift. assert (E : forall l, mapM (fun i => step g look width rows (t + g + g * Z.of_nat i)%Z) l = mapM (fun i => step g look width rows (t + g * Z.of_nat i)%Z) (map S l)).
    { induction l as [|i l IHl]; [reflexivity|]. cbn [mapM map]. rewrite <- IHl. replace (t + g * Z.of_nat (S i))%Z with (t + g + g * Z.of_nat i)%Z by lia. reflexivity. }
    rewrite E. destruct (mapM _ (map S (seq 0 n))); reflexivity.
Qed.

Definition on_grid (t0 g : Z) (rows : list (Z * list Q)) : Prop := forall i r, nth_error rows i = Some r -> fst r = (t0 + g * Z.of_nat i)%Z.
Lemma grid_minmax t0 g rows : (0 < g)%Z -> rows <> [] -> on_grid t0 g rows -> zmin (map fst rows) = t0 /\ zmax (map fst rows) = (t0 + g * Z.of_nat (length rows - 1))%Z.
Proof.
  intros Hg Hr H. assert (Hne : map fst rows <> []) by (destruct rows; [contradiction|discriminate]). destruct (zmin_spec _ Hne) as (A & B), (zmax_spec _ Hne) as (C & D).
  assert (F : forall i, i < length rows -> In (t0 + g * Z.of_nat i)%Z (map fst rows)).
  { intros i Hi. destruct (nth_error rows i) as [r|] eqn:E; [|apply nth_error_None in E; lia]. rewrite <- (H i r E). apply in_map. eapply nth_error_In, E. }
  assert (G : forall t, In t (map fst rows) -> exists i, i < length rows /\ t = (t0 + g * Z.of_nat i)%Z).
  { intros t Ht. apply in_map_iff in Ht as (r & <- & Hr'). apply In_nth_error in Hr' as (i & Ei). exists i. split; [apply nth_error_Some; congruence|apply (H i r Ei)]. }
  assert (Hn : 0 < length rows) by (destruct rows; [contradiction|cbn; lia]).
  destruct (G _ A) as (i & Hi & Ei), (G _ C) as (j & Hj & Ej). pose proof (B _ (F 0 Hn)). pose proof (D _ (F (length rows - 1) ltac:(lia))).
  split; [nia|]. nia.
Qed.
Lemma grid_window t0 g rows a m : (0 < g)%Z -> on_grid t0 g rows -> 
  filter (fun r => Z.leb (t0 + g * Z.of_nat a) (fst r) && Z.leb (fst r) (t0 + g * Z.of_nat (a + m))) rows = firstn (S m) (skipn a rows).
Proof.
  intros Hg. revert t0 a m. induction rows as [|r t IH]; intros t0 a m H; [rewrite skipn_nil, firstn_nil; reflexivity|].
  assert (Hr : fst r = t0) by (specialize (H 0 r eq_refl); lia).
  assert (Ht : on_grid (t0 + g) g t) by (intros i r' E; specialize (H (S i) r' E); lia).
  cbn [filter]. rewrite Hr. destruct a as [|a].
  - destruct (Z.leb_spec (t0 + g * Z.of_nat 0) t0); [|lia]. destruct (Z.leb_spec t0 (t0 + g * Z.of_nat (0 + m))); [|nia]. cbn [andb skipn]. cbn [firstn]. f_equal.
    destruct m as [|m].
    + cbn [firstn]. assert (E : forall l : list (Z * list Q), (forall r', In r' l -> (t0 < fst r')%Z) -> filter (fun r => Z.leb (t0 + g * Z.of_nat 0) (fst r) && Z.leb (fst r) (t0 + g * Z.of_nat (0 + 0))) l = []).
      { induction l as [|x l IHl]; intros Hl; [reflexivity|]. cbn [filter]. specialize (Hl x (or_introl eq_refl)) as Hx. destruct (Z.leb_spec (fst x) (t0 + g * Z.of_nat (0 + 0))); [lia|]. rewrite andb_false_r. apply IHl. intros; apply Hl; right; assumption. }
      apply E. intros r' Hr'. apply In_nth_error in Hr' as (i & Ei). rewrite (Ht i r' Ei). nia.
    + change t with (skipn 0 t) at 2. rewrite <- (IH (t0 + g)%Z 0 m Ht). apply filter_ext_in. intros r' Hr'. apply In_nth_error in Hr' as (i & Ei). rewrite (Ht i r' Ei).
      f_equal; [destruct (Z.leb_spec (t0 + g * Z.of_nat 0) (t0 + g + g * Z.of_nat i)), (Z.leb_spec (t0 + g + g * Z.of_nat 0) (t0 + g + g * Z.of_nat i)); nia|].
      replace (t0 + g * Z.of_nat (0 + S m))%Z with (t0 + g + g * Z.of_nat (0 + m))%Z by lia. reflexivity.
  - destruct (Z.leb_spec (t0 + g * Z.of_nat (S a)) t0); [nia|]. cbn [andb skipn]. rewrite <- (IH (t0 + g)%Z a m Ht).
    replace (t0 + g * Z.of_nat (S a))%Z with (t0 + g + g * Z.of_nat a)%Z by lia. replace (t0 + g * Z.of_nat (S a + m))%Z with (t0 + g + g * Z.of_nat (a + m))%Z by lia. reflexivity.
Qed.
Lemma grid_find t0 g rows : (0 < g)%Z -> on_grid t0 g rows -> forall k, find (fun r => Z.eqb (t0 + g * Z.of_nat k) (fst r)) rows = nth_error rows k.
Proof.
  intros Hg. revert t0. induction rows as [|r t IH]; intros t0 H k; [destruct k; reflexivity|]. cbn [find]. assert (Hr : fst r = t0) by (specialize (H 0 r eq_refl); lia).
  assert (Ht : on_grid (t0 + g) g t) by (intros i r' E; specialize (H (S i) r' E); lia). rewrite Hr. destruct k as [|k].
  - destruct (Z.eqb_spec (t0 + g * Z.of_nat 0) t0); [reflexivity|lia].
  - destruct (Z.eqb_spec (t0 + g * Z.of_nat (S k)) t0); [nia|]. cbn [nth_error]. rewrite <- (IH _ Ht k). replace (t0 + g * Z.of_nat (S k))%Z with (t0 + g + g * Z.of_nat k)%Z by lia. reflexivity.
Qed.
Lemma find_none_grid t0 g rows t : on_grid t0 g rows -> (forall k, t <> t0 + g * Z.of_nat k)%Z -> find (fun r => Z.eqb t (fst r)) rows = None.
Proof.
  intros H N. destruct (find _ rows) as [r|] eqn:E; [|reflexivity]. apply find_some in E as (A & B). apply Z.eqb_eq in B. apply In_nth_error in A as (k & Ek).
  exfalso. apply (N k). rewrite B. apply (H k r Ek).
Qed.
Lemma mapM_none {A B} (f : A -> option B) l : mapM f l = None <-> exists x, In x l /\ f x = None.
Proof.
  induction l as [|a t IH]; cbn [mapM]; [split; [discriminate|intros (x & [] & _)]|]. destruct (f a) as [b|] eqn:E.
  - destruct (mapM f t) as [u|].
    + split; [discriminate|]. intros (x & [<-|H] & F); [congruence|]. destruct IH as [_ IH]. specialize (IH (ex_intro _ x (conj H F))). discriminate.
    + split; [|reflexivity]. intros _. destruct IH as [IH _]. destruct (IH eq_refl) as (x & H & F). exists x. split; [right; exact H|exact F].
  - split; [|reflexivity]. intros _. exists a. split; [left; reflexivity|exact E].
Qed.
Lemma mapM_nth {A B} (f : A -> option B) : forall l out, mapM f l = Some out -> length out = length l /\ forall i b, nth_error out i = Some b -> exists a, nth_error l i = Some a /\ f a = Some b.
Proof.
  induction l as [|a t IH]; intros out E; cbn [mapM] in E; [injection E as <-; split; [reflexivity|intros [|i] b H; discriminate]|].
  destruct (f a) as [b|] eqn:F; [|discriminate]. destruct (mapM f t) as [u|]; [|discriminate]. injection E as <-. destruct (IH u eq_refl) as (L & H).
  split; [cbn; congruence|]. intros [|i] c Hc; [injection Hc as <-; exists a; split; [reflexivity|exact F]|exact (H i c Hc)].
Qed.

(** On a regular series with a whole number of training steps, every observation after the
    training period gets one score at its own time, from its own value and a model fitted to
    the cleaned rows of the training period that ends one step earlier; the call raises iff a
    fit fails. *)
Theorem C109_schedule : forall t0 g m width rows, (0 < g)%Z -> rows <> [] -> on_grid t0 g rows ->
  let scored := length rows - 1 - m in
  let window j := firstn (S m) (skipn j rows) in
  (detector g (g * Z.of_nat m)%Z width rows = None <->
     exists j, j < scored /\ fit (map fst (window j)) (clean_data width (window j)) = None) /\
  forall out, detector g (g * Z.of_nat m)%Z width rows = Some out ->
    length out = scored /\
    forall j s, nth_error out j = Some s -> exists model cols actual,
      (forall c, c < width -> cleaned (map (fun r => nth c (snd r) 0%Q) (window j)) (nth c cols [])) /\ length cols = width /\
      fit (map fst (window j)) cols = Some model /\
      nth_error rows (S (j + m)) = Some (s_time s, actual) /\
      exists e, length e = Nat.min (length (predict model)) (length actual) /\ (forall i, i < length e -> nth i e 0%Q = (nth i (predict model) 0 - nth i actual 0)%Q) /\
      s_metrics s = single model e /\ s_overall s = overall model e /\ s_p s = chi2_sf width (s_overall s).
Proof.
  intros t0 g m width rows Hg Hr H scored window. destruct (grid_minmax t0 g rows Hg Hr H) as (Emin & Emax).
  assert (Hn : 0 < length rows) by (destruct rows; [contradiction|cbn; lia]).
  assert (E : detector g (g * Z.of_nat m)%Z width rows = mapM (fun i => step g (g * Z.of_nat m)%Z width rows (t0 + g * Z.of_nat m + g * Z.of_nat i)%Z) (seq 0 scored)).
  { unfold mv_detector. rewrite Emin, Emax. apply loop_some; [exact Hg| | |]; unfold scored.
    - nia.
    - intros i Hi. nia.
    - destruct (Nat.le_gt_cases (length rows - 1) m) as [Hle|Hle]; [lia|]. apply Nat2Z.inj_le. rewrite Z2Nat.id; nia. }
  assert (Es : forall j, j < scored -> exists r, nth_error rows (S (j + m)) = Some r /\
     step g (g * Z.of_nat m)%Z width rows (t0 + g * Z.of_nat m + g * Z.of_nat j)%Z =
     match fit (map fst (window j)) (clean_data width (window j)) with None => None
     | Some md => let rt := minus (predict md) (snd r) in Some {| s_time := fst r; s_metrics := single md rt; s_overall := overall md rt; s_p := chi2_sf width (overall md rt) |} end).
  { intros j Hj. unfold scored in Hj. destruct (nth_error rows (S (j + m))) as [r|] eqn:Er; [|apply nth_error_None in Er; lia]. exists r. split; [reflexivity|].
    unfold score_step. assert (W : filter (fun r => Z.leb (t0 + g * Z.of_nat m + g * Z.of_nat j - g * Z.of_nat m) (fst r) && Z.leb (fst r) (t0 + g * Z.of_nat m + g * Z.of_nat j)) rows = window j).
    { unfold window. rewrite <- (grid_window t0 g rows j m Hg H). apply filter_ext. intros x. f_equal; f_equal; lia. }
    rewrite W. destruct (fit _ _) as [md|]; [|reflexivity].
    replace (t0 + g * Z.of_nat m + g * Z.of_nat j + g)%Z with (t0 + g * Z.of_nat (S (j + m)))%Z by lia. rewrite (grid_find t0 g rows Hg H), Er.
    cbv zeta. do 2 f_equal. rewrite (H _ _ Er). reflexivity. }
  rewrite E. split.
  - rewrite mapM_none. split.
    + intros (j & Hj & F). apply in_seq in Hj. exists j. split; [lia|]. destruct (Es j ltac:(lia)) as (r & _ & F'). rewrite F in F'. destruct (fit _ _); [discriminate|reflexivity].
    + intros (j & Hj & F). exists j. split; [apply in_seq; lia|]. destruct (Es j Hj) as (r & _ & ->). rewrite F. reflexivity.
  - intros out Eo. destruct (mapM_nth _ _ _ Eo) as (L & Hout). rewrite seq_length in L. split; [exact L|]. intros j s Hs. destruct (Hout j s Hs) as (i & Hi & F).
    assert (Hj : j < scored) by (rewrite <- L; apply nth_error_Some; congruence).
    assert (i = j) by (rewrite (nth_error_nth' (seq 0 scored) 0) in Hi by (rewrite seq_length; exact Hj); rewrite seq_nth in Hi by exact Hj; injection Hi as Hi; lia). subst i.
    destruct (Es j Hj) as (r & Er & F'). rewrite F in F'. destruct (fit _ _) as [md|] eqn:Ef; [|discriminate]. injection F' as Fs.
    exists md, (clean_data width (window j)), (snd r). split; [|split; [unfold clean_data; rewrite map_length, seq_length; reflexivity|]].
    + intros c Hc. unfold clean_data. rewrite (nth_indep _ [] (clean_column (column 0 (window j)))) by (rewrite map_length, seq_length; exact Hc).
      rewrite (map_nth (fun j0 => clean_column (column j0 (window j)))), seq_nth by exact Hc. apply clean_column_ok.
    + split; [exact Ef|]. split; [rewrite Er, Fs; cbn; destruct r; reflexivity|]. exists (minus (predict md) (snd r)). unfold minus at 1 2. rewrite map_length, combine_length. split; [reflexivity|].
      split; [|rewrite Fs; repeat split].
      intros k Hk. unfold minus. clear - Hk. generalize (predict md) as a, (snd r) as b, k, Hk. intros a. induction a as [|x a IH]; intros [|y b] k0 Hk0; cbn in Hk0; try lia. destruct k0; [reflexivity|]. cbn [combine map nth]. apply IH. cbn. lia.
Qed.
(** With a training period that is not a whole number of steps the call raises. *)
Theorem C109_off_grid : forall t0 g look width rows, (0 < g)%Z -> rows <> [] -> on_grid t0 g rows -> (0 <= look)%Z ->
  (forall m, look <> g * m)%Z -> (t0 + look < t0 + g * Z.of_nat (length rows - 1))%Z -> detector g look width rows = None.
Proof.
  intros t0 g look width rows Hg Hr H Hl Hm Hs. destruct (grid_minmax t0 g rows Hg Hr H) as (Emin & Emax). unfold mv_detector. rewrite Emin, Emax.
  destruct (Z.to_nat (t0 + g * Z.of_nat (length rows - 1) - (t0 + look))) as [|f]; cbn [mv_loop]; (destruct (Z.ltb_spec (t0 + look) (t0 + g * Z.of_nat (length rows - 1))); [|lia]); [reflexivity|].
  unfold score_step. destruct (fit _ _); [|reflexivity]. rewrite (find_none_grid t0 g rows); [reflexivity|exact H|].
  intros k E. apply (Hm (Z.of_nat k - 1)%Z). lia.
Qed.

(** ** C111 *)
Lemma loop_times g look width rows stop : (0 < g)%Z -> forall fuel t out, loop fuel g look width rows t stop = Some out ->
  StronglySorted Z.lt (map s_time out) /\ (forall s, In s out -> (t < s_time s)%Z /\ s_p s = chi2_sf width (s_overall s)).
Proof.
  intros Hg. induction fuel as [|f IH]; intros t out E; cbn [mv_loop] in E; destruct (Z.ltb t stop); try discriminate; try (injection E as <-; split; [constructor|intros s []]).
  destruct (step g look width rows t) as [s|] eqn:S; [|discriminate]. destruct (loop f g look width rows (t + g)%Z stop) as [u|] eqn:U; [|discriminate]. injection E as <-.
  destruct (IH _ _ U) as (A & B). assert (Es : s_time s = (t + g)%Z /\ s_p s = chi2_sf width (s_overall s)).
  { unfold score_step in S. destruct (fit _ _); [|discriminate]. destruct (find _ rows); [|discriminate]. injection S as <-. split; reflexivity. }
  destruct Es as (E1 & E2). split.
  - cbn [map]. constructor; [exact A|]. apply Forall_forall. intros x Hx. apply in_map_iff in Hx as (s' & <- & Hs'). rewrite E1. apply B, Hs'.
  - intros s' [<-|Hs']; [split; [lia|exact E2]|]. destruct (B s' Hs'). split; [lia|assumption].
Qed.
Lemma flagged_iff g look width rows out alpha s : (0 < g)%Z -> detector g look width rows = Some out -> In s out ->
  (In (s_time s) (anomaly_times alpha out) <-> (chi2_sf width (s_overall s) < alpha)%Q).
Proof.
  intros Hg E Hs. destruct (loop_times _ _ _ _ _ Hg _ _ _ E) as (A & B). unfold anomaly_times. rewrite in_map_iff. split.
  - intros (s' & Et & H). apply filter_In in H as (H1 & H2). apply qltb_t in H2. assert (s' = s).
    { clear - A Et H1 Hs. induction out as [|x t IH]; [destruct Hs|]. cbn [map] in A. inversion A as [|? ? A1 A2]; subst. rewrite Forall_forall in A2.
      destruct H1 as [<-|H1], Hs as [<-|Hs]; [reflexivity| | |apply IH; assumption]; exfalso.
      - apply (in_map s_time), A2 in Hs. lia.
      - apply (in_map s_time), A2 in H1. lia. }
    subst s'. rewrite <- (proj2 (B s Hs)). exact H2.
  - intros L. exists s. split; [reflexivity|]. apply filter_In. split; [exact Hs|]. apply qltb_t. rewrite (proj2 (B s Hs)). exact L.
Qed.
(** The p-value is the tail at the distance, not at its square (which is what has the
    chi-square distribution): for every strictly decreasing tail and every point there is a
    level at which the point is missed (distance above 1) or reported wrongly (below 1). *)
Theorem C111_level_refuted : forall g look width rows out s, (0 < g)%Z ->
  (forall a b, (0 <= a)%Q -> (a < b)%Q -> (chi2_sf width b < chi2_sf width a)%Q) ->
  detector g look width rows = Some out -> In s out ->
  ((1 < s_overall s)%Q -> exists alpha, (chi2_sf width (s_overall s * s_overall s) < alpha)%Q /\ ~ In (s_time s) (anomaly_times alpha out)) /\
  ((0 < s_overall s)%Q -> (s_overall s < 1)%Q -> exists alpha, ~ (chi2_sf width (s_overall s * s_overall s) < alpha)%Q /\ In (s_time s) (anomaly_times alpha out)).
Proof.
  intros g look width rows out s Hg Hd E Hs. split.
  - intros L. exists (chi2_sf width (s_overall s)). split; [apply Hd; nra|]. rewrite (flagged_iff _ _ _ _ _ _ _ Hg E Hs). lra.
  - intros L1 L2. exists (chi2_sf width (s_overall s * s_overall s)). split; [lra|]. rewrite (flagged_iff _ _ _ _ _ _ _ Hg E Hs). apply Hd; nra.
Qed.
(** What holds: exactly the points with p-value below the level are reported, and a reported
    point at a distance of at least 1 is significant at that level. *)
Theorem C111_level_partial : forall g look width rows out alpha s, (0 < g)%Z ->
  (forall a b, (0 <= a)%Q -> (a <= b)%Q -> (chi2_sf width b <= chi2_sf width a)%Q) ->
  detector g look width rows = Some out -> In s out ->
  (In (s_time s) (anomaly_times alpha out) <-> (s_p s < alpha)%Q) /\
  ((1 <= s_overall s)%Q -> In (s_time s) (anomaly_times alpha out) -> (chi2_sf width (s_overall s * s_overall s) < alpha)%Q).
Proof.
  intros g look width rows out alpha s Hg Hd E Hs. rewrite (flagged_iff _ _ _ _ _ _ _ Hg E Hs). destruct (loop_times _ _ _ _ _ Hg _ _ _ E) as (_ & B). rewrite (proj2 (B s Hs)).
  split; [reflexivity|]. intros L H. eapply Qle_lt_trans; [apply (Hd (s_overall s)); nra|exact H].
Qed.
End Schedule.

(** ** C112 *)
Lemma insert_desc_perm {N} (x : N * Q) l : Permutation (insert_desc x l) (x :: l).
Proof. induction l as [|y t IH]; cbn; [apply Permutation_refl|]. destruct (Qle_bool (snd y) (snd x)); [apply Permutation_refl|]. rewrite IH. apply perm_swap. Qed.
Lemma insert_desc_sorted {N} (x : N * Q) l : StronglySorted (fun p q => snd q <= snd p)%Q l -> StronglySorted (fun p q => snd q <= snd p)%Q (insert_desc x l).
Proof.
  induction 1 as [|y t Ht IH Hy]; cbn; [repeat constructor|]. rewrite Forall_forall in Hy. destruct (Qle_bool (snd y) (snd x)) eqn:E.
  - apply Qle_bool_iff in E. constructor; [constructor; [exact Ht|apply Forall_forall; exact Hy]|]. apply Forall_forall. intros z [<-|Hz]; [exact E|]. eapply Qle_trans; [apply Hy, Hz|exact E].
  - constructor; [exact IH|]. apply Forall_forall. intros z Hz. apply (Permutation_in _ (insert_desc_perm x t)) in Hz as [<-|Hz]; [|apply Hy, Hz].
    destruct (Qlt_le_dec (snd x) (snd y)); [lra|]. assert (Qle_bool (snd y) (snd x) = true) by (apply Qle_bool_iff; assumption). congruence.
Qed.
(** The scores at a time come in descending order, those of all metrics among them, and
    a limit returns the first ones. *)
Theorem C112_order_partial : forall N (names : list N) p_name l t all,
  anomalous_metrics names p_name l t None = Some all ->
  StronglySorted (fun p q => snd q <= snd p)%Q all /\
  (forall s, In s l -> (forall s', In s' l -> s_time s' = s_time s -> s' = s) -> s_time s = t -> Permutation all (combine names (s_metrics s) ++ [(p_name, s_p s)])) /\
  forall k, anomalous_metrics names p_name l t (Some k) = Some (firstn k all).
Proof.
  intros N names p_name l t all E. unfold anomalous_metrics in *. destruct (find _ l) as [s|] eqn:F; [|discriminate]. injection E as <-. apply find_some in F as (F1 & F2). apply Z.eqb_eq in F2.
  assert (P : forall d : list (N * Q), StronglySorted (fun p q => snd q <= snd p)%Q (fold_right insert_desc [] d) /\ Permutation (fold_right insert_desc [] d) d).
  { induction d as [|x d (IH1 & IH2)]; [split; constructor|]. cbn [fold_right]. split; [apply insert_desc_sorted, IH1|]. rewrite insert_desc_perm, IH2. apply Permutation_refl. }
  destruct (P (combine names (s_metrics s) ++ [(p_name, s_p s)])) as (P1 & P2). split; [exact P1|]. split; [|reflexivity].
  intros s' Hs' Hu Et. assert (s = s') by (apply Hu; [exact F1|congruence]). subst s'. exact P2.
Qed.
(** The p-value is listed as if it were a metric. *)
Theorem C112_metrics_refuted : forall N (names : list N) p_name l t all, ~ In p_name names ->
  anomalous_metrics names p_name l t None = Some all -> exists p, In (p_name, p) all.
Proof.
  intros N names p_name l t all _ E. unfold anomalous_metrics in E. destruct (find _ l) as [s|]; [|discriminate]. injection E as <-. exists (s_p s).
  assert (P : forall d : list (N * Q), Permutation (fold_right insert_desc [] d) d) by (induction d as [|x d IH]; [constructor|cbn [fold_right]; rewrite insert_desc_perm, IH; apply Permutation_refl]).
  apply (Permutation_in _ (Permutation_sym (P _))). apply in_or_app. right. left. reflexivity.
Qed.

(** a run: the "model" predicts the last cleaned row; three steps of training *)
Definition c109_fit (ts : list Z) (cols : list (list (option Q))) : option (list Q) := mapM (fun c => last c None) cols.
Definition c109_rows : list (Z * list Q) := map (fun p => (10 + 5 * Z.of_nat (fst p), [inject_Z (snd p); inject_Z (2 * snd p)])%Z) (combine (seq 0 7) [1; 2; 1; 2; 8; 2; 3]%Z).
Definition c109_overall (_ : list Q) (e : list Q) : Q := qsum (map Qabs e).
Definition c109_sf (_ : nat) (d : Q) : Q := (1 / (1 + d))%Q.
Example C109_case : on_grid 10 5 c109_rows /\
  option_map (map (fun s => (s_time s, Qred (s_overall s), Qred (s_p s)))) (mv_detector (list Q) c109_fit (fun m => m) (fun _ e => map Qabs e) c109_overall c109_sf 5 15 2 c109_rows)
    = Some [(30%Z, 18%Q, 1#19); (35%Z, 18%Q, 1#19); (40%Z, 3%Q, 1#4)]%Q /\
  option_map (fun out => anomaly_times (1#10) out) (mv_detector (list Q) c109_fit (fun m => m) (fun _ e => map Qabs e) c109_overall c109_sf 5 15 2 c109_rows) = Some [30%Z; 35%Z] /\
  (forall a b, (0 <= a)%Q -> (a < b)%Q -> (c109_sf 2 b < c109_sf 2 a)%Q).
Proof.
  split; [|split; [vm_compute; reflexivity|split; [vm_compute; reflexivity|]]].
  - intros i r E. unfold c109_rows in E. do 7 (destruct i as [|i]; [injection E as <-; reflexivity|]). destruct i; discriminate.
  - intros a b H L. unfold c109_sf. apply Qlt_shift_div_l; [lra|]. assert (E : (1 / (1 + b) * (1 + a) == (1 + a) / (1 + b))%Q) by (field; lra). rewrite E. apply Qlt_shift_div_r; lra.
Qed.
Example C110_case : exists v, variance_of (map (fun r => nth 0 (snd r) 0%Q) c110_rows) v /\ ~ (v == 0)%Q.
Proof. exists (nanvar (column 0 c110_rows)). split; [apply nanvar_ok; discriminate|]. vm_compute. discriminate. Qed.
Example C112_case : anomalous_metrics [0; 1] 9 [{| s_time := 3; s_metrics := [1; 5]; s_overall := 7; s_p := 2 |}]%Q 3 (Some 2) = Some [(1, 5%Q); (9, 2%Q)].
Proof. reflexivity. Qed.

Print Assumptions C110_cleaned_partial.
Print Assumptions C110_symmetric_refuted.
Print Assumptions C110_constant_refuted.
Print Assumptions C109_schedule.
Print Assumptions C109_off_grid.
Print Assumptions C111_level_refuted.
Print Assumptions C111_level_partial.
Print Assumptions C112_order_partial.
Print Assumptions C112_metrics_refuted.
