(** C42, C113: the table of hourly ratios. *)
From Verif Require Import Common HourlyModel HourlySpec HourlyProofs.
From Verif Require TSDataModel TSDataSpec TSDataProofs.
From Coq Require Import Permutation Sorted.
Open Scope Z_scope.

Definition day_rows (d : Z) (rows : list ratio_row) : list ratio_row := filter (fun r => h_date (r_row r) =? d) rows.
(** ** any table in the order of its dates *)
Definition keep (df : list hrow) : list hrow := filter (fun r => (count (h_date r) df =? 24)%nat) df.
Lemma keep_date df d : filter (of_date d) (keep df) = if (count d df =? 24)%nat then filter (of_date d) df else [].
Proof.
  unfold keep. rewrite filter_filter. destruct (count d df =? 24)%nat eqn:E.
  - apply filter_ext_in'. intros r _. unfold of_date. destruct (Z.eqb_spec (h_date r) d) as [->|N]; [rewrite E; reflexivity|apply andb_false_r].
  - apply filter_none. intros r _. unfold of_date. destruct (Z.eqb_spec (h_date r) d) as [->|N]; [rewrite E; reflexivity|apply andb_false_r].
Qed.
Lemma pre_inv f agg data inc rows : preprocess f agg data = Some (inc, rows) ->
  let df := prepared f agg data in
  inc = uniq Z.eqb (map h_date (filter (fun r => (count (h_date r) df <? 24)%nat) df)) /\
  rows = map (fun r => RRow r (ratio (keep df) r)) (keep df) /\ keep df <> [].
Proof.
  unfold preprocess. cbv zeta. fold (keep (prepared f agg data)).
  intros H. destruct (keep (prepared f agg data)) eqn:E; [discriminate|]. injection H as <- <-. repeat split. discriminate.
Qed.
Lemma rows_date f agg data inc rows d : preprocess f agg data = Some (inc, rows) ->
  let df := prepared f agg data in
  day_rows d rows = map (fun r => RRow r (let s := qsum (map h_val (filter (of_date d) df)) in if Qeq_bool s 0 then None else Some (h_val r / s)%Q))
                        (if (count d df =? 24)%nat then filter (of_date d) df else []).
Proof.
  intros H df. destruct (pre_inv _ _ _ _ _ H) as (_ & -> & _). fold df. unfold day_rows. rewrite filter_map. cbn [r_row].
  change (fun x : hrow => h_date x =? d) with (of_date d). 
  transitivity (map (fun r => RRow r (ratio (keep df) r)) (filter (of_date d) (keep df))); [reflexivity|].
  rewrite keep_date. apply map_ext_in. intros r I. f_equal. unfold ratio.
  assert (E : h_date r = d /\ (count d df =? 24)%nat = true).
  { destruct (count d df =? 24)%nat eqn:C; [|destruct I]. apply filter_In in I as [_ I]. split; [apply Z.eqb_eq, I|reflexivity]. }
  destruct E as [E C]. rewrite E, keep_date, C. reflexivity.
Qed.
Lemma inc_date f agg data inc rows d : preprocess f agg data = Some (inc, rows) ->
  In d inc <-> (1 <= count d (prepared f agg data) < 24)%nat.
Proof.
  intros H. destruct (pre_inv _ _ _ _ _ H) as (-> & _ & _). set (df := prepared f agg data).
  rewrite (uniq_in Z.eqb zeqb_iff), in_map_iff. split.
  - intros (r & <- & I). apply filter_In in I as [I C]. apply Nat.ltb_lt in C. split; [|exact C].
    unfold count. assert (J : In r (filter (of_date (h_date r)) df)) by (apply filter_In; split; [exact I|apply Z.eqb_refl]).
    destruct (filter (of_date (h_date r)) df); [destruct J|cbn; lia].
  - intros [L C]. unfold count in L. destruct (filter (of_date d) df) as [|r l] eqn:E; [cbn in L; lia|].
    assert (J : In r (filter (of_date d) df)) by (rewrite E; left; reflexivity). apply filter_In in J as [J D]. apply Z.eqb_eq in D.
    exists r. split; [exact D|]. apply filter_In. split; [exact J|]. rewrite D. apply Nat.ltb_lt, C.
Qed.
Lemma share_ratio v s : share_of v s (if Qeq_bool s 0 then None else Some (v / s)%Q).
Proof.
  unfold share_of. destruct (Qeq_bool s 0) eqn:E; [left; split; [apply Qeq_bool_iff, E|reflexivity]|right].
  assert (N : ~ (s == 0)%Q) by (intros C; apply Qeq_bool_iff in C; congruence). split; [exact N|]. eexists. split; [reflexivity|].
  field. exact N.
Qed.
Lemma shares_one l s : (s == qsum l)%Q -> ~ (s == 0)%Q ->
  exists x, map (fun v => if Qeq_bool s 0 then None else Some (v / s)%Q) l = map Some x /\ (qsum x == 1)%Q.
Proof.
  intros Hs N. assert (E : Qeq_bool s 0 = false) by (destruct (Qeq_bool s 0) eqn:E; [apply Qeq_bool_iff in E; contradiction|reflexivity]).
  exists (map (fun v => v / s)%Q l). rewrite E. split; [rewrite map_map; reflexivity|].
  assert (qsum (map (fun v => v / s) l) == qsum l / s)%Q.
  { clear - N. induction l as [|x l IH]; cbn; [field; exact N|]. rewrite IH. field. exact N. }
  rewrite H, <- Hs. field. exact N.
Qed.

(** ** C42 without aggregation *)
Lemma plain_prepared f agg data : f = Hourly \/ agg = None -> prepared f agg data = plain data.
Proof. unfold prepared, plain. intros [->| ->]; [reflexivity|destruct f; reflexivity]. Qed.
Lemma count_seen data d : count d (plain data) = length (seen data d).
Proof.
  unfold count. rewrite plain_date, map_length. symmetry. apply Permutation_length, TSDataProofs.sort_rows_perm.
Qed.
Lemma qsum_perm l l' : Permutation l l' -> (qsum l == qsum l')%Q.
Proof. induction 1; cbn; [reflexivity|rewrite IHPermutation; reflexivity|ring|etransitivity; eassumption]. Qed.
Lemma total_sort l : (qsum (map h_val (map row_of (TSDataModel.sort_rows l))) == total l)%Q.
Proof. rewrite map_map. cbn. apply qsum_perm. apply Permutation_map, Permutation_sym, TSDataProofs.sort_rows_perm. Qed.
Lemma row_hour t d v : t / day_ns = d -> 0 <= h_hour (row_of (t, v)) < 24 /\
  (24 * d + h_hour (row_of (t, v))) * 3600000000000 <= t < (24 * d + h_hour (row_of (t, v)) + 1) * 3600000000000.
Proof.
  intros H. cbn. pose proof (hour_range t) as R. split; [exact R|]. apply hour_date; [exact R|]. auto.
Qed.
Lemma seen_in data d o : In o (TSDataModel.sort_rows (seen data d)) -> fst o / day_ns = d.
Proof.
  intros I. apply (Permutation_in _ (Permutation_sym (TSDataProofs.sort_rows_perm _))) in I. unfold seen in I. rewrite seen_filter in I.
  apply filter_In in I as [_ I]. apply andb_true_iff in I as [A B]. apply Z.leb_le in A. apply Z.ltb_lt in B. apply day_date. lia.
Qed.
(** Without aggregation a date is kept exactly when it has 24 observations; its rows are those
    observations in chronological order, each with its share of the day's total, and the shares add
    up to one; a date with some but fewer than 24 observations is reported as incomplete. *)
Theorem C42_hourly : forall f agg data inc rows, f = Hourly \/ agg = None ->
  preprocess f agg data = Some (inc, rows) -> forall d,
  (In d inc <-> (1 <= length (seen data d) < 24)%nat) /\
  (length (seen data d) <> 24%nat -> forall r, In r rows -> h_date (r_row r) <> d) /\
  (length (seen data d) = 24%nat ->
   exists obs, Permutation (seen data d) obs /\ chronological obs /\
     Forall2 (fun o r => h_val (r_row r) = snd o /\ share_of (snd o) (total (seen data d)) (r_ratio r) /\
                0 <= h_hour (r_row r) < 24 /\
                (24 * d + h_hour (r_row r)) * 3600000000000 <= fst o < (24 * d + h_hour (r_row r) + 1) * 3600000000000)
       obs (filter (fun r => h_date (r_row r) =? d) rows) /\
     (~ (total (seen data d) == 0)%Q ->
      exists x, map r_ratio (filter (fun r => h_date (r_row r) =? d) rows) = map Some x /\ (qsum x == 1)%Q)).
Proof.
  intros f agg data inc rows Hf H d.
  pose proof (inc_date _ _ _ _ _ d H) as HI. pose proof (rows_date _ _ _ _ _ d H) as HR. cbv zeta in HR.
  rewrite (plain_prepared _ _ _ Hf) in HI, HR. rewrite count_seen in HI, HR. rewrite plain_date in HR.
  split; [exact HI|]. split.
  - intros N r I C. apply Nat.eqb_neq in N. rewrite N in HR. cbn in HR.
    assert (J : In r (day_rows d rows)) by (apply filter_In; split; [exact I|apply Z.eqb_eq, C]). rewrite HR in J. destruct J.
  - intros L. rewrite L in HR. cbn [Nat.eqb] in HR. rewrite !map_map in HR. exists (TSDataModel.sort_rows (seen data d)).
    fold (day_rows d rows). rewrite HR.
    assert (T : (qsum (map h_val (map row_of (TSDataModel.sort_rows (seen data d)))) == total (seen data d))%Q) by apply total_sort.
    rewrite map_map in T. set (s := qsum _) in *. clearbody s.
    split; [apply TSDataProofs.sort_rows_perm|]. split; [apply TSDataProofs.sort_rows_sorted|]. split.
    + pose proof (seen_in data d) as SI. clear - T SI.
      assert (G : forall l, (forall o, In o l -> fst o / day_ns = d) -> Forall2 (fun (o : Z * Q) r => h_val (r_row r) = snd o /\ share_of (snd o) (total (seen data d)) (r_ratio r) /\ 0 <= h_hour (r_row r) < 24 /\
         (24 * d + h_hour (r_row r)) * 3600000000000 <= fst o < (24 * d + h_hour (r_row r) + 1) * 3600000000000) l
         (map (fun x => RRow (row_of x) (if Qeq_bool s 0 then None else Some (h_val (row_of x) / s)%Q)) l)).
      { induction l as [|o l IH]; intros D; cbn [map]; constructor; [|apply IH; intros; apply D; right; assumption].
        cbn [r_row r_ratio]. split; [reflexivity|]. split.
        - destruct (share_ratio (snd o) s) as [[A B]|(A & x & B & C)]; [left|right].
          + split; [rewrite <- T; exact A|exact B].
          + split; [rewrite <- T; exact A|]. exists x. split; [exact B|]. rewrite <- T. exact C.
        - destruct o as [t v]. apply row_hour. apply (D (t, v)). left; reflexivity. }
      apply G, SI.
    + intros N. rewrite map_map. cbn [r_ratio].
      rewrite <- (map_map (fun o => h_val (row_of o)) (fun v => if Qeq_bool s 0 then None else Some (v / s)%Q)).
      apply shares_one; [|rewrite T; exact N]. rewrite T. symmetry. rewrite <- (map_map row_of h_val). apply total_sort.
Qed.
(** it raises exactly when no date has 24 observations *)
Theorem C42_refused : forall f agg data, f = Hourly \/ agg = None ->
  preprocess f agg data = None <-> forall d, length (seen data d) <> 24%nat.
Proof.
  intros f agg data Hf. unfold preprocess. rewrite (plain_prepared _ _ _ Hf). cbv zeta. fold (keep (plain data)). split.
  - intros H d L. destruct (keep (plain data)) eqn:E; [|discriminate].
    pose proof (keep_date (plain data) d) as K. rewrite E, count_seen, L in K. cbn in K.
    assert (C : count d (plain data) = 24%nat) by (rewrite count_seen; exact L). unfold count in C. rewrite <- K in C. discriminate.
  - intros H. destruct (keep (plain data)) as [|r l] eqn:E; [reflexivity|exfalso].
    assert (I : In r (keep (plain data))) by (rewrite E; left; reflexivity). apply filter_In in I as [_ I]. apply Nat.eqb_eq in I.
    rewrite count_seen in I. apply (H _ I).
Qed.

(** ** C42 with aggregation *)
Lemma agg_prepared f a data : f <> Hourly -> prepared f (Some a) data = grouped a (plain data).
Proof. unfold prepared, plain. destruct f; [congruence|reflexivity|reflexivity]. Qed.
Definition hours_of (data : list (Z * option Q)) (d : Z) : list Z :=
  filter (fun h => match seen_hour data d h with [] => false | _ => true end) (map Z.of_nat (seq 0 24)).
Lemma hour_seen data d h : 0 <= h < 24 -> In (d, h) (map key (plain data)) <-> seen_hour data d h <> [].
Proof.
  intros Hh. pose proof (plain_hour data d h Hh) as P. split.
  - intros I E. apply in_map_iff in I as (r & Er & I). rewrite E in P. cbn in P.
    assert (J : In r (filter (fun r => key_eqb (key r) (d, h)) (plain data))) by (apply filter_In; split; [exact I|apply keyb_iff, Er]). rewrite P in J. destruct J.
  - intros N. destruct (filter (fun r => key_eqb (key r) (d, h)) (plain data)) as [|r l] eqn:E.
    + exfalso. apply N. symmetry in P. apply map_eq_nil in P. pose proof (TSDataProofs.sort_rows_perm (seen_hour data d h)) as Q. rewrite P in Q. apply Permutation_sym, Permutation_nil in Q. exact Q.
    + assert (J : In r (filter (fun r => key_eqb (key r) (d, h)) (plain data))) by (rewrite E; left; reflexivity).
      apply filter_In in J as [J K]. apply keyb_iff in K. apply in_map_iff. exists r. auto.
Qed.
Lemma plain_hours data k : In k (map key (plain data)) -> 0 <= snd k < 24.
Proof.
  intros I. apply in_map_iff in I as (r & <- & I). unfold plain in I. apply in_map_iff in I as (o & <- & _). cbn. apply hour_range.
Qed.
Lemma strict_ext (l l' : list Z) : StronglySorted Z.lt l -> StronglySorted Z.lt l' -> (forall x, In x l <-> In x l') -> l = l'.
Proof.
  revert l'. induction l as [|x l IH]; intros l' S S' E.
  - destruct l' as [|y l']; [reflexivity|]. exfalso. apply (E y). left; reflexivity.
  - destruct l' as [|y l']; [exfalso; apply (E x); left; reflexivity|].
    inversion S as [|? ? S1 F1]; inversion S' as [|? ? S2 F2]; subst. rewrite Forall_forall in F1, F2.
    assert (x = y).
    { destruct (proj1 (E x) (or_introl eq_refl)) as [->|I]; [reflexivity|]. destruct (proj2 (E y) (or_introl eq_refl)) as [->|J]; [reflexivity|].
      specialize (F1 _ J). specialize (F2 _ I). lia. }
    subst y. f_equal. apply IH; [exact S1|exact S2|]. intros z. split; intros I.
    + destruct (proj1 (E z) (or_intror I)) as [->|J]; [specialize (F1 _ I); lia|exact J].
    + destruct (proj2 (E z) (or_intror I)) as [->|J]; [specialize (F2 _ I); lia|exact J].
Qed.
Lemma seq_sorted a n : StronglySorted Z.lt (map Z.of_nat (seq a n)).
Proof.
  revert a. induction n as [|n IH]; intros a; [constructor|]. cbn [seq map]. constructor; [apply IH|].
  apply Forall_forall. intros x I. apply in_map_iff in I as (k & <- & I). apply in_seq in I. lia.
Qed.
Lemma in_hours h : In h (map Z.of_nat (seq 0 24)) <-> 0 <= h < 24.
Proof.
  rewrite in_map_iff. split; [intros (k & <- & I); apply in_seq in I; lia|]. intros H. exists (Z.to_nat h). rewrite Z2Nat.id by lia.
  split; [reflexivity|]. apply in_seq. lia.
Qed.
Definition date_keys (data : list (Z * option Q)) (d : Z) : list (Z * Z) :=
  filter (fun k : Z * Z => fst k =? d) (uniq key_eqb (map key (plain data))).
Lemma date_keys_pairs data d : date_keys data d = map (fun h => (d, h)) (map snd (date_keys data d)).
Proof.
  rewrite map_map. rewrite <- (map_id (date_keys data d)) at 1. apply map_ext_in. intros [x y] I.
  apply filter_In in I as [_ I]. apply Z.eqb_eq in I. cbn in *. subst. reflexivity.
Qed.
Lemma date_keys_sorted data d : StronglySorted Z.lt (map snd (date_keys data d)).
Proof.
  assert (SK : StronglySorted (fun a b : Z * Z => fst a < fst b \/ (fst a = fst b /\ snd a < snd b)) (uniq key_eqb (map key (plain data)))).
  { eapply (uniq_sorted _ keyb_iff (fun a b => fst a < fst b \/ (fst a = fst b /\ snd a <= snd b))).
    - intros [a1 a2] [b1 b2]. cbn. intros [L|[L1 L2]] N; [auto|]. right. split; [exact L1|]. assert (a2 <> b2) by congruence. lia.
    - eapply sorted_map; [|apply plain_sorted]. cbn. intros x y Hxy. exact Hxy. }
  unfold date_keys. set (L := uniq key_eqb (map key (plain data))) in *. clearbody L. revert SK. induction L as [|[x y] L IH]; intros S; [constructor|].
  inversion S as [|? ? S' F]; subst. cbn [filter fst] in *. destruct (Z.eqb_spec x d) as [->|N]; [|apply IH, S']. cbn [map]. constructor; [apply IH, S'|].
  rewrite Forall_forall in *. intros z I. apply in_map_iff in I as ([u v] & <- & I). apply filter_In in I as [I J]. specialize (F _ I). apply Z.eqb_eq in J. cbn in *. lia.
Qed.
Lemma date_keys_in data d h : In h (map snd (date_keys data d)) <-> In h (hours_of data d).
Proof.
  unfold hours_of. rewrite filter_In, in_hours, in_map_iff. split.
  - intros ([x y] & <- & I). apply filter_In in I as [I J]. apply Z.eqb_eq in J. cbn in J |- *. subst x. apply (proj1 (uniq_in _ keyb_iff _ _)) in I.
    pose proof (plain_hours _ _ I) as R. cbn in R. split; [exact R|]. apply (hour_seen data d y R) in I. destruct (seen_hour data d y); [congruence|reflexivity].
  - intros [R S]. exists (d, h). split; [reflexivity|]. apply filter_In. split; [|apply Z.eqb_refl]. apply (uniq_in _ keyb_iff). apply (hour_seen data d h R).
    destruct (seen_hour data d h); [discriminate S|congruence].
Qed.
Lemma date_keys_hours data d : date_keys data d = map (fun h => (d, h)) (hours_of data d).
Proof.
  rewrite date_keys_pairs. f_equal. apply strict_ext; [apply date_keys_sorted|unfold hours_of; apply sorted_filter, seq_sorted|]. apply date_keys_in.
Qed.
Lemma hour_vals data d h : 0 <= h < 24 -> map h_val (filter (fun r => key_eqb (key r) (d, h)) (plain data)) = map snd (TSDataModel.sort_rows (seen_hour data d h)).
Proof. intros R. rewrite (plain_hour data d h R), map_map. apply map_ext. intros []. reflexivity. Qed.
Lemma hours_in data d h : In h (hours_of data d) <-> 0 <= h < 24 /\ seen_hour data d h <> [].
Proof.
  unfold hours_of. rewrite filter_In, in_hours. split; intros [R S]; (split; [exact R|]); destruct (seen_hour data d h); congruence.
Qed.
Lemma grouped_keys (g : Z * Z -> hrow) data d : (forall k, h_date (g k) = fst k) ->
  filter (of_date d) (map g (uniq key_eqb (map key (plain data)))) = map (fun h => g (d, h)) (hours_of data d).
Proof.
  intros Hg. rewrite filter_map, <- (map_map (fun h => (d, h)) g), <- date_keys_hours. unfold date_keys. f_equal.
  apply filter_ext_in'. intros x _. unfold of_date. rewrite Hg. reflexivity.
Qed.
Lemma grouped_date a data d : filter (of_date d) (grouped a (plain data)) =
  map (fun h => HRow d h (apply_agg a (map snd (TSDataModel.sort_rows (seen_hour data d h))))) (hours_of data d).
Proof.
  unfold grouped. rewrite grouped_keys; [|reflexivity].
  apply map_ext_in. intros h I. cbn [fst snd]. f_equal. f_equal. apply hour_vals. apply hours_in in I. apply I.
Qed.
Lemma hours_all data d : (length (hours_of data d) =? 24)%nat = true <-> forall h, 0 <= h < 24 -> seen_hour data d h <> [].
Proof.
  rewrite Nat.eqb_eq. unfold hours_of. split.
  - intros L h Hh E. set (f := fun h => match seen_hour data d h with [] => false | _ => true end) in *.
    assert (forall (l : list Z), length (filter f l) = length l -> forall x, In x l -> f x = true).
    { induction l as [|x l IH]; intros Hl y I; [destruct I|]. cbn in Hl. destruct (f x) eqn:Ex.
      - destruct I as [<-|I]; [exact Ex|]. apply IH; [cbn in Hl; lia|exact I].
      - exfalso. clear - Hl. assert (length (filter f l) <= length l)%nat by (clear; induction l as [|x l IH]; cbn; [lia|destruct (f x); cbn; lia]). lia. }
    specialize (H (map Z.of_nat (seq 0 24))). rewrite L, map_length, seq_length in H. specialize (H eq_refl h). rewrite in_hours in H. specialize (H Hh). unfold f in H. rewrite E in H. discriminate.
  - intros H. rewrite filter_id'; [rewrite map_length, seq_length; reflexivity|]. intros h I. apply in_hours in I. specialize (H h I). destruct (seen_hour data d h); [congruence|reflexivity].
Qed.
Lemma hours_full data d : (forall h, 0 <= h < 24 -> seen_hour data d h <> []) -> hours_of data d = map Z.of_nat (seq 0 24).
Proof. intros H. unfold hours_of. apply filter_id'. intros h I. apply in_hours in I. specialize (H h I). destruct (seen_hour data d h); [congruence|reflexivity]. Qed.

Definition aggregate_of (a : aggregation) (l : list Q) (v : Q) : Prop :=
  match a with Min => minimum_of l v | Max => maximum_of l v | Sum => (v == qsum l)%Q | Mean => mean_of l v end.
Lemma fold_min l : forall x, minimum_of (x :: l) (fold_left qmin l x).
Proof.
  induction l as [|y l IH]; intros x; cbn [fold_left].
  - split; [left; reflexivity|]. intros z [<-|[]]. lra.
  - destruct (IH (qmin x y)) as [I M]. unfold qmin in *. destruct (Qle_bool x y) eqn:E.
    + apply Qle_bool_iff in E. split; [destruct I as [I|I]; [left|right; right]; exact I|]. intros z [<-|[<-|J]].
      * apply M; left; reflexivity.
      * specialize (M x (or_introl eq_refl)). lra.
      * apply M; right; exact J.
    + assert (y < x)%Q by (apply Qnot_le_lt; intros C; apply Qle_bool_iff in C; congruence). split; [right; exact I|]. intros z [<-|[<-|J]].
      * specialize (M y (or_introl eq_refl)). lra.
      * apply M; left; reflexivity.
      * apply M; right; exact J.
Qed.
Lemma fold_max l : forall x, maximum_of (x :: l) (fold_left qmax l x).
Proof.
  induction l as [|y l IH]; intros x; cbn [fold_left].
  - split; [left; reflexivity|]. intros z [<-|[]]. lra.
  - destruct (IH (qmax x y)) as [I M]. unfold qmax in *. destruct (Qle_bool x y) eqn:E.
    + apply Qle_bool_iff in E. split; [right; exact I|]. intros z [<-|[<-|J]].
      * specialize (M y (or_introl eq_refl)). lra.
      * apply M; left; reflexivity.
      * apply M; right; exact J.
    + assert (y < x)%Q by (apply Qnot_le_lt; intros C; apply Qle_bool_iff in C; congruence). split; [destruct I as [I|I]; [left|right; right]; exact I|]. intros z [<-|[<-|J]].
      * apply M; left; reflexivity.
      * specialize (M x (or_introl eq_refl)). lra.
      * apply M; right; exact J.
Qed.
Lemma agg_ok a l l' : Permutation l l' -> l' <> [] -> aggregate_of a l (apply_agg a l').
Proof.
  intros P N. destruct a; cbn [aggregate_of].
  - destruct l' as [|x t]; [congruence|]. destruct (fold_min t x) as [I M]. split; [apply (Permutation_in _ (Permutation_sym P)), I|].
    intros y J. apply M, (Permutation_in _ P), J.
  - destruct l' as [|x t]; [congruence|]. destruct (fold_max t x) as [I M]. split; [apply (Permutation_in _ (Permutation_sym P)), I|].
    intros y J. apply M, (Permutation_in _ P), J.
  - cbn. symmetry. apply qsum_perm, P.
  - unfold mean_of. cbn. rewrite (Permutation_length P), (qsum_perm _ _ P). rewrite Qmult_comm. apply Qmult_div_r.
    destruct l'; [congruence|]. unfold Qeq. cbn. lia.
Qed.
(** With aggregation a date is kept exactly when each of its 24 hours has an observation; it has one
    row per hour, whose value is the aggregate of the observations of that hour; the ratios are the
    shares in the sum of the 24 aggregates and add up to one.  The dates with some observed hours but
    not all are reported as incomplete, so that every observed date is either kept or reported. *)
Theorem C42_aggregated : forall f a data inc rows, f <> Hourly ->
  preprocess f (Some a) data = Some (inc, rows) -> forall d,
  let full := forall h, 0 <= h < 24 -> seen_hour data d h <> [] in
  (In d inc <-> seen data d <> [] /\ ~ full) /\
  (~ full -> forall r, In r rows -> h_date (r_row r) <> d) /\
  (full ->
   let day := filter (fun r => h_date (r_row r) =? d) rows in
   map (fun r => h_hour (r_row r)) day = map Z.of_nat (seq 0 24) /\
   (forall r, In r day -> aggregate_of a (map snd (seen_hour data d (h_hour (r_row r)))) (h_val (r_row r)) /\
                          share_of (h_val (r_row r)) (qsum (map (fun r => h_val (r_row r)) day)) (r_ratio r)) /\
   (~ (qsum (map (fun r => h_val (r_row r)) day) == 0)%Q ->
    exists x, map r_ratio day = map Some x /\ (qsum x == 1)%Q)).
Proof.
  intros f a data inc rows Hf H d full.
  pose proof (inc_date _ _ _ _ _ d H) as HI. pose proof (rows_date _ _ _ _ _ d H) as HR. cbv zeta in HR.
  rewrite (agg_prepared _ _ _ Hf) in HI, HR. unfold count in HI, HR. rewrite grouped_date in HI, HR. rewrite map_length in HI, HR.
  assert (HF : (length (hours_of data d) =? 24)%nat = true <-> full) by apply hours_all.
  split; [|split].
  - rewrite HI, <- HF, Nat.eqb_eq.
    assert (LE : (length (hours_of data d) <= 24)%nat).
    { unfold hours_of. clear. generalize (fun h => match seen_hour data d h with [] => false | _ => true end). intros g.
      assert (G : forall l : list Z, (length (filter g l) <= length l)%nat) by (induction l as [|x l IH]; cbn; [lia|destruct (g x); cbn; lia]).
      specialize (G (map Z.of_nat (seq 0 24))). rewrite map_length, seq_length in G. exact G. }
    assert (NE : seen data d <> [] <-> (1 <= length (hours_of data d))%nat).
    { split.
      - intros N. destruct (seen data d) as [|o l] eqn:E; [congruence|].
        assert (I : In o (seen data d)) by (rewrite E; left; reflexivity). unfold seen in I. rewrite seen_filter in I. apply filter_In in I as [I J].
        apply andb_true_iff in J as [J1 J2]. apply Z.leb_le in J1. apply Z.ltb_lt in J2.
        assert (D : fst o / day_ns = d) by (apply day_date; lia). pose proof (hour_range (fst o)) as R.
        assert (In (fst o mod day_ns / hour_ns) (hours_of data d)).
        { apply hours_in. split; [exact R|]. intros S. assert (B : In o (seen_hour data d (fst o mod day_ns / hour_ns))).
          { unfold seen_hour. rewrite seen_filter. apply filter_In. split; [exact I|]. apply andb_true_iff. rewrite Z.leb_le, Z.ltb_lt. apply (hour_date _ d _ R). auto. }
          rewrite S in B. destruct B. }
        destruct (hours_of data d); [destruct H0|cbn; lia].
      - intros L E. destruct (hours_of data d) as [|h l] eqn:Eh; [cbn in L; lia|].
        assert (I : In h (hours_of data d)) by (rewrite Eh; left; reflexivity). apply hours_in in I as [R I].
        destruct (seen_hour data d h) as [|o r] eqn:S; [congruence|]. assert (B : In o (seen_hour data d h)) by (rewrite S; left; reflexivity).
        unfold seen_hour in B. rewrite seen_filter in B. apply filter_In in B as [B C]. apply andb_true_iff in C. rewrite Z.leb_le, Z.ltb_lt in C. apply (hour_date _ d h R) in C as [C _].
        assert (X : In o (seen data d)). { unfold seen. rewrite seen_filter. apply filter_In. split; [exact B|]. apply andb_true_iff. rewrite Z.leb_le, Z.ltb_lt. apply day_date, C. }
        rewrite E in X. destruct X. }
    rewrite NE. lia.
  - intros N r I C. assert (E : (length (hours_of data d) =? 24)%nat = false) by (destruct (length (hours_of data d) =? 24)%nat; [exfalso; apply N, HF; reflexivity|reflexivity]).
    rewrite E in HR. cbn in HR. assert (J : In r (day_rows d rows)) by (apply filter_In; split; [exact I|apply Z.eqb_eq, C]). rewrite HR in J. destruct J.
  - intros Hfull day. assert (E := proj2 HF Hfull). rewrite E in HR. rewrite !map_map in HR. cbn [h_val] in HR. rewrite (hours_full _ _ Hfull) in HR.
    change day with (day_rows d rows). rewrite HR. rewrite !map_map. cbn [r_row h_hour h_val r_ratio].
    set (s := qsum (map (fun x => apply_agg a (map snd (TSDataModel.sort_rows (seen_hour data d (Z.of_nat x))))) (seq 0 24))).
    split; [reflexivity|]. split.
    + intros r I. apply in_map_iff in I as (k & <- & I). cbn [r_row h_hour h_val r_ratio]. split.
      * apply agg_ok; [apply Permutation_map, TSDataProofs.sort_rows_perm|]. intros C. apply map_eq_nil in C.
        pose proof (TSDataProofs.sort_rows_perm (seen_hour data d (Z.of_nat k))) as P. rewrite C in P. apply Permutation_sym, Permutation_nil in P.
        apply (Hfull (Z.of_nat k)); [apply in_seq in I; lia|exact P].
      * apply share_ratio.
    + intros N.
      rewrite <- (map_map (fun x => apply_agg a (map snd (TSDataModel.sort_rows (seen_hour data d (Z.of_nat x))))) (fun v => if Qeq_bool s 0 then None else Some (v / s)%Q)).
      apply shares_one; [reflexivity|exact N].
Qed.

Print Assumptions C42_hourly.
Print Assumptions C42_refused.
Print Assumptions C42_aggregated.
