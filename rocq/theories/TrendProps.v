(** C43, C122, C124: which windows are tested, and how. *)
From Verif Require Import Common TrendModel TrendSpec TrendProofs.
From Coq Require Import String Sorted Permutation.
Open Scope Z_scope.

(** ** frames *)
Lemma all_some_map l x : all_some l = Some x <-> l = map Some x.
Proof.
  revert x. induction l as [|[v|] l IH]; intros x; cbn.
  - split; [intros H; injection H as <-; reflexivity|]. destruct x; [reflexivity|discriminate].
  - destruct (all_some l) as [y|] eqn:E; cbn.
    + split; [intros H; injection H as <-; cbn; f_equal; apply IH; reflexivity|]. destruct x as [|a x]; [discriminate|]. cbn. intros H. injection H as -> H. apply IH in H. congruence.
    + split; [discriminate|]. destruct x as [|a x]; [discriminate|]. cbn. intros H. injection H as -> H. apply IH in H. discriminate.
  - split; [discriminate|]. destruct x; discriminate.
Qed.
Lemma all_some_forallb l : forallb (fun v : option Q => match v with Some _ => true | None => false end) l = match all_some l with Some _ => true | None => false end.
Proof. induction l as [|[v|] l IH]; cbn; [reflexivity| |reflexivity]. rewrite IH. destruct (all_some l); reflexivity. Qed.
Lemma some_inj (a b : list Q) : map Some a = map Some b -> a = b.
Proof. revert b. induction a as [|x a IH]; intros [|y b] H; try discriminate; [reflexivity|]. cbn in H. injection H as -> H. f_equal. auto. Qed.
Lemma dropna_complete data cs : complete_columns data cs <-> f_cols (dropna data) = cs.
Proof.
  unfold complete_columns, dropna. cbn [f_cols]. revert cs. induction (f_cols data) as [|[c l] t IH]; intros cs; cbn.
  - split; [intros H; apply map_eq_nil in H; congruence|intros <-; reflexivity].
  - rewrite all_some_forallb. destruct (all_some l) as [x|] eqn:E; cbn [app].
    + apply all_some_map in E. subst l. destruct cs as [|[c' x'] cs]; cbn; [split; discriminate|]. split.
      * intros H. injection H as -> Hx H. apply some_inj in Hx. apply IH in H. congruence.
      * intros H. injection H as -> -> H. apply IH in H. rewrite H. reflexivity.
    + apply IH.
Qed.
Lemma dropna_regular data : regular data -> regular (dropna data).
Proof.
  intros [S L]. split; [exact S|]. intros c I. unfold dropna in *. cbn [f_cols f_times] in *. apply in_flat_map in I as (d & Id & I).
  destruct (all_some (snd d)) as [x|] eqn:E; [|destruct I]. destruct I as [<-|[]]. apply all_some_map in E. cbn. rewrite <- (L d Id), E, map_length. reflexivity.
Qed.
Lemma sorted_skipn n (l : list Z) : StronglySorted Z.lt l -> StronglySorted Z.lt (skipn n l).
Proof. revert l. induction n as [|n IH]; intros [|x l] H; try exact H. cbn. apply IH. inversion H; assumption. Qed.
Lemma lost_days s : S (lost (Some s)) = season_days s.
Proof. destruct s; reflexivity. Qed.
Definition cleaned_col (init : list Q -> Q) (s : option season) (y : list Q) : list Q :=
  let a := match s with None => y | Some s => rolling (season_days s) y end in ses (init a) a.
Lemma cleaned_ok init s y : cleaned init s y (cleaned_col init s y).
Proof.
  unfold cleaned_col. exists (match s with None => y | Some s => rolling (season_days s) y end). split; [|apply ses_ok].
  destruct s as [s|]; [|reflexivity]. rewrite lost_days. apply rolling_ok. rewrite <- lost_days. lia.
Qed.
Lemma cleaned_length init s y : List.length (cleaned_col init s y) = (List.length y - lost s)%nat.
Proof.
  unfold cleaned_col. rewrite ses_length. destruct s as [s|]; [|cbn; lia]. rewrite rolling_length, <- lost_days. lia.
Qed.
(** the cleaned frame *)
Lemma smoothing_ok init s f sm : regular f -> smoothing init (deseason s f) = Some sm ->
  regular sm /\ f_cols sm = map (fun c => (fst c, cleaned_col init s (snd c))) (f_cols f) /\
  (f_cols f <> [] -> f_times sm = skipn (lost s) (f_times f) /\ f_times sm <> []) /\ (f_cols f = [] -> f_times sm = []).
Proof.
  intros [ST L] H. assert (T : f_times (deseason s f) = skipn (lost s) (f_times f)).
  { destruct s as [s|]; [|reflexivity]. cbn [deseason f_times]. rewrite <- lost_days. f_equal. lia. }
  assert (C : map (fun c => (fst c, ses (init (snd c)) (snd c))) (f_cols (deseason s f)) = map (fun c => (fst c, cleaned_col init s (snd c))) (f_cols f)).
  { destruct s as [s|]; [|reflexivity]. cbn [deseason f_cols]. rewrite map_map. reflexivity. }
  unfold smoothing in H. destruct (f_cols (deseason s f)) as [|c cs] eqn:E.
  - injection H as <-. assert (N : f_cols f = []) by (destruct s as [s|]; cbn [deseason f_cols] in E; [apply map_eq_nil in E|]; exact E).
    rewrite N. repeat split; [constructor|intros c []|congruence|congruence].
  - assert (N : f_cols f <> []) by (intros C'; destruct s as [s|]; cbn [deseason f_cols] in E; rewrite C' in E; discriminate).
    rewrite T in H. destruct (skipn (lost s) (f_times f)) as [|t ts] eqn:ET; [discriminate|]. rewrite C in H.
    assert (H' : sm = Frame (t :: ts) (map (fun c => (fst c, cleaned_col init s (snd c))) (f_cols f))) by congruence. rewrite H'. clear H H'. cbn [f_times f_cols].
    split; [|split; [reflexivity|split; [intros _; split; [reflexivity|discriminate]|congruence]]].
    split; [cbn [f_times]; rewrite <- ET; apply sorted_skipn, ST|]. intros d I. cbn [f_cols] in I. apply in_map_iff in I as (e & <- & Ie). cbn [snd f_times].
    rewrite cleaned_length, (L e Ie), <- ET, skipn_length. reflexivity.
Qed.
Lemma smoothing_none init s f : smoothing init (deseason s f) = None <-> f_cols f <> [] /\ (List.length (f_times f) <= lost s)%nat.
Proof.
  assert (T : f_times (deseason s f) = skipn (lost s) (f_times f)).
  { destruct s as [s|]; [|reflexivity]. cbn [deseason f_times]. rewrite <- lost_days. f_equal. lia. }
  assert (N : f_cols (deseason s f) = [] <-> f_cols f = []).
  { destruct s as [s|]; [|reflexivity]. cbn [deseason f_cols]. split; [apply map_eq_nil|intros ->; reflexivity]. }
  unfold smoothing. destruct (f_cols (deseason s f)) as [|c cs] eqn:E.
  - split; [discriminate|]. intros [C _]. destruct C. apply N. reflexivity.
  - rewrite T. assert (NN : f_cols f <> []) by (intros C; apply N in C; discriminate). pose proof (skipn_length (lost s) (f_times f)) as SL. destruct (skipn (lost s) (f_times f)) as [|t ts]; cbn in SL.
    + split; [intros _; split; [exact NN|lia]|reflexivity].
    + split; [discriminate|]. intros [_ C]. lia.
Qed.

(** rows up to a time *)
Lemma strict_nth l i j d : StronglySorted Z.lt l -> (i < j < List.length l)%nat -> nth i l d < nth j l d.
Proof.
  intros H. revert i j. induction H as [|x l H IH F]; intros i j L; [cbn in L; lia|]. destruct j as [|j]; [lia|]. cbn in L. destruct i as [|i]; cbn.
  - rewrite Forall_forall in F. apply F, nth_In. lia.
  - apply IH. lia.
Qed.
Lemma keep_prefix {A} times (l : list A) k : StronglySorted Z.lt times -> List.length l = List.length times -> (k < List.length times)%nat ->
  map snd (filter (fun p => fst p <=? nth k times 0) (combine times l)) = firstn (S k) l.
Proof.
  intros H. revert l k. induction H as [|x times H IH F]; intros l k L Hk; [cbn in Hk; lia|]. destruct l as [|y l]; [discriminate|]. cbn in L, Hk. rewrite Forall_forall in F. cbn [combine filter fst].
  destruct k as [|k].
  - cbn [nth]. rewrite Z.leb_refl. cbn [map snd firstn]. f_equal. clear IH H Hk. revert l L. induction times as [|z times IHt]; intros [|v l] L; try reflexivity. cbn [combine filter fst].
    pose proof (F z (or_introl eq_refl)). replace (z <=? x) with false by (symmetry; apply Z.leb_gt; assumption). apply IHt; [intros; apply F; right; assumption|cbn in L; lia].
  - cbn [nth]. assert (I : In (nth k times 0) times) by (apply nth_In; lia). specialize (F _ I). replace (x <=? nth k times 0) with true by (symmetry; apply Z.leb_le; lia).
    cbn [map snd firstn]. f_equal. apply IH; lia.
Qed.
Lemma upto_ok f k : regular f -> (k < List.length (f_times f))%nat ->
  upto (nth k (f_times f) 0) f = Frame (firstn (S k) (f_times f)) (map (fun c => (fst c, firstn (S k) (snd c))) (f_cols f)).
Proof.
  intros [S L] Hk. unfold upto. rewrite keep_prefix by auto. f_equal. apply map_ext_in. intros c I. rewrite keep_prefix by auto. reflexivity.
Qed.
Lemma rev_firstn {A} (l : list A) k d : (k < List.length l)%nat -> exists r, rev (firstn (S k) l) = nth k l d :: r.
Proof.
  intros H. exists (rev (firstn k l)). replace (firstn (S k) l) with (firstn k l ++ [nth k l d]); [rewrite rev_app_distr; reflexivity|].
  revert k H. induction l as [|x l IH]; intros k H; [cbn in H; lia|]. destruct k as [|k]; [reflexivity|]. cbn [firstn nth app]. rewrite IH by (cbn in H; lia). reflexivity.
Qed.
Lemma nth_ext' {A} (l r : list A) d : List.length l = List.length r -> (forall i, (i < List.length l)%nat -> nth i l d = nth i r d) -> l = r.
Proof. intros L H. apply (nth_ext _ _ d d L H). Qed.
Lemma window_nth i w x j : (j < w)%nat -> nth j (window i w x) 0%Q = nth (i + j) x 0%Q.
Proof.
  intros H. unfold window. rewrite (nth_indep _ 0%Q (nth (i + 0) x 0%Q)) by (rewrite map_length, seq_length; exact H).
  rewrite (map_nth (fun j => nth (i + j) x 0%Q) _ 0%nat), seq_nth by exact H. reflexivity.
Qed.
Lemma window_length i w x : List.length (window i w x) = w.
Proof. unfold window. rewrite map_length, seq_length. reflexivity. Qed.
Lemma last_window w i x : (1 <= w)%nat -> (w + i < List.length x)%nat -> last_rows w (firstn (S (w + i)) x) = window (S i) w x.
Proof.
  intros Hw H. unfold last_rows. replace (w =? 0)%nat with false by (symmetry; apply Nat.eqb_neq; lia).
  assert (L : List.length (firstn (S (w + i)) x) = S (w + i)) by (rewrite firstn_length; lia). rewrite L.
  apply (nth_ext' _ _ 0%Q); [rewrite skipn_length, L, window_length; lia|]. intros j Hj. rewrite skipn_length, L in Hj.
  rewrite nth_skipn', nth_firstn', window_nth by lia. f_equal. lia.
Qed.
Lemma mapM_spec {A B} (f : A -> option B) l r : mapM f l = Some r <-> Forall2 (fun x y => f x = Some y) l r.
Proof.
  revert r. induction l as [|x l IH]; intros r; cbn.
  - split; [intros H; injection H as <-; constructor|]. intros H; inversion H; reflexivity.
  - split.
    + destruct (f x) as [y|] eqn:E; [|discriminate]. destruct (mapM f l) as [t|]; [|discriminate]. intros H. injection H as <-. constructor; [exact E|]. apply IH. reflexivity.
    + intros H. inversion H as [|? y ? t E F]; subst. rewrite E. apply IH in F. rewrite F. reflexivity.
Qed.
Lemma mapM_none' {A B} (f : A -> option B) l : mapM f l = None <-> exists x, In x l /\ f x = None.
Proof.
  induction l as [|x l IH]; cbn; [split; [discriminate|intros (x & [] & _)]|]. destruct (f x) as [y|] eqn:E.
  - destruct (mapM f l) as [t|].
    + split; [discriminate|]. intros (z & [<-|I] & H); [congruence|]. assert (C : Some t = None) by (apply IH; eauto). discriminate.
    + split; [|reflexivity]. intros _. destruct (proj1 IH eq_refl) as (z & I & H). eauto.
  - split; [|reflexivity]. intros _. exists x. auto.
Qed.
Lemma forall2_nth {A B} (R : A -> B -> Prop) l r i y : Forall2 R l r -> nth_error r i = Some y -> exists x, nth_error l i = Some x /\ R x y.
Proof. intros F. revert i. induction F as [|a b l r Rab F IH]; intros [|i] H; try discriminate; cbn in *; [injection H as <-; eauto|auto]. Qed.
Lemma forall2_len {A B} (R : A -> B -> Prop) l r : Forall2 R l r -> List.length l = List.length r.
Proof. induction 1; cbn; auto. Qed.
Lemma nth_error_skipn {A} n (l : list A) i : nth_error (skipn n l) i = nth_error l (n + i).
Proof. revert l. induction n as [|n IH]; intros [|x l]; try reflexivity; [destruct i; reflexivity|apply IH]. Qed.
Lemma nth_error_nth'' {A} (l : list A) i x d : nth_error l i = Some x -> (i < List.length l)%nat /\ nth i l d = x.
Proof. intros H. split; [apply nth_error_Some; congruence|]. apply (nth_error_nth _ _ d H). Qed.

Lemma forall2_mapl {A B C} (R : B -> C -> Prop) (g : A -> B) l r : Forall2 R (map g l) r <-> Forall2 (fun x y => R (g x) y) l r.
Proof.
  split.
  - revert r. induction l as [|x l IH]; intros r H; inversion H; subst; constructor; auto.
  - induction 1; constructor; auto.
Qed.
Lemma forall2_imp {A B} (R S : A -> B -> Prop) l r : Forall2 R l r -> (forall x y, In x l -> R x y -> S x y) -> Forall2 S l r.
Proof. induction 1 as [|x y l r Rxy F IH]; intros H; constructor; [apply H; [left; reflexivity|exact Rxy]|apply IH; intros; apply H; [right|]; assumption]. Qed.
Section Scan.
Variables (init : list Q -> Q) (tail crit : Q -> Q).

(** one test, of the last rows [g] of each cleaned column *)
Lemma run_uni threshold w f row : run_detector tail crit false threshold w f = Some row ->
  exists c, f_cols f = [c] /\ (exists r, rev (f_times f) = s_ds row :: r) /\ s_metrics row = [] /\
    tested tail crit (5 # 100) threshold [last_rows w (snd c)] (s_all row).
Proof.
  unfold run_detector. destruct (rev (f_times f)) as [|t r]; [discriminate|]. destruct (f_cols f) as [|c [|c' cs]]; try discriminate.
  destruct (original_test tail crit (last_rows w (snd c))) as [k|] eqn:E; [|discriminate]. cbn. intros H. injection H as <-. exists c. cbn. repeat split; eauto.
  - apply (original_tested tail crit threshold _ _ E).
  - apply (original_tested tail crit threshold _ _ E).
Qed.
Lemma run_multi threshold w f row : run_detector tail crit true threshold w f = Some row ->
  (exists r, rev (f_times f) = s_ds row :: r) /\ (f_cols f <> [] -> (2 <= List.length (f_cols f))%nat) /\
  (f_cols f <> [] -> tested tail crit (5 # 100) threshold (map (fun c => last_rows w (snd c)) (f_cols f)) (s_all row)) /\
  Forall2 (fun c m => fst m = fst c /\ tested tail crit (5 # 100) threshold [last_rows w (snd c)] (snd m)) (f_cols f) (s_metrics row).
Proof.
  unfold run_detector. destruct (rev (f_times f)) as [|t r]; [discriminate|]. destruct (f_cols f) as [|c cs]; [|destruct cs as [|c' cs]; [discriminate|]].
  - cbn. intros H. injection H as <-. cbn. split; [eauto|]. split; [congruence|]. split; [congruence|constructor].
  - set (C := c :: c' :: cs). destruct (multivariate_test tail crit (map (fun c => last_rows w (snd c)) C)) as [k|] eqn:E; [|discriminate].
    destruct (mapM (fun c => option_map (fun k => (fst c, threshold_trend threshold k)) (original_test tail crit (last_rows w (snd c)))) C) as [ms|] eqn:EM; [|discriminate].
    intros H. injection H as <-. cbn [s_ds s_all s_metrics]. split; [eauto|]. split; [cbn; lia|]. split.
    + intros _. apply multi_tested; [discriminate|exact E].
    + apply mapM_spec in EM. clear - EM. induction EM as [|x y l l' Exy F IH]; constructor; [|exact IH].
      destruct (original_test tail crit (last_rows w (snd x))) as [k|] eqn:E; [|discriminate]. cbn in Exy. injection Exy as <-. cbn. split; [reflexivity|]. apply original_tested, E.
Qed.

(** ** C43 *)
Lemma scan_rows multi threshold w sm st : regular sm -> (1 <= w)%nat ->
  mapM (fun t => run_detector tail crit multi threshold w (upto t sm)) (skipn w (f_times sm)) = Some st ->
  List.length st = (List.length (f_times sm) - w)%nat /\
  forall i row, nth_error st i = Some row -> (w + i < List.length (f_times sm))%nat /\
    nth_error (f_times sm) (w + i) = Some (nth (w + i) (f_times sm) 0) /\
    run_detector tail crit multi threshold w (Frame (firstn (S (w + i)) (f_times sm)) (map (fun c => (fst c, firstn (S (w + i)) (snd c))) (f_cols sm))) = Some row.
Proof.
  intros R Hw H. apply mapM_spec in H. split; [rewrite <- (forall2_len _ _ _ H), skipn_length; reflexivity|].
  intros i row E. destruct (forall2_nth _ _ _ _ _ H E) as (t & Et & Er). rewrite nth_error_skipn in Et. destruct (nth_error_nth'' _ _ _ 0 Et) as [Hk Nt].
  split; [exact Hk|]. rewrite Nt. split; [exact Et|]. rewrite <- Nt, upto_ok in Er by assumption. exact Er.
Qed.
Theorem C43_univariate : forall threshold alpha w s data st c y,
  regular data -> (1 <= w)%nat -> f_cols data = [(c, map Some y)] ->
  statistics init tail crit false threshold alpha w None s data = Some st ->
  exists sm, cleaned init s y sm /\
    List.length st = (List.length y - lost s - w)%nat /\
    forall i row, nth_error st i = Some row ->
      nth_error (f_times data) (lost s + w + i) = Some (s_ds row) /\ s_metrics row = [] /\
      tested tail crit (5 # 100) threshold [window (S i) w sm] (s_all row).
Proof.
  intros threshold alpha w s data st c y R Hw HC H. unfold statistics in H. cbv zeta in H.
  assert (CC : f_cols (dropna data) = [(c, y)]).
  { apply dropna_complete. unfold complete_columns. rewrite HC. cbn [filter map snd fst]. rewrite all_some_forallb, (proj2 (all_some_map _ y) eq_refl). reflexivity. }
  assert (LY : List.length y = List.length (f_times data)) by (destruct R as [_ R]; rewrite <- (R (c, map Some y)) by (rewrite HC; left; reflexivity); cbn; rewrite map_length; reflexivity).
  destruct (List.length (f_times (dropna data)) <? w)%nat; [discriminate|].
  destruct (smoothing init (deseason s (dropna data))) as [sm|] eqn:ES; [|discriminate].
  destruct (smoothing_ok _ _ _ _ (dropna_regular _ R) ES) as (RS & SC & ST & _). rewrite CC in SC, ST. cbn [map fst snd] in SC. destruct (ST ltac:(discriminate)) as [ST1 _]. change (f_times (dropna data)) with (f_times data) in ST1.
  destruct (scan_rows _ _ _ _ _ RS Hw H) as [L A]. exists (cleaned_col init s y). split; [apply cleaned_ok|]. split; [rewrite L, ST1, skipn_length; lia|].
  intros i row E. destruct (A i row E) as (Hk & Ht & Hr). destruct (run_uni _ _ _ _ Hr) as (c' & EC & (r & Rr) & M & T). cbn [f_cols f_times] in EC, Rr. rewrite SC in EC. cbn [map fst snd] in EC. assert (EC' : c' = (c, firstn (S (w + i)) (cleaned_col init s y))) by congruence. clear EC. subst c'. cbn [snd] in T.
  destruct (rev_firstn (f_times sm) (w + i) 0 Hk) as (r' & Rr'). rewrite Rr' in Rr. injection Rr as Rr _. rewrite Rr in Ht.
  split; [rewrite ST1, nth_error_skipn in Ht; rewrite <- Nat.add_assoc; exact Ht|]. split; [exact M|].
  rewrite last_window in T; [exact T|exact Hw|]. destruct RS as [_ RS]. pose proof (RS (c, cleaned_col init s y) ltac:(rewrite SC; left; reflexivity)) as LL. cbn [snd] in LL. rewrite LL. exact Hk.
Qed.
Theorem C43_multivariate : forall threshold alpha w s data st cs,
  regular data -> (1 <= w)%nat -> complete_columns data cs -> cs <> [] ->
  statistics init tail crit true threshold alpha w None s data = Some st ->
  exists sms, Forall2 (fun c sm => cleaned init s (snd c) sm) cs sms /\
    List.length st = (List.length (f_times data) - lost s - w)%nat /\
    forall i row, nth_error st i = Some row ->
      nth_error (f_times data) (lost s + w + i) = Some (s_ds row) /\
      tested tail crit (5 # 100) threshold (map (window (S i) w) sms) (s_all row) /\
      map fst (s_metrics row) = map fst cs /\
      Forall2 (fun sm m => tested tail crit (5 # 100) threshold [window (S i) w sm] (snd m)) sms (s_metrics row).
Proof.
  intros threshold alpha w s data st cs R Hw HC NC H. unfold statistics in H. cbv zeta in H. apply dropna_complete in HC.
  destruct (List.length (f_times (dropna data)) <? w)%nat; [discriminate|].
  destruct (smoothing init (deseason s (dropna data))) as [sm|] eqn:ES; [|discriminate].
  destruct (smoothing_ok _ _ _ _ (dropna_regular _ R) ES) as (RS & SC & ST & _). rewrite HC in SC, ST. destruct (ST NC) as [ST1 _]. change (f_times (dropna data)) with (f_times data) in ST1.
  destruct (scan_rows _ _ _ _ _ RS Hw H) as [L A]. exists (map (fun c => cleaned_col init s (snd c)) cs). split.
  { clear. induction cs as [|c cs IH]; constructor; [apply cleaned_ok|exact IH]. }
  split; [rewrite L, ST1, skipn_length; lia|].
  intros i row E. destruct (A i row E) as (Hk & Ht & Hr). destruct (run_multi _ _ _ _ Hr) as ((r & Rr) & _ & T & F). cbn [f_cols f_times] in T, F, Rr.
  destruct (rev_firstn (f_times sm) (w + i) 0 Hk) as (r' & Rr'). rewrite Rr' in Rr. injection Rr as Rr _. rewrite Rr in Ht.
  assert (LW : forall c, In c cs -> last_rows w (firstn (S (w + i)) (cleaned_col init s (snd c))) = window (S i) w (cleaned_col init s (snd c))).
  { intros c I. apply last_window; [exact Hw|]. destruct RS as [_ RS]. pose proof (RS (fst c, cleaned_col init s (snd c)) ltac:(rewrite SC; apply in_map_iff; eauto)) as LL. cbn [snd] in LL. rewrite LL. exact Hk. }
  rewrite SC in T, F.
  split; [rewrite ST1, nth_error_skipn in Ht; rewrite <- Nat.add_assoc; exact Ht|]. split; [|split].
  - rewrite !map_map in T. rewrite map_map. rewrite (map_ext_in _ (fun c => window (S i) w (cleaned_col init s (snd c)))) in T by (intros c I; cbn [snd]; apply LW, I). apply T. intros C. apply map_eq_nil in C. contradiction.
  - apply forall2_mapl in F. apply forall2_mapl in F. clear - F. induction F as [|c m l r [E _] F IH]; [reflexivity|]. cbn [map]. rewrite E, IH. reflexivity.
  - apply forall2_mapl. apply forall2_mapl in F. apply forall2_mapl in F.
    apply (forall2_imp _ _ _ _ F). intros c m I [_ T']. cbv beta in T'. cbn [snd] in T'. rewrite LW in T' by exact I. exact T'.
Qed.
End Scan.

Print Assumptions C43_univariate.
Print Assumptions C43_multivariate.
