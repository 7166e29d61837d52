(** C295: recommending the hyper-parameters of a detector *)
From Coq Require Import List Bool Arith ZArith QArith String Lia Permutation.
From Verif Require Import Common MetaHptModel MetaHptProps DetHptModel.
Import ListNotations.
Open Scope nat_scope.

(** ** Specification *)
(** a column with one value, missing entries aside *)
Definition constant (c : list (option Z)) : Prop := exists v, In (Some v) c /\ forall w, In (Some w) c -> w = v.
(** the network's outputs have the sizes it was built with: one output per class of each categorical column, one per numerical parameter *)
Definition shaped (cat num : list string) (l : columns) (net : list Q -> list (list Q) * list Q) : Prop :=
  forall x, List.length (fst (net x)) = List.length cat /\ List.length (snd (net x)) = List.length num /\
    forall j k c o, nth_error cat j = Some k -> In (k, c) l -> nth_error (fst (net x)) j = Some o -> exists classes, NoDup classes /\ (forall v, In v classes <-> In (Some v) c) /\ List.length o = List.length classes.

(** ** Lemmas *)
Lemma existsb_eqb k l : existsb (String.eqb k) l = true <-> In k l.
Proof. rewrite existsb_exists. split; [intros (x & I & E); apply String.eqb_eq in E; congruence | intros I; exists k; split; [exact I | apply String.eqb_refl]]. Qed.
Lemma categories_nodup c : NoDup (categories c).
Proof.
  pose proof (categories_sorted c) as H. induction H as [|x l S IH F]; constructor; [| exact IH]. intros J. rewrite Forall_forall in F. specialize (F x J). lia.
Qed.
Lemma nunique_one c : nunique c = 1 <-> constant c.
Proof.
  unfold nunique. pose proof (categories_nodup c) as N. pose proof (fun u => categories_in c u) as I. split.
  - intros E. destruct (categories c) as [|v [|w l]]; cbn in E; try lia. exists v. split; [apply I; left; reflexivity |]. intros w J. apply I in J. destruct J as [J|[]]. congruence.
  - intros (v & J & U). apply I in J. destruct (categories c) as [|u [|w l]]; [destruct J | reflexivity |]. exfalso.
    assert (u = v) by (apply U, I; left; reflexivity). assert (w = v) by (apply U, I; right; left; reflexivity). subst. inversion N as [|a b N1 N2]. apply N1. left. reflexivity.
Qed.
Lemma column_in k : forall (l : columns) c, column k l = Some c -> In (k, c) l.
Proof.
  induction l as [|[k' c'] l IH]; intros c E; [discriminate |]. cbn in E. destruct (String.eqb k' k) eqn:K; [apply String.eqb_eq in K; left; congruence | right; exact (IH c E)].
Qed.
Lemma in_column k : forall (l : columns) c, NoDup (map fst l) -> In (k, c) l -> column k l = Some c.
Proof.
  induction l as [|[k' c'] l IH]; intros c N I; [destruct I |]. cbn in N |- *. inversion N as [|a b N1 N2]. subst a b. destruct (String.eqb k' k) eqn:K.
  - apply String.eqb_eq in K. subst k'. destruct I as [I|I]; [congruence |]. destruct N1. apply (in_map fst) in I. exact I.
  - destruct I as [I|I]; [injection I as -> ->; rewrite String.eqb_refl in K; discriminate | exact (IH c N2 I)].
Qed.
Lemma column_none k : forall l : columns, column k l = None <-> ~ In k (map fst l).
Proof.
  induction l as [|[k' c'] l IH]; cbn; [split; [intros _ [] | reflexivity] |]. destruct (String.eqb k' k) eqn:K.
  - apply String.eqb_eq in K. split; [discriminate | intros N; destruct N; left; exact K].
  - apply String.eqb_neq in K. rewrite IH. split; [intros N [J|J]; [contradiction | exact (N J)] | intros N J; apply N; right; exact J].
Qed.
Lemma const_in l k v : In (k, v) (get_const_params l) <-> exists c, In (k, c) l /\ constant c /\ v = nth 0 c None.
Proof.
  unfold get_const_params. rewrite in_flat_map. split.
  - intros ([k' c] & I & J). cbn [fst snd] in J. destruct (nunique c =? 1) eqn:E; [| destruct J]. apply Nat.eqb_eq, nunique_one in E. destruct J as [J|[]]. injection J as <- <-. exists c. split; [exact I | split; [exact E | reflexivity]].
  - intros (c & I & C & ->). exists (k, c). split; [exact I |]. cbn [fst snd]. apply nunique_one, Nat.eqb_eq in C. rewrite C. left. reflexivity.
Qed.
Lemma labels_in init rows nf data_y s : NoDup (map fst data_y) -> make init rows nf data_y = Some s ->
  (forall k c, In (k, c) (s_labels s) <-> In (k, c) data_y /\ ~ constant c) /\ NoDup (map fst (s_labels s)) /\ s_const s = get_const_params data_y /\ s_rows s = rows /\ s_features s = nf /\ s_model s = None.
Proof.
  intros N E. unfold make in E. destruct (forallb _ _); [| discriminate]. injection E as <-. cbn [s_labels s_const s_rows s_features s_model]. split; [| split; [| split; [reflexivity | split; [reflexivity | split; reflexivity]]]].
  - intros k c. rewrite filter_In. cbn [fst]. rewrite negb_true_iff. split; intros [I H]; (split; [exact I |]).
    + intros C. assert (J : existsb (String.eqb k) (map fst (get_const_params data_y)) = true); [| congruence]. apply existsb_eqb. change k with (fst (k, nth 0 c None)). apply in_map, const_in. exists c. split; [exact I | split; [exact C | reflexivity]].
    + apply not_true_is_false. intros J. apply existsb_eqb, in_map_iff in J. destruct J as ([k' v] & K & J). cbn in K. subst k'. apply const_in in J. destruct J as (c' & I' & C & _).
      assert (c' = c); [| congruence]. apply (in_column k data_y c N) in I. apply (in_column k data_y c' N) in I'. congruence.
  - clear - N. set (f := fun kc : string * list (option Z) => negb (existsb (String.eqb (fst kc)) (map fst (get_const_params data_y)))). clearbody f.
    induction data_y as [|[k c] l IH]; [constructor |]. cbn in N. inversion N as [|a b N1 N2]. subst a b. cbn. destruct (f (k, c)); [| exact (IH N2)]. cbn. constructor; [| exact (IH N2)].
    intros J. apply N1. apply in_map_iff in J. destruct J as (x & E & J). apply filter_In in J. rewrite <- E. apply in_map. exact (proj1 J).
Qed.

(** ** The constructor *)
(** accepted exactly if the detector accepts every row of data_y without the five names that are not its arguments *)
Theorem C295_accepted init rows nf data_y : (exists s, make init rows nf data_y = Some s) <->
  forall i, i < rows -> exists args, init args = true /\
    args = filter (fun kv => negb (existsb (String.eqb (fst kv)) ["threshold_low"; "threshold_high"; "detection_window_sec"; "fraction"; "direction_1d"]%string)) (map (fun kc => (fst kc, nth i (snd kc) None)) data_y).
Proof.
  unfold make. destruct (forallb _ _) eqn:E.
  - split; [| intros _; eexists; reflexivity]. intros _ i L. rewrite forallb_forall in E. eexists. split; [| reflexivity]. exact (E i (proj2 (in_seq rows 0 i) ltac:(lia))).
  - split; [intros (s & H); discriminate |]. intros H. exfalso. assert (forallb (fun i => init (arguments data_y i)) (seq 0 rows) = true); [| congruence].
    apply forallb_forall. intros i I. apply in_seq in I. destruct (H i ltac:(lia)) as (args & A & ->). exact A.
Qed.

(** ** Training *)
(** train returns exactly if every name is a column with more or fewer than one value, their number is that of these columns, there are more than
    thirty rows and the training itself succeeds — whatever sizes are given for the categorical layers; otherwise the object stays as it is *)
Theorem C295_train init rows nf data_y s num cat shared combo numeric fit : NoDup (map fst data_y) -> make init rows nf data_y = Some s ->
  (snd (train s num cat shared combo numeric fit) = true <->
    (num ++ cat <> [] /\ (forall k, In k (num ++ cat) -> exists c, In (k, c) data_y /\ ~ constant c) /\
     List.length num + List.length cat = List.length (filter (fun kc => negb (existsb (String.eqb (fst kc)) (map fst (get_const_params data_y)))) data_y) /\ 30 < rows /\ fit <> None)) /\
  (snd (train s num cat shared combo numeric fit) = false -> fst (train s num cat shared combo numeric fit) = s).
Proof.
  intros N E. destruct (labels_in init rows nf data_y s N E) as (LI & LN & SC & SR & SF & SM).
  assert (SL : s_labels s = filter (fun kc => negb (existsb (String.eqb (fst kc)) (map fst (get_const_params data_y)))) data_y) by (unfold make in E; destruct (forallb _ _); [| discriminate]; injection E as <-; reflexivity).
  rewrite <- SL. clear SL.
  assert (CN : forall k, In k (map fst (s_const s)) -> ~ exists c, In (k, c) data_y /\ ~ constant c).
  { intros k I (c & J & NC). rewrite SC in I. apply in_map_iff in I. destruct I as ([k' v] & K & I). cbn in K. subst k'. apply const_in in I. destruct I as (c' & I' & C & _).
    apply (in_column k data_y c N) in J. apply (in_column k data_y c' N) in I'. congruence. }
  assert (CB : forall l, existsb (fun k => existsb (String.eqb k) (map fst (s_const s))) l = true -> ~ forall k, In k l -> exists c, In (k, c) data_y /\ ~ constant c).
  { intros l B H. apply existsb_exists in B. destruct B as (k & I & B). apply existsb_eqb in B. exact (CN k B (H k I)). }
  unfold train. cbv zeta.
  destruct (existsb _ num) eqn:B1; [split; [split; [discriminate | intros (_ & H & _); destruct (CB num B1 (fun k I => H k (in_or_app _ _ _ (or_introl I))))] | reflexivity] |].
  destruct (existsb _ cat) eqn:B2; [split; [split; [discriminate | intros (_ & H & _); destruct (CB cat B2 (fun k I => H k (in_or_app _ _ _ (or_intror I))))] | reflexivity] |].
  set (combo' := if List.length combo =? List.length cat then combo else repeat [5] (List.length cat)).
  assert (LC : List.length combo' = List.length cat) by (unfold combo'; destruct (_ =? _) eqn:Q0; [apply Nat.eqb_eq; exact Q0 | apply repeat_length]). clearbody combo'.
  set (ncats := fun k => option_map nunique (column k (s_labels s))).
  assert (NC : forall k, ncats k <> None <-> exists c, In (k, c) data_y /\ ~ constant c).
  { intros k. unfold ncats. destruct (column k (s_labels s)) as [c|] eqn:C; cbn.
    - split; [| discriminate]. intros _. exists c. apply LI. apply column_in. exact C.
    - split; [congruence |]. intros (c & J). apply LI in J. apply (in_column k _ _ LN) in J. congruence. }
  destruct (construct (Some cat) (Some num) ncats (List.length (s_labels s)) (s_rows s) (s_features s)) as [h|] eqn:C.
  - unfold construct in C. destruct (empty (Some num) && empty (Some cat)) eqn:EM; [discriminate |]. destruct (forallb _ (num ++ cat)) eqn:FB; [| discriminate]. cbv zeta in C.
    destruct (negb _) eqn:NG; [discriminate |].
    match type of C with (if ?e then _ else _) = _ => destruct e; [discriminate |] end. match type of C with (if ?e then _ else _) = _ => destruct e eqn:R; [discriminate |] end. injection C as <-.
    unfold build. cbn [h_out]. rewrite map_length, LC, Nat.eqb_refl. cbn [negb].
    assert (G : num ++ cat <> [] /\ (forall k, In k (num ++ cat) -> exists c, In (k, c) data_y /\ ~ constant c) /\ List.length num + List.length cat = List.length (s_labels s) /\ 30 < rows).
    { split; [destruct num, cat; discriminate |]. split; [| split; [cbn [count] in NG; apply negb_false_iff, Nat.eqb_eq in NG; lia | apply Nat.leb_gt in R; lia]].
      intros k I. apply NC. rewrite forallb_forall in FB. specialize (FB k I). destruct (ncats k); [discriminate | discriminate FB]. }
    destruct fit as [net|]; cbn [fst snd]; (split; [| try discriminate; reflexivity]).
    + split; [intros _; repeat (split; [apply G |]); discriminate | reflexivity].
    + split; [discriminate | intros (_ & _ & _ & _ & F); congruence].
  - cbn [fst snd]. split; [| reflexivity]. split; [discriminate |]. intros (H1 & H2 & H3 & H4 & _). exfalso. unfold construct in C.
    destruct (empty (Some num) && empty (Some cat)) eqn:EM; [destruct num, cat; cbn in EM; try discriminate; destruct H1; reflexivity |].
    assert (FB : forallb (fun c => match ncats c with Some _ => true | None => false end) (num ++ cat) = true) by (apply forallb_forall; intros k I; apply H2, NC in I; destruct (ncats k); [reflexivity | congruence]).
    cbn [count] in C. rewrite FB in C. cbv zeta in C. replace (List.length cat + List.length num =? List.length (s_labels s)) with true in C by (symmetry; apply Nat.eqb_eq; lia). cbn [negb] in C.
    match type of C with (if ?e then _ else _) = _ => destruct e eqn:X end.
    + apply existsb_exists in X. destruct X as (n & I & Q0). apply Nat.eqb_eq in Q0. subst n. apply in_map_iff in I. destruct I as (k & K & I).
      destruct (H2 k (in_or_app _ _ _ (or_intror I))) as (c & J & NCo). assert (NK : ncats k = Some (nunique c)) by (unfold ncats; rewrite (in_column k (s_labels s) c LN (proj2 (LI k c) (conj J NCo))); reflexivity).
      rewrite NK in K. apply NCo, nunique_one. exact K.
    + replace (s_rows s <=? 30) with false in C; [discriminate | symmetry; apply Nat.leb_gt; lia].
Qed.

(** ** Recommendations *)
Definition putall {A} (f : A -> answer) (l : list (string * A)) (d : list (string * answer)) := fold_left (fun d kv => put (fst kv) (f (snd kv)) d) l d.
Lemma look_put k k' v : forall d, look k (put k' v d) = if String.eqb k' k then Some v else look k d.
Proof.
  induction d as [|[k1 v1] d IH]; cbn; [reflexivity |]. destruct (String.eqb k1 k') eqn:E; cbn.
  - apply String.eqb_eq in E. subst k1. destruct (String.eqb k' k); reflexivity.
  - rewrite IH. destruct (String.eqb k1 k) eqn:E1; [| reflexivity]. apply String.eqb_eq in E1. subst k1. rewrite String.eqb_sym, E. reflexivity.
Qed.
Lemma put_new k v : forall d, ~ In k (map fst d) -> put k v d = d ++ [(k, v)].
Proof.
  induction d as [|[k1 v1] d IH]; intros H; [reflexivity |]. cbn in H |- *. destruct (String.eqb k1 k) eqn:E; [apply String.eqb_eq in E; destruct H; left; exact E |]. rewrite IH; [reflexivity | intros I; apply H; right; exact I].
Qed.
Lemma putall_new {A} (f : A -> answer) : forall (l : list (string * A)) d, NoDup (map fst d ++ map fst l) -> putall f l d = d ++ map (fun kv => (fst kv, f (snd kv))) l.
Proof.
  induction l as [|[k v] l IH]; intros d N; [cbn; rewrite app_nil_r; reflexivity |]. cbn [putall fold_left fst snd]. fold (putall f l (put k (f v) d)).
  assert (NI : ~ In k (map fst d)) by (intros I; cbn in N; apply NoDup_remove_2 in N; apply N, in_or_app; left; exact I).
  rewrite (put_new k _ d NI), IH; [rewrite <- app_assoc; reflexivity |]. rewrite map_app, <- app_assoc. exact N.
Qed.
Lemma look_in : forall d k v, NoDup (map fst d) -> In (k, v) d -> look k d = Some v.
Proof.
  induction d as [|[k1 v1] d IH]; intros k v N I; [destruct I |]. cbn in N |- *. inversion N as [|a b N1 N2]. subst a b. destruct (String.eqb k1 k) eqn:E.
  - apply String.eqb_eq in E. subst k1. destruct I as [I|I]; [congruence |]. destruct N1. apply (in_map fst) in I. exact I.
  - destruct I as [I|I]; [injection I as -> ->; rewrite String.eqb_refl in E; discriminate | exact (IH k v N2 I)].
Qed.

Lemma train_model init rows nf data_y s num cat shared combo numeric net s' : NoDup (map fst data_y) -> make init rows nf data_y = Some s ->
  train s num cat shared combo numeric (Some net) = (s', true) ->
  s_const s' = get_const_params data_y /\ (exists m, s_model s' = Some m /\ h_cat (l_hpt m) = Some cat /\ h_num (l_hpt m) = Some num /\ l_net m = net /\
    l_decoders m = map (fun k => match column k (s_labels s) with Some c => c | None => [] end) cat).
Proof.
  intros N E T. destruct (labels_in init rows nf data_y s N E) as (LI & LN & SC & SR & SF & SM). unfold train in T. cbv zeta in T.
  destruct (existsb _ num); [discriminate |]. destruct (existsb _ cat); [discriminate |]. destruct (construct _ _ _ _ _ _) as [h|] eqn:C; [| discriminate]. destruct (build _ _ _ _); [| discriminate].
  injection T as <-. cbn [s_const s_model]. split; [exact SC |]. eexists. split; [reflexivity |]. cbn [l_hpt l_net l_decoders].
  unfold construct in C. destruct (empty (Some num) && empty (Some cat)); [discriminate |]. destruct (forallb _ (num ++ cat)); [| discriminate]. cbv zeta in C.
  destruct (negb _); [discriminate |]. do 2 (match type of C with (if ?e then _ else _) = _ => destruct e; [discriminate |] end). injection C as <-. cbn. repeat (split; [reflexivity |]). reflexivity.
Qed.

(** after training with every name once, each answer has a value for every column of data_y and for nothing else: the first value of a constant column,
    one of the values of a categorical column, the network's output for a numerical one *)
Theorem C295_recommended_partial init rows nf data_y s num cat shared combo numeric net s' x answers : NoDup (map fst data_y) -> make init rows nf data_y = Some s ->
  train s num cat shared combo numeric (Some net) = (s', true) -> NoDup (cat ++ num) -> shaped cat num data_y net ->
  (forall k c, In k cat -> In (k, c) data_y -> exists v, In (Some v) c) ->
  get_hpt_from_features s' (Rows x) = Some answers ->
  List.length answers = List.length x /\ forall i row, nth_error answers i = Some row ->
    Permutation (map fst row) (map fst data_y) /\ exists features, nth_error x i = Some features /\ forall k c, In (k, c) data_y ->
      (constant c -> look k row = Some (Given (nth 0 c None))) /\
      (~ constant c -> (In k cat /\ exists v, In (Some v) c /\ look k row = Some (Given (Some v))) \/
                       exists j y, nth_error num j = Some k /\ nth_error (snd (net (map (fun v => match v with Some q => q | None => 0%Q end) features))) j = Some y /\ look k row = Some (Number y)).
Proof.
  intros N E T ND SH NE G. pose proof (proj1 (proj1 (C295_train init rows nf data_y s num cat shared combo numeric (Some net) N E))) as TR. rewrite T in TR. destruct (TR eq_refl) as (_ & NM & CT & _ & _).
  destruct (train_model _ _ _ _ _ _ _ _ _ _ _ _ N E T) as (SC & m & SM & HC & HN & LNt & LD). destruct (labels_in init rows nf data_y s N E) as (LI & LN & _ & _ & _ & _).
  assert (SL : s_labels s = filter (fun kc => negb (existsb (String.eqb (fst kc)) (map fst (get_const_params data_y)))) data_y) by (unfold make in E; destruct (forallb _ _); [| discriminate]; injection E as <-; reflexivity). rewrite <- SL in CT. clear SL TR.
  unfold get_hpt_from_features in G. rewrite SM in G.
  assert (ROW : List.length answers = List.length x /\ forall i row, nth_error answers i = Some row -> exists f, nth_error x i = Some f /\ features_row s' m f = Some row).
  { clear - G. revert answers G. induction x as [|f x IH]; intros answers G; cbn in G; [injection G as <-; split; [reflexivity |]; intros [|i] row I; discriminate I |].
    destruct (features_row s' m f) as [y|] eqn:F; [| discriminate]. destruct (all_rows _ x) as [ys|] eqn:A; [| discriminate]. injection G as <-. destruct (IH ys eq_refl) as [L H]. split; [cbn; congruence |].
    intros [|i] row I; cbn in I; [injection I as <-; exists f; split; [reflexivity | exact F] | exact (H i row I)]. }
  destruct ROW as [RL ROW]. split; [exact RL |]. intros i row Ni. destruct (ROW i row Ni) as (f & Nf & FR). clear ROW RL Ni.
  assert (PL : Permutation (cat ++ num) (map fst (s_labels s))).
  { apply NoDup_Permutation_bis; [exact ND | rewrite app_length, map_length; lia |]. intros k I. assert (I' : In k (num ++ cat)) by (apply in_app_or in I; apply in_or_app; tauto). destruct (NM k I') as (c & J). apply LI in J. apply (in_map fst) in J. exact J. }
  assert (DIS : forall k, In k (cat ++ num) -> ~ In k (map fst (s_const s'))).
  { intros k I J. apply (Permutation_in _ PL) in I. apply in_map_iff in I. destruct I as ([k1 c] & K & I). cbn in K. subst k1. apply LI in I. rewrite SC in J. apply in_map_iff in J. destruct J as ([k1 v] & K & J). cbn in K. subst k1.
    apply const_in in J. destruct J as (c' & I' & C & _). destruct I as [I NCo]. apply (in_column k data_y c N) in I. apply (in_column k data_y c' N) in I'. congruence. }
  assert (NCn : NoDup (map fst (s_const s'))).
  { rewrite SC. clear - N. unfold get_const_params. induction data_y as [|[k c] l IH]; [constructor |]. cbn in N. inversion N as [|a b N1 N2]. subst a b. cbn [flat_map fst snd]. destruct (nunique c =? 1); [| exact (IH N2)]. cbn. constructor; [| exact (IH N2)].
    intros J. apply N1. apply in_map_iff in J. destruct J as ([k1 v] & K & J). cbn in K. subst k1. apply (const_in l k v) in J. destruct J as (c' & I & _). apply (in_map fst) in I. exact I. }
  set (z := map (fun v : option Q => match v with Some q => q | None => 0%Q end) f) in *.
  destruct (SH z) as (S1 & S2 & S3).
  destruct (C237_parameters (l_hpt m) cat num (l_decoders m) (fst (net z)) (snd (net z)) HC HN) as (rc & rn & RE & RC & RN & RS & RV).
  { rewrite LD. apply map_length. } { exact S1. } { exact S2. }
  { intros j c o Nc No. rewrite LD, nth_error_map in Nc. destruct (nth_error cat j) as [k|] eqn:Nk; [| discriminate]. cbn in Nc.
    destruct (NM k (in_or_app _ _ _ (or_intror (nth_error_In _ _ Nk)))) as (c0 & J). pose proof (proj2 (LI k c0) J) as J'. rewrite (in_column k _ c0 LN J') in Nc. injection Nc as <-.
    destruct (S3 j k c0 o Nk (proj1 J) No) as (cl & D1 & D2 & D3).
    assert (LE : List.length cl = List.length (categories c0)) by (apply Permutation_length, NoDup_Permutation; [exact D1 | apply categories_nodup | intros v; rewrite D2; symmetry; apply categories_in]).
    split; [congruence |]. intros ->. cbn in D3. destruct (NE k c0 (nth_error_In _ _ Nk) (proj1 J)) as (v & I). apply D2 in I. destruct cl; [destruct I | discriminate]. }
  unfold features_row in FR. rewrite LNt in FR. change (fill f) with z in FR. rewrite RE in FR.
  change (Some (putall Given (s_const s') (putall Number rn (putall Given rc []))) = Some row) in FR. injection FR as FR.
  rewrite (putall_new Given rc []) in FR by (cbn [map app]; rewrite RC; apply NoDup_app_remove_r in ND || idtac; revert ND; rewrite ?RC; clear; intros ND; induction cat as [|a l IH]; [constructor | cbn in ND; inversion ND as [|u v U W]; subst; constructor; [intros I; apply U, in_or_app; left; exact I | exact (IH W)]]).
  rewrite app_nil_l in FR. set (A1 := map (fun kv : string * option Z => (fst kv, Given (snd kv))) rc) in *.
  assert (F1 : map fst A1 = cat) by (unfold A1; rewrite map_map; exact RC).
  rewrite (putall_new Number rn A1) in FR by (rewrite F1, RN; exact ND).
  set (A2 := map (fun kv : string * Q => (fst kv, Number (snd kv))) rn) in *. assert (F2 : map fst A2 = num) by (unfold A2; rewrite map_map; exact RN).
  rewrite (putall_new Given (s_const s')) in FR by (rewrite map_app, F1, F2; clear - ND DIS NCn; revert ND DIS; induction (cat ++ num) as [|a l IH]; intros ND DIS; [exact NCn |]; inversion ND as [|u v U W]; subst; cbn; constructor;
      [intros I; apply in_app_or in I; destruct I as [I|I]; [exact (U I) | exact (DIS a (or_introl eq_refl) I)] | apply IH; [exact W | intros k I; apply DIS; right; exact I]]).
  set (A3 := map (fun kv : string * option Z => (fst kv, Given (snd kv))) (s_const s')) in *. assert (F3 : map fst A3 = map fst (s_const s')) by (unfold A3; rewrite map_map; reflexivity).
  assert (PERM : Permutation (map fst row) (map fst data_y)).
  { rewrite <- FR, !map_app, F1, F2, F3. apply NoDup_Permutation.
    - clear - ND DIS NCn. revert ND DIS. induction (cat ++ num) as [|a l IH]; intros ND DIS; [exact NCn |]. inversion ND as [|u v U W]; subst; cbn; constructor;
      [intros I; apply in_app_or in I; destruct I as [I|I]; [exact (U I) | exact (DIS a (or_introl eq_refl) I)] | apply IH; [exact W | intros k I; apply DIS; right; exact I]].
    - exact N.
    - intros k. rewrite in_app_iff. split.
      + intros [I|I].
        * apply (Permutation_in _ PL) in I. apply in_map_iff in I. destruct I as ([k1 c] & K & I). cbn in K. subst k1. apply LI in I. apply (in_map fst) in I; [exact (in_map fst _ _ (proj1 (proj1 (LI k c) (proj2 (LI k c) ltac:(assumption))))) | assumption] || exact (in_map fst _ _ (proj1 I)).
        * rewrite SC in I. apply in_map_iff in I. destruct I as ([k1 v] & K & I). cbn in K. subst k1. apply const_in in I. destruct I as (c & I & _). apply (in_map fst) in I. exact I.
      + intros I. apply in_map_iff in I. destruct I as ([k1 c] & K & I). cbn in K. subst k1. destruct (Nat.eq_dec (nunique c) 1) as [C|C]; rewrite nunique_one in C.
        * right. rewrite SC. change k with (fst (k, nth 0 c None)). apply in_map, const_in. exists c. split; [exact I | split; [exact C | reflexivity]].
        * left. apply (Permutation_in _ (Permutation_sym PL)). exact (in_map fst _ _ (proj2 (LI k c) (conj I C))). }
  split; [exact PERM |]. exists f. split; [exact Nf |]. fold z.
  assert (NR : NoDup (map fst row)) by (apply (Permutation_NoDup (Permutation_sym PERM)); exact N).
  intros k c I. split.
  - intros C. apply (look_in row k _ NR). rewrite <- FR. apply in_or_app. right. unfold A3. apply in_map_iff. exists (k, nth 0 c None). split; [reflexivity |]. rewrite SC. apply const_in. exists c. split; [exact I | split; [exact C | reflexivity]].
  - intros C. assert (IK : In k (cat ++ num)) by (apply (Permutation_in _ (Permutation_sym PL)); exact (in_map fst _ _ (proj2 (LI k c) (conj I C)))).
    apply in_app_or in IK. destruct IK as [IK|IK]; [left; split; [exact IK |] | right].
    + destruct (In_nth_error _ _ IK) as (j & Nj). assert (Nd : nth_error (l_decoders m) j = Some c) by (rewrite LD, nth_error_map, Nj; cbn; rewrite (in_column k _ c LN (proj2 (LI k c) (conj I C))); reflexivity).
      assert (No : exists o, nth_error (fst (net z)) j = Some o) by (destruct (nth_error (fst (net z)) j) eqn:X; [eexists; reflexivity | apply nth_error_None in X; assert (j < List.length cat) by (apply nth_error_Some; congruence); lia]). destruct No as (o & No).
      destruct (RV j k c o Nj Nd No) as (v & kk & b & Nv & Iv & _). exists v. split; [exact Iv |]. apply (look_in row k _ NR). rewrite <- FR. apply in_or_app. left. apply in_or_app. left. unfold A1. apply in_map_iff. exists (k, Some v). split; [reflexivity | exact (nth_error_In _ _ Nv)].
    + destruct (In_nth_error _ _ IK) as (j & Nj). assert (Ny : exists y, nth_error (snd (net z)) j = Some y) by (destruct (nth_error (snd (net z)) j) eqn:X; [eexists; reflexivity | apply nth_error_None in X; assert (j < List.length num) by (apply nth_error_Some; congruence); lia]). destruct Ny as (y & Ny).
      exists j, y. split; [exact Nj |]. split; [exact Ny |]. apply (look_in row k _ NR). rewrite <- FR. apply in_or_app. left. apply in_or_app. right. unfold A2. apply in_map_iff. exists (k, y). split; [reflexivity |].
      rewrite <- RN in Nj. rewrite <- RS in Ny. rewrite nth_error_map in Nj, Ny. destruct (nth_error rn j) as [[k1 y1]|] eqn:X; [| discriminate]. cbn in Nj, Ny. injection Nj as ->. injection Ny as ->. exact (nth_error_In _ _ X).
Qed.

(** it always answers *)
Theorem C295_answers init rows nf data_y s num cat shared combo numeric net s' x : NoDup (map fst data_y) -> make init rows nf data_y = Some s ->
  train s num cat shared combo numeric (Some net) = (s', true) -> exists answers, get_hpt_from_features s' (Rows x) = Some answers.
Proof.
  intros N E T. destruct (train_model _ _ _ _ _ _ _ _ _ _ _ _ N E T) as (SC & m & SM & HC & HN & LNt & LD). unfold get_hpt_from_features. rewrite SM.
  induction x as [|f x (ys & IH)]; [eexists; reflexivity |]. cbn. unfold features_row at 1. unfold recommended. rewrite HC, HN. rewrite IH. eexists. reflexivity.
Qed.
(** A training that fails leaves the object as it was, also one that was trained before: it goes on answering as it did. *)
Theorem C295_failed_train s num cat shared combo numeric fit : snd (train s num cat shared combo numeric fit) = false ->
  fst (train s num cat shared combo numeric fit) = s /\ forall x, get_hpt_from_features (fst (train s num cat shared combo numeric fit)) x = get_hpt_from_features s x.
Proof.
  intros H. assert (X : fst (train s num cat shared combo numeric fit) = s); [| split; [exact X | intros x; rewrite X; reflexivity]]. revert H. unfold train.
  destruct (existsb _ num); [reflexivity |]. destruct (existsb _ cat); [reflexivity |]. destruct (construct _ _ _ _ _ _) as [h|]; [| reflexivity].
  destruct (build _ _ _ _) as [n|]; [| reflexivity]. destruct fit as [net|]; [discriminate | reflexivity].
Qed.
(** not before train, and never from a series *)
Theorem C295_untrained init rows nf data_y s x : make init rows nf data_y = Some s -> get_hpt_from_features s x = None.
Proof. unfold make. destruct (forallb _ _); [| discriminate]. intros E. injection E as <-. reflexivity. Qed.
Theorem C295_from_series_refuted s features : get_hpt_from_ts s features = None.
Proof. unfold get_hpt_from_ts, get_hpt_from_features. destruct (s_model s); reflexivity. Qed.

(** a column with a missing first value and one other value is taken for constant, with the missing value as its value *)
Theorem C295_missing_refuted init rows nf data_y s k v n : NoDup (map fst data_y) -> make init rows nf data_y = Some s -> 0 < n -> In (k, None :: repeat (Some v) n) data_y ->
  In (k, None) (s_const s) /\ ~ In k (map fst (s_labels s)).
Proof.
  intros N E L I. destruct (labels_in init rows nf data_y s N E) as (LI & LN & SC & _).
  assert (C : constant (None :: repeat (Some v) n)).
  { exists v. split; [right; destruct n; [lia | left; reflexivity] |]. intros w [W|W]; [discriminate |]. apply repeat_spec in W. congruence. }
  split; [rewrite SC; apply const_in; eexists; split; [exact I | split; [exact C | reflexivity]] |].
  intros J. apply in_map_iff in J. destruct J as ([k1 c] & K & J). cbn in K. subst k1. apply LI in J. destruct J as [J NC]. apply (in_column k data_y c N) in J. apply (in_column k data_y _ N) in I. rewrite J in I. injection I as ->. exact (NC C).
Qed.

(** a name given twice takes the place of another, which is then never recommended *)
Theorem C295_twice_refuted : exists data_y s s' net, make (fun _ => true) 31 1 data_y = Some s /\ map fst data_y = ["a"; "b"]%string /\ (forall k c, In (k, c) data_y -> ~ constant c) /\
  train s ["a"]%string ["a"]%string [] [] [] (Some net) = (s', true) /\ forall f, exists row, get_hpt_from_features s' (Rows [f]) = Some [row] /\ look "b" row = None.
Proof.
  set (c := Some 2%Z :: repeat (Some 1%Z) 30). set (net := fun _ : list Q => ([[1%Q; 2%Q]], [3%Q])).
  eexists [("a", c); ("b", c)]%string, _, _, net. split; [vm_compute; reflexivity |]. split; [reflexivity |]. split.
  - assert (C : ~ constant c) by (intros (v & _ & U); pose proof (U 2%Z (or_introl eq_refl)); pose proof (U 1%Z (or_intror (or_introl eq_refl))); lia). intros k c' [I|[I|[]]]; injection I as _ <-; exact C.
  - split; [vm_compute; reflexivity |]. intros f. eexists. split; [reflexivity | reflexivity].
Qed.

(** and of a parameter learned both as a category and as a number the number is recommended; a constant one always has its constant *)
Lemma look_putall {A} (f : A -> answer) k : forall (l : list (string * A)) d, NoDup (map fst l) ->
  (forall v, In (k, v) l -> look k (putall f l d) = Some (f v)) /\ (~ In k (map fst l) -> look k (putall f l d) = look k d).
Proof.
  induction l as [|[k1 v1] l IH]; intros d N; [split; [intros v [] | reflexivity] |]. cbn [map fst] in N. inversion N as [|a b N1 N2]. subst a b. cbn [putall fold_left fst snd]. fold (putall f l (put k1 (f v1) d)).
  destruct (IH (put k1 (f v1) d) N2) as (I1 & I2). split.
  - intros v [I|I]; [injection I as -> ->; rewrite I2 by exact N1; rewrite look_put, String.eqb_refl; reflexivity | exact (I1 v I)].
  - cbn [map fst In]. intros H. rewrite I2 by tauto. rewrite look_put. destruct (String.eqb k1 k) eqn:E; [apply String.eqb_eq in E; tauto | reflexivity].
Qed.
Theorem C295_precedence s m row rc rn d : recommended (l_hpt m) (l_decoders m) (fst (l_net m (fill row))) (snd (l_net m (fill row))) = Some (rc, rn) ->
  features_row s m row = Some d -> NoDup (map fst rc) -> NoDup (map fst rn) -> NoDup (map fst (s_const s)) ->
  (forall k v, In (k, v) (s_const s) -> look k d = Some (Given v)) /\
  (forall k x, In (k, x) rn -> ~ In k (map fst (s_const s)) -> look k d = Some (Number x)) /\
  (forall k v, In (k, v) rc -> ~ In k (map fst rn) -> ~ In k (map fst (s_const s)) -> look k d = Some (Given v)).
Proof.
  intros R F N1 N2 N3. unfold features_row in F. rewrite R in F. injection F as <-.
  change (fold_left (fun d kv => put (fst kv) (Given (snd kv)) d) rc []) with (putall Given rc []). set (d1 := putall Given rc []).
  change (fold_left (fun d kv => put (fst kv) (Number (snd kv)) d) rn d1) with (putall Number rn d1). set (d2 := putall Number rn d1).
  change (fold_left (fun d kv => put (fst kv) (Given (snd kv)) d) (s_const s) d2) with (putall Given (s_const s) d2).
  split; [| split].
  - intros k v I. apply (look_putall Given k _ d2 N3). exact I.
  - intros k x I C. rewrite (proj2 (look_putall Given k _ d2 N3) C). apply (look_putall Number k _ d1 N2). exact I.
  - intros k v I C1 C2. rewrite (proj2 (look_putall Given k _ d2 N3) C2). unfold d2. rewrite (proj2 (look_putall Number k _ d1 N2) C1). apply (look_putall Given k _ [] N1). exact I.
Qed.
Example C295_precedence_case : exists s s' m row rc rn, make (fun _ => true) 31 1 [("a", Some 2%Z :: repeat (Some 1%Z) 30); ("b", Some 2%Z :: repeat (Some 1%Z) 30); ("c", repeat (Some 5%Z) 31)]%string = Some s /\
  train s ["a"]%string ["a"]%string [] [] [] (Some (fun _ : list Q => ([[1%Q; 2%Q]], [3%Q]))) = (s', true) /\ s_model s' = Some m /\
  recommended (l_hpt m) (l_decoders m) (fst (l_net m (fill row))) (snd (l_net m (fill row))) = Some (rc, rn) /\ map fst rc = ["a"]%string /\ rn = [("a"%string, 3%Q)] /\ map fst (s_const s') = ["c"]%string.
Proof. eexists _, _, _, [], _, _. split; [vm_compute; reflexivity |]. split; [vm_compute; reflexivity |]. split; [reflexivity |]. split; [vm_compute; reflexivity |]. repeat split; reflexivity. Qed.

(** three columns, one of them constant *)
Example C295_case : let data_y := [("window", Some 7%Z :: Some 14%Z :: repeat (Some 7%Z) 29); ("fraction", repeat (Some 3%Z) 31); ("delta", Some 1%Z :: repeat (Some 2%Z) 30)]%string in
  let net := fun _ : list Q => ([[1#4; 3#4]], [5#2]) in
  exists s s', make (fun args => List.length args =? 2) 31 3 data_y = Some s /\ train s ["delta"]%string ["window"]%string [20] [] [5] (Some net) = (s', true) /\
    get_hpt_from_features s' (Rows [[Some 1%Q; None]]) = Some [[("window", Given (Some 14%Z)); ("delta", Number (5#2)); ("fraction", Given (Some 3%Z))]]%string /\
    NoDup (map fst data_y) /\ shaped ["window"]%string ["delta"]%string data_y net.
Proof.
  cbv zeta. eexists _, _. split; [vm_compute; reflexivity |]. split; [vm_compute; reflexivity |]. split; [vm_compute; reflexivity |]. split.
  - repeat constructor; cbn; intuition discriminate.
  - intros x. split; [reflexivity |]. split; [reflexivity |]. intros [|[|j]] k c o Nj I No; [| discriminate Nj | discriminate Nj]. injection Nj as <-. injection No as <-. destruct I as [I|[I|[I|[]]]]; [| discriminate I | discriminate I]. injection I as <-.
    exists [7; 14]%Z. split; [repeat constructor; cbn; intuition discriminate |]. split; [| reflexivity]. intros v. split.
    + intros [<-|[<-|[]]]; [left; reflexivity | right; left; reflexivity].
    + intros J. repeat (destruct J as [J|J]; [injection J as <-; cbn; tauto |]). destruct J.
Qed.

Print Assumptions C295_accepted.
Print Assumptions C295_train.
Print Assumptions C295_recommended_partial.
Print Assumptions C295_answers.
Print Assumptions C295_untrained.
Print Assumptions C295_from_series_refuted.
Print Assumptions C295_missing_refuted.
Print Assumptions C295_twice_refuted.

Print Assumptions C295_precedence.

Print Assumptions C295_failed_train.
