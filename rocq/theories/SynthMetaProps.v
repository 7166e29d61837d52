(** C317: the training metadata of the detectors' meta-learners — specification, proofs and theorems. *)
From Coq Require Import List Bool Arith ZArith QArith String Lia.
From Verif Require Import Common DetMetaModel DetMetaProps SynthMetaModel.
Import ListNotations.
Open Scope nat_scope.

(** ** Specification *)
(** what a caller who asks once gets *)
Definition fresh (disk : list row) (alg : string) := snd (get_metadata disk alg new_reader).
(** the algorithm has parameters in this row *)
Definition tried (alg : string) (r : hres) : Prop := In alg (map fst r).
(** the parameters that are given in seconds *)
Definition seconds (k : string) : Prop := k = "n_control"%string \/ k = "n_test"%string \/ k = "historical_window"%string \/ k = "scan_window"%string.
(** the file is in order: all texts can be read, features are numbers, parameters in seconds too, and every row tried the same
    algorithms, at least one *)
Definition in_order (file : list row) : Prop :=
  (forall r, In r file -> exists d h, r = (Some d, Some h) /\ numeric d /\ h <> [] /\
     forall alg p e k v, In (alg, (p, e)) h -> In (k, v) p -> seconds k -> exists x, v = Num x) /\
  (forall d1 h1 d2 h2 alg, In (d1, Some h1) file -> In (d2, Some h2) file -> tried alg h1 -> tried alg h2).

(** ** Proofs *)
Lemma down_seconds k : synth_down k = true <-> seconds k.
Proof.
  unfold synth_down, seconds. rewrite !orb_true_iff, !String.eqb_eq. tauto.
Qed.
Lemma same_eq a b : same a b = true <-> a = b.
Proof. destruct a, b; cbn; split; intros H; try discriminate; try reflexivity; [apply String.eqb_eq in H; congruence | injection H as ->; apply String.eqb_refl]. Qed.
Lemma add_key_in l k x : In x (add_key l k) <-> In x l \/ x = k.
Proof.
  unfold add_key. destruct (existsb (same k) l) eqn:E.
  - split; [auto |]. intros [H| ->]; [exact H |]. apply existsb_exists in E. destruct E as (y & Y & S). apply same_eq in S. subst y. exact Y.
  - rewrite in_app_iff. cbn. split; intros [H|H]; auto. destruct H as [H|[]]; auto.
Qed.
Lemma names_in rs x : In x (algorithm_names rs) <-> exists r, In r rs /\ In x (keys r).
Proof.
  unfold algorithm_names. assert (A : forall ks l, In x (fold_left add_key ks l) <-> In x l \/ In x ks).
  { induction ks as [|k ks IH]; intros l; cbn [fold_left In]; [tauto |]. rewrite IH, add_key_in. split; [intros [[H|H]|H]; auto | intros [H|[H|H]]; auto]. }
  assert (B : forall rs l, In x (fold_left (fun l r => fold_left add_key (keys r) l) rs l) <-> In x l \/ exists r, In r rs /\ In x (keys r)).
  { clear rs. induction rs as [|r rs IH]; intros l; cbn [fold_left].
    - split; [auto | intros [H|(r & [] & _)]; exact H].
    - rewrite IH, A. split.
      + intros [[H|H]|(q & Q & K)]; [auto | right; exists r; split; [left; reflexivity | exact H] | right; exists q; split; [right; exact Q | exact K]].
      + intros [H|(q & [<-|Q] & K)]; [auto | auto | right; exists q; auto]. }
  rewrite B. split; [intros [[]|H]; exact H | auto].
Qed.
Lemma all_some_spec {A} (l : list (option A)) : (forall x, In x l -> x <> None) -> exists r, all_some l = Some r /\ List.length r = List.length l /\ forall i, nth_error l i = option_map Some (nth_error r i).
Proof.
  induction l as [|[x|] l IH]; intros H.
  - exists []. split; [reflexivity |]. split; [reflexivity |]. intros [|i]; reflexivity.
  - destruct (IH (fun y I => H y (or_intror I))) as (r & E & L & N). exists (x :: r). cbn [all_some]. rewrite E. split; [reflexivity |]. split; [cbn; congruence |]. intros [|i]; [reflexivity | exact (N i)].
  - destruct (H None (or_introl eq_refl) eq_refl).
Qed.
Lemma all_some_none {A} (l : list (option A)) : In None l -> all_some l = None.
Proof. induction l as [|[x|] l IH]; intros H; [destruct H | | reflexivity]. destruct H as [H|H]; [discriminate |]. cbn. rewrite (IH H). reflexivity. Qed.
Lemma get_tried {A} alg (r : dict A) : In alg (map fst r) <-> exists v, get alg r = Some v.
Proof.
  induction r as [|[k v] r IH]; cbn [map In get fst]; [split; [intros [] | intros (v & H); discriminate] |]. destruct (String.eqb k alg) eqn:E.
  - apply String.eqb_eq in E. split; [intros _; exists v; reflexivity | auto].
  - apply String.eqb_neq in E. rewrite <- IH. split; [intros [H|H]; [contradiction | exact H] | auto].
Qed.
Lemma get_in {A} alg (r : dict A) v : get alg r = Some v -> In (alg, v) r.
Proof. induction r as [|[k w] r IH]; cbn [get]; [discriminate |]. destruct (String.eqb k alg) eqn:E; intros H; [apply String.eqb_eq in E; injection H as ->; left; congruence | right; auto]. Qed.
Lemma columns_find rs l a y : columns rs l = Some y -> In (Some a) l -> exists p, find (fun p => same (fst p) (Some a)) y = Some p /\ column rs (Some a) = Some (snd p).
Proof.
  revert y. induction l as [|b l IH]; intros y E I; [destruct I |]. cbn [columns] in E. destruct (column rs b) as [c|] eqn:C; [| discriminate].
  destruct (columns rs l) as [cs|]; [| discriminate]. injection E as <-. cbn [find fst]. destruct (same b (Some a)) eqn:S.
  - apply same_eq in S. subst b. exists (Some a, c). split; [reflexivity | exact C].
  - destruct I as [->|I]; [rewrite (proj2 (same_eq _ _) eq_refl) in S; discriminate |]. exact (IH cs eq_refl I).
Qed.
Lemma columns_none rs l a : In a l -> column rs a = None -> columns rs l = None.
Proof. intros I C. induction l as [|b l IH]; [destruct I |]. cbn [columns]. destruct I as [->|I]; [rewrite C; reflexivity |]. rewrite (IH I). destruct (column rs b); reflexivity. Qed.
Lemma columns_some rs l : (forall a, In a l -> column rs a <> None) -> exists y, columns rs l = Some y.
Proof.
  induction l as [|a l IH]; intros H; [exists []; reflexivity |]. destruct (IH (fun b I => H b (or_intror I))) as (y & E). cbn [columns]. rewrite E.
  destruct (column rs a) as [c|] eqn:C; [eexists; reflexivity | destruct (H a (or_introl eq_refl) C)].
Qed.
Lemma columns_keys rs l y : columns rs l = Some y -> map fst y = l.
Proof.
  revert y. induction l as [|a l IH]; intros y E; cbn [columns] in E; [injection E as <-; reflexivity |]. destruct (column rs a); [| discriminate]. destruct (columns rs l); [| discriminate]. injection E as <-.
  cbn. rewrite (IH _ eq_refl). reflexivity.
Qed.
Lemma scaled (r : hres) alg p (e : Q) : (forall k v, In (k, v) p -> seconds k -> exists x, v = Num x) -> get alg r = Some (p, e) ->
  exists y, on_values (scale_param synth_down) p = Some y /\ Forall2 (in_days synth_down) p y.
Proof.
  intros H _. induction p as [|[k v] p IH]; [exists []; split; [reflexivity | constructor] |].
  destruct (IH (fun k v I => H k v (or_intror I))) as (y & E & F).
  destruct (scale_param_ok synth_down k v) as (w & W & D & _); [intros S; apply (H k v (or_introl eq_refl)); apply down_seconds; exact S |].
  exists ((k, w) :: y). cbn [on_values]. rewrite W, E. split; [reflexivity |]. constructor; assumption.
Qed.

(** ** Theorems *)
(** C317.  From a file that is in order, the reader gives for every algorithm tried in it the features of all rows as numbers
    and the algorithm's parameters, those in seconds turned into days, row by row. *)
Theorem C317_read : forall file alg d h, in_order file -> In (d, Some h) file -> tried alg h ->
  exists x y, fresh file alg = Some (x, y) /\ List.length x = List.length file /\ List.length y = List.length file /\
    forall i d0 h0, nth_error file i = Some (Some d0, Some h0) ->
      exists x0 y0 p e, nth_error x i = Some x0 /\ Forall2 number_is d0 x0 /\ get alg h0 = Some (p, e) /\ nth_error y i = Some y0 /\ Forall2 (in_days synth_down) p y0.
Proof.
  intros file alg d h (O1 & O2) I T. unfold fresh, get_metadata. cbn [meta new_reader raw_data raw]. unfold build, data_x.
  destruct (all_some_spec (map (fun r : row => match fst r with Some d => change_dtype d | None => None end) file)) as (x & EX & LX & NX).
  { intros o Ho. apply in_map_iff in Ho. destruct Ho as (r & <- & R). destruct (O1 r R) as (d0 & h0 & -> & N & _). cbn [fst]. destruct (dtype_ok d0 N) as (d' & E & _). congruence. }
  destruct (all_some_spec (map snd file)) as (rs & ER & LR & NR).
  { intros o Ho. apply in_map_iff in Ho. destruct Ho as (r & <- & R). destruct (O1 r R) as (d0 & h0 & -> & _). discriminate. }
  rewrite map_length in LX, LR.
  assert (RS : forall r, In r rs -> exists d0, In (d0, Some r) file).
  { intros r R. apply In_nth_error in R. destruct R as (i & R). specialize (NR i). rewrite R, nth_error_map in NR. cbn in NR.
    destruct (nth_error file i) as [[d0 o]|] eqn:F; [| discriminate NR]. cbn in NR. assert (o = Some r) as -> by congruence. exists d0. apply (nth_error_In _ _ F). }
  rewrite EX, ER.
  assert (COL : forall a d1 h1, In (d1, Some h1) file -> tried a h1 -> exists y, column rs (Some a) = Some y /\ List.length y = List.length rs /\
     forall i r, nth_error rs i = Some r -> exists p e y0, get a r = Some (p, e) /\ nth_error y i = Some y0 /\ Forall2 (in_days synth_down) p y0).
  { intros a d1 h1 I1 T1.
    assert (G : forall r, In r rs -> exists p e y0, get a r = Some (p, e) /\ on_values (scale_param synth_down) p = Some y0 /\ Forall2 (in_days synth_down) p y0).
    { intros r R. destruct (RS r R) as (d2 & I2). pose proof (O2 d1 h1 d2 r a I1 I2 T1) as T2. apply get_tried in T2. destruct T2 as ([p e] & E2).
      destruct (O1 _ I2) as (d3 & h3 & E3 & _ & _ & S). assert (h3 = r) as -> by congruence.
      destruct (scaled r a p e) as (y0 & Y1 & Y2); [intros k v K SK; apply (S a p e k v (get_in _ _ _ E2) K SK) | exact E2 |]. exists p, e, y0. auto. }
    unfold column. set (f := fun r : hres => match get a r with Some pe => on_values (scale_param synth_down) (fst pe) | None => None end).
    destruct (all_some_spec (map f rs)) as (y & EY & LY & NY).
    { intros o Ho. apply in_map_iff in Ho. destruct Ho as (r & <- & R). destruct (G r R) as (p & e & y0 & E1 & E2 & _). unfold f. rewrite E1. cbn [fst]. congruence. }
    exists y. split; [exact EY |]. rewrite map_length in LY. split; [exact LY |]. intros i r R. destruct (G r (nth_error_In _ _ R)) as (p & e & y0 & E1 & E2 & E3).
    exists p, e, y0. split; [exact E1 |]. split; [| exact E3]. specialize (NY i). rewrite nth_error_map, R in NY. cbn [option_map] in NY. unfold f in NY. rewrite E1 in NY. cbn [fst] in NY. rewrite E2 in NY.
    destruct (nth_error y i); [cbn in NY; congruence | discriminate]. }
  assert (KEY : forall a, In a (algorithm_names rs) -> exists a0 d1 h1, a = Some a0 /\ In (d1, Some h1) file /\ tried a0 h1).
  { intros a A. apply names_in in A. destruct A as (r & R & K). destruct (RS r R) as (d1 & I1). destruct (O1 _ I1) as (d2 & h2 & E2 & _ & NE & _). assert (h2 = r) as -> by congruence.
    unfold keys in K. destruct r as [|kv r]; [congruence |]. apply in_map_iff in K. destruct K as (q & <- & Q). exists (fst q), d1, (kv :: r). split; [reflexivity |]. split; [exact I1 |]. apply in_map. exact Q. }
  destruct (columns_some rs (algorithm_names rs)) as (ym & EM).
  { intros a A. destruct (KEY a A) as (a0 & d1 & h1 & -> & I1 & T1). destruct (COL a0 d1 h1 I1 T1) as (y & E & _). congruence. }
  rewrite EM. cbn [option_map snd ys xs].
  assert (IA : In (Some alg) (algorithm_names rs)).
  { apply names_in. apply In_nth_error in I. destruct I as (i & I). specialize (NR i). rewrite nth_error_map, I in NR. cbn in NR. destruct (nth_error rs i) as [r|] eqn:R; [| discriminate]. cbn in NR. injection NR as <-.
    exists h. split; [apply (nth_error_In _ _ R) |]. unfold keys. destruct h as [|kv h]; [destruct T |]. apply in_map_iff in T. destruct T as (q & Q1 & Q2). rewrite <- Q1. apply (in_map (fun kv => Some (fst kv))). exact Q2. }
  destruct (columns_find _ _ _ _ EM IA) as (p & FP & CP). rewrite FP. destruct (COL alg d h I T) as (y & EY & LY & NY). assert (snd p = y) as -> by congruence.
  exists x, y. split; [reflexivity |]. split; [exact LX |]. split; [congruence |]. intros i d0 h0 Ni.
  pose proof (NX i) as NX'. rewrite nth_error_map, Ni in NX'. cbn [option_map fst] in NX'. destruct (O1 _ (nth_error_In _ _ Ni)) as (d4 & h4 & E4 & N4 & _). assert (d4 = d0 /\ h4 = h0) as (-> & ->) by (split; congruence).
  destruct (dtype_ok d0 N4) as (d' & ED & FD & _). rewrite ED in NX'. destruct (nth_error x i) as [x0|]; [| discriminate]. cbn in NX'. assert (x0 = d') as -> by congruence.
  specialize (NR i). rewrite nth_error_map, Ni in NR. cbn [option_map snd] in NR. destruct (nth_error rs i) as [r|] eqn:R; [| discriminate]. cbn in NR. assert (r = h0) as -> by congruence.
  destruct (NY i h0 R) as (q & e & y0 & Q1 & Q2 & Q3). exists d', y0, q, e. auto.
Qed.
(** An algorithm that no row has tried is refused. *)
Theorem C317_unknown : forall file alg, (forall d h, In (d, Some h) file -> ~ tried alg h) -> fresh file alg = None.
Proof.
  intros file alg H. unfold fresh, get_metadata. cbn [meta new_reader raw_data raw]. destruct (build file) as [m|] eqn:B; [| reflexivity]. cbn [snd].
  destruct (find _ (ys m)) as [p|] eqn:F; [exfalso | reflexivity]. apply find_some in F. destruct F as (I & S). apply same_eq in S.
  unfold build in B. destruct (data_x file); [| discriminate]. destruct (all_some (map snd file)) as [rs|] eqn:ER; [| discriminate].
  destruct (columns rs (algorithm_names rs)) as [y|] eqn:C; [| discriminate]. injection B as <-. cbn [ys] in I. apply (in_map fst) in I. rewrite (columns_keys _ _ _ C), S in I.
  apply names_in in I. destruct I as (r & R & K).
  assert (RF : exists d, In (d, Some r) file).
  { clear - ER R. revert rs ER R. induction file as [|[d o] file IH]; intros rs ER R; cbn [map snd all_some] in ER; [injection ER as <-; destruct R |].
    destruct o as [h|]; [| discriminate]. destruct (all_some (map snd file)) as [rs'|]; [| discriminate]. injection ER as <-. destruct R as [->|R]; [exists d; left; reflexivity |].
    destruct (IH rs' eq_refl R) as (d' & D). exists d'. right. exact D. }
  destruct RF as (d & D). apply (H d r D). unfold keys in K. destruct r as [|kv r]; [destruct K as [K|[]]; discriminate |]. apply in_map_iff in K. destruct K as (q & Q1 & Q2). injection Q1 as <-. apply in_map. exact Q2.
Qed.
(** Whatever was asked before, and also if the file has changed or an earlier call has failed, every answer is that of a new reader
    to the file as it was at the first call. *)
Theorem C317_history : forall calls disk0 alg0 rest, calls = (disk0, alg0) :: rest ->
  answers calls new_reader = map (fun c => fresh disk0 (snd c)) calls.
Proof.
  intros calls disk0 alg0 rest ->.
  assert (G : forall l s, (s = {| raw := Some disk0; meta := None |} /\ build disk0 = None) \/ (exists m, s = {| raw := Some disk0; meta := Some m |} /\ build disk0 = Some m) ->
    answers l s = map (fun c => fresh disk0 (snd c)) l).
  { induction l as [|[disk alg] l IH]; intros s S; [reflexivity |]. cbn [answers map snd]. destruct S as [(-> & B)|(m & -> & B)].
    - unfold fresh at 1, get_metadata. cbn [meta raw_data raw new_reader]. rewrite B. cbn [snd]. f_equal. apply IH. left. auto.
    - unfold fresh at 1, get_metadata. cbn [meta raw_data raw new_reader]. rewrite B. cbn [snd]. f_equal. apply IH. right. exists m. auto. }
  cbn [answers map snd]. unfold get_metadata, fresh at 1, get_metadata. cbn [meta raw_data raw new_reader].
  destruct (build disk0) as [m|] eqn:B; cbn [snd]; f_equal; apply G; [right; exists m; auto | left; auto].
Qed.
(** One row that has not tried one of the algorithms makes the reader refuse all of them, also those tried in every row. *)
Theorem C317_hole_refuted : forall file d1 h1 d2 h2 missing, In (d1, Some h1) file -> In (d2, Some h2) file -> tried missing h1 -> ~ tried missing h2 ->
  forall alg, fresh file alg = None.
Proof.
  intros file d1 h1 d2 h2 missing I1 I2 T1 T2 alg. unfold fresh, get_metadata. cbn [meta new_reader raw_data raw]. assert (B : build file = None); [| rewrite B; reflexivity].
  unfold build. destruct (data_x file); [| reflexivity]. destruct (all_some (map snd file)) as [rs|] eqn:ER; [| reflexivity].
  assert (RF : forall d h, In (d, Some h) file -> In h rs).
  { clear - ER. revert rs ER. induction file as [|[d o] file IH]; intros rs ER d0 h0 H; [destruct H |]. cbn [map snd all_some] in ER. destruct o as [h|]; [| discriminate].
    destruct (all_some (map snd file)) as [rs'|]; [| discriminate]. injection ER as <-. destruct H as [H|H]; [injection H as -> ->; left; reflexivity | right; exact (IH rs' eq_refl d0 h0 H)]. }
  rewrite (columns_none rs _ (Some missing)); [reflexivity | |].
  - apply names_in. exists h1. split; [exact (RF _ _ I1) |]. unfold keys. destruct h1 as [|kv h1]; [destruct T1 |]. apply in_map_iff in T1. destruct T1 as (q & Q1 & Q2). rewrite <- Q1. apply (in_map (fun kv => Some (fst kv))). exact Q2.
  - unfold column. apply all_some_none. apply in_map_iff. exists h2. split; [| exact (RF _ _ I2)]. destruct (get missing h2) as [v|] eqn:E; [| reflexivity].
    destruct T2. apply get_tried. exists v. exact E.
Qed.
(** The same text is read in other units by metadata_detect_reader: it leaves n_control and n_test in seconds. *)
Theorem C317_other_reader_refuted : exists h x y fr xs' y', fresh [(Some [], Some h)] "STAT"%string = Some (x, [y]) /\
  reader default_down "STAT"%string {| f_feats := []; f_hres := []; f_rows := [(Written (Some []), Written (Some h), "STAT"%string)] |} = Some (fr, xs', [y']) /\
  get "n_control"%string y' = Some (Num 86400) /\ exists q, get "n_control"%string y = Some (Num q) /\ (q == 1)%Q.
Proof.
  exists [("STAT", ([("n_control", Num 86400)], 0%Q))]%string. eexists _, _, _, _, _. split; [vm_compute; reflexivity |]. split; [vm_compute; reflexivity |].
  split; [reflexivity |]. eexists. split; [reflexivity | reflexivity].
Qed.
(** two rows and two algorithms *)
Definition demo_file : list row :=
  [(Some [("mean", FText (Some (Some (3#2))))], Some [("CUSUM", ([("scan_window", Num 172800); ("score_func", Word "z")], 1#2)); ("STAT", ([("n_test", Num 86400)], 1#3))]);
   (Some [("mean", FNum None)], Some [("STAT", ([("n_test", Num 43200)], 1#3)); ("CUSUM", ([("scan_window", Num 86400)], 1#4))])]%string.
Example C317_case : in_order demo_file /\ (exists x y1 y2, fresh demo_file "STAT" = Some (x, [[("n_test", Num y1)]; [("n_test", Num y2)]])%string /\ (y1 == 1)%Q /\ (y2 == 1#2)%Q)
  /\ answers [(demo_file, "STAT"); ([], "CUSUM"); ([], "other")]%string new_reader = [fresh demo_file "STAT"; fresh demo_file "CUSUM"; None]%string.
Proof.
  split; [split |].
  - intros r [<-|[<-|[]]]; eexists _, _; (split; [reflexivity |]); (split; [intros k v [J|[]] E; injection J as <- <-; discriminate |]); (split; [discriminate |]);
      intros alg p e k v [J|[J|[]]] K; injection J as <- <- <-; cbn in K; intros S;
      repeat (destruct K as [K|K]; [injection K as <- <-; try (eexists; reflexivity); exfalso; unfold seconds in S; destruct S as [S|[S|[S|S]]]; discriminate |]); destruct K.
  - intros d1 h1 d2 h2 alg [J1|[J1|[]]] [J2|[J2|[]]] T; injection J1 as <- <-; injection J2 as <- <-; cbn in *; tauto.
  - split; [| reflexivity]. eexists _, _, _. split; [vm_compute; reflexivity |]. split; reflexivity.
Qed.

Print Assumptions C317_read.
Print Assumptions C317_unknown.
Print Assumptions C317_history.
Print Assumptions C317_hole_refuted.
Print Assumptions C317_other_reader_refuted.
