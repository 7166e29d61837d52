(** C58: renaming columns by prefix. *)
From Coq Require Import List String Bool Arith Lia.
From Verif Require Import RenameModel RenameSpec.
Import ListNotations.
Open Scope list_scope.
Local Notation len := List.length.

Lemma prefix_app p c : prefix p c = true <-> exists r, c = (p ++ r)%string.
Proof.
  revert c. induction p as [|a p IH]; intros c; [split; [intros _; exists c; reflexivity|intros _; destruct c; reflexivity]|]. destruct c as [|b c]; [split; [discriminate|intros [r H]; discriminate]|]. specialize (IH c). cbn [prefix append].
  destruct (Ascii.ascii_dec a b) as [->|N]; [rewrite IH; split; intros [r H]; exists r; [rewrite H; reflexivity|injection H as ->; reflexivity]|]. split; [discriminate|]. intros [r H]. injection H as -> _. contradiction.
Qed.
Lemma applies_b t p c : negb (String.eqb c t) && prefix p c = true <-> applies t p c.
Proof.
  unfold applies. rewrite andb_true_iff, negb_true_iff, prefix_app. destruct (String.eqb_spec c t) as [->|N]; split; intros [A B]; split; try assumption; try discriminate; try contradiction; reflexivity.
Qed.
Lemma matched_one t cols p c : matched t cols p = [c] -> unique_match t cols p /\ In c cols /\ applies t p c.
Proof.
  intros H. assert (I : In c (matched t cols p)) by (rewrite H; left; reflexivity). apply filter_In in I as [IC A]. apply applies_b in A. split; [|split; assumption].
  unfold matched in H. clear IC A. unfold unique_match. revert H. induction cols as [|d cols IH]; intros H; [discriminate|]. cbn in H. destruct (negb (String.eqb d t) && prefix p d) eqn:E.
  - injection H as <- H. exists 0. apply applies_b in E. split; [cbn; lia|]. split; [exact E|]. intros [|j] Hj Aj; [reflexivity|]. exfalso. cbn in Hj, Aj. assert (I : In (nth j cols ""%string) []). { rewrite <- H. apply filter_In. split; [apply nth_In; lia|apply applies_b, Aj]. } destruct I.
  - destruct (IH H) as (i & Hi & Ai & Ui). exists (S i). split; [cbn; lia|]. split; [exact Ai|]. intros [|j] Hj Aj; [apply applies_b in Aj; cbn in Aj; congruence|]. f_equal. apply Ui; [cbn in Hj; lia|exact Aj].
Qed.
Lemma unique_one t cols p : unique_match t cols p -> exists c, matched t cols p = [c].
Proof.
  intros (i & Hi & Ai & Ui). unfold matched. revert i Hi Ai Ui. induction cols as [|d cols IH]; intros i Hi Ai Ui; [cbn in Hi; lia|]. cbn. destruct (negb (String.eqb d t) && prefix p d) eqn:E.
  - assert (i = 0) by (symmetry; apply Ui; [cbn; lia|apply applies_b, E]). subst i. exists d. f_equal. destruct (filter _ cols) as [|x l] eqn:F; [reflexivity|exfalso]. assert (I : In x (filter (fun c => negb (String.eqb c t) && prefix p c) cols)) by (rewrite F; left; reflexivity). apply filter_In in I as [I A]. apply applies_b in A.
    apply (In_nth _ _ ""%string) in I as (j & Hj & E'). specialize (Ui (S j)). cbn in Ui. rewrite E' in Ui. specialize (Ui ltac:(lia) A). discriminate.
  - destruct i as [|i]; [apply applies_b in Ai; cbn in Ai; congruence|]. apply (IH i); [cbn in Hi; lia|exact Ai|]. intros j Hj Aj. specialize (Ui (S j)). cbn in Ui. specialize (Ui ltac:(lia) Aj). lia.
Qed.
(** what the loop computes: each new entry pairs the unique column of a rule with its name, columns distinct *)
Lemma mapping_ok t cols rules : forall m0 m, mapping_of t cols rules m0 = Some m ->
  exists m1, m = m0 ++ m1 /\ Forall2 (fun r e => matched t cols (fst r) = [fst e] /\ snd r = snd e) rules m1 /\ (NoDup (map fst m0) -> NoDup (map fst m)).
Proof.
  induction rules as [|[p n] rules IH]; intros m0 m H; cbn in H; [injection H as <-; exists []; rewrite app_nil_r; split; [reflexivity|]; split; [constructor|tauto]|].
  destruct (matched t cols p) as [|c [|d l]] eqn:E; try discriminate. destruct (existsb (fun m => String.eqb (fst m) c) m0) eqn:X; [discriminate|]. destruct (IH _ _ H) as (m1 & -> & F & ND). exists ((c, n) :: m1). rewrite <- app_assoc. split; [reflexivity|]. split; [constructor; [split; [exact E|reflexivity]|exact F]|].
  intros N0. rewrite <- app_assoc in ND. apply ND. rewrite map_app. cbn [map fst]. assert (NI : ~ In c (map fst m0)). { intros I. apply in_map_iff in I as (e & <- & I). assert (existsb (fun m => String.eqb (fst m) (fst e)) m0 = true) by (apply existsb_exists; exists e; split; [exact I|apply String.eqb_refl]). congruence. }
  clear - N0 NI. induction (map fst m0) as [|x l IHl]; cbn; [constructor; [intros []|constructor]|]. inversion N0; subst. constructor; [rewrite in_app_iff; intros [A|[->|[]]]; [contradiction|apply NI; left; reflexivity]|]. apply IHl; [assumption|]. intros A. apply NI. right. exact A.
Qed.
Lemma mapping_some t cols rules : forall m0, (forall r, In r rules -> unique_match t cols (fst r)) ->
  (forall r e, In r rules -> In e m0 -> ~ applies t (fst r) (fst e)) ->
  (forall i j, i < j -> j < len rules -> forall c, In c cols -> ~ (applies t (fst (nth i rules (""%string, ""%string))) c /\ applies t (fst (nth j rules (""%string, ""%string))) c)) ->
  exists m, mapping_of t cols rules m0 = Some m.
Proof.
  induction rules as [|[p n] rules IH]; intros m0 U D P; [eexists; reflexivity|]. cbn. destruct (unique_one t cols p (U _ (or_introl eq_refl))) as [c E]. rewrite E. destruct (matched_one _ _ _ _ E) as (_ & IC & A).
  destruct (existsb (fun m => String.eqb (fst m) c) m0) eqn:X. { apply existsb_exists in X as (e & IE & Q). apply String.eqb_eq in Q. exfalso. apply (D (p, n) e (or_introl eq_refl) IE). cbn. rewrite Q. exact A. }
  apply IH; [intros r Hr; apply U; right; exact Hr| |intros i j Hij Hj; exact (P (S i) (S j) ltac:(lia) ltac:(cbn; lia))]. intros r e Hr He. apply in_app_iff in He as [He|[<-|[]]]; [apply D; [right; exact Hr|exact He]|]. cbn [fst]. intros A'. apply (In_nth _ _ (""%string, ""%string)) in Hr as (j & Hj & Ej).
  refine (P 0 (S j) ltac:(lia) ltac:(cbn; lia) c IC _). cbn. rewrite Ej. split; assumption.
Qed.
Lemma forall2_in_l {A B} (R : A -> B -> Prop) l m x : Forall2 R l m -> In x l -> exists y, In y m /\ R x y.
Proof. induction 1 as [|a b l m H _ IH]; intros I; [destruct I|]. destruct I as [<-|I]; [exists b; split; [left; reflexivity|exact H]|]. destruct (IH I) as (y & Hy & Hr). exists y. split; [right; exact Hy|exact Hr]. Qed.
Lemma forall2_in_r {A B} (R : A -> B -> Prop) l m y : Forall2 R l m -> In y m -> exists x, In x l /\ R x y.
Proof. induction 1 as [|a b l m H _ IH]; intros I; [destruct I|]. destruct I as [<-|I]; [exists a; split; [left; reflexivity|exact H]|]. destruct (IH I) as (x & Hx & Hr). exists x. split; [right; exact Hx|exact Hr]. Qed.

(** C58: it succeeds iff every prefix matches exactly one column and no column is matched twice; the matched columns
    get the new names, all others keep theirs, and the order is unchanged. *)
Theorem C58_raises : forall t cols rules,
  (exists res, rename_columns t cols rules = Some res) <->
  (forall r, In r rules -> unique_match t cols (fst r)) /\
  (forall i j, i < j < len rules -> forall c, In c cols -> ~ (applies t (fst (nth i rules (""%string, ""%string))) c /\ applies t (fst (nth j rules (""%string, ""%string))) c)).
Proof.
  intros t cols rules. unfold rename_columns. split.
  - intros [res H]. destruct (mapping_of t cols rules []) as [m|] eqn:E; [|discriminate]. clear H res. destruct (mapping_ok _ _ _ _ _ E) as (m1 & -> & F & ND). cbn [app] in *. specialize (ND (NoDup_nil _)). split.
    + intros r Hr. destruct (forall2_in_l _ _ _ _ F Hr) as (e & _ & M & _). apply (matched_one _ _ _ _ M).
    + intros i j Hij c IC [A1 A2]. assert (G : forall k, k < len rules -> applies t (fst (nth k rules (""%string, ""%string))) c -> fst (nth k m1 (""%string, ""%string)) = c).
      { clear - F IC. induction F as [|r e rules m1 [M _] F IH]; intros k Hk A; [cbn in Hk; lia|]. destruct k as [|k]; [|apply IH; [cbn in Hk; lia|exact A]]. cbn in A |- *. assert (I : In c (matched t cols (fst r))) by (apply filter_In; split; [exact IC|apply applies_b, A]). rewrite M in I. destruct I as [I|[]]. exact I. }
      assert (LM : len m1 = len rules) by (clear - F; induction F as [|? ? ? ? _ _ IH]; cbn; [reflexivity|rewrite IH; reflexivity]). rewrite (NoDup_nth _ ""%string) in ND. assert (i = j); [|lia]. apply ND; [rewrite map_length; lia|rewrite map_length; lia|]. change ""%string with (fst (""%string, ""%string)). rewrite !map_nth, (G i), (G j); trivial; lia.
  - intros [U P]. destruct (mapping_some t cols rules [] U ltac:(intros ? ? ? []) ltac:(intros i j A B; apply P; lia)) as [m ->]. eexists. reflexivity.
Qed.
Theorem C58_result : forall t cols rules res, rename_columns t cols rules = Some res ->
  len res = len cols /\
  forall i, i < len cols ->
    (forall p n, In (p, n) rules -> applies t p (nth i cols ""%string) -> nth i res ""%string = n) /\
    ((forall p n, In (p, n) rules -> ~ applies t p (nth i cols ""%string)) -> nth i res ""%string = nth i cols ""%string).
Proof.
  intros t cols rules res. unfold rename_columns. destruct (mapping_of t cols rules []) as [m|] eqn:E; [|discriminate]. intros H. injection H as <-. destruct (mapping_ok _ _ _ _ _ E) as (m1 & -> & F & ND). cbn [app] in *. specialize (ND (NoDup_nil _)). split; [apply map_length|]. intros i Hi.
  assert (N : nth i (map (renamed m1) cols) ""%string = renamed m1 (nth i cols ""%string)) by (rewrite (nth_indep _ ""%string (renamed m1 ""%string)) by (rewrite map_length; exact Hi); apply map_nth). rewrite N. set (c := nth i cols ""%string). assert (IC : In c cols) by (apply nth_In, Hi). unfold renamed. split.
  - intros p n Hr A. destruct (forall2_in_l _ _ _ _ F Hr) as (e & He & M & S). cbn [fst snd] in *. assert (I : In c (matched t cols p)) by (apply filter_In; split; [exact IC|apply applies_b, A]). rewrite M in I. destruct I as [I|[]]. rewrite S, <- I. clear - He ND. induction m1 as [|x m1 IH]; [destruct He|]. cbn. destruct (String.eqb_spec (fst x) (fst e)) as [Q|Q].
    + destruct He as [->|He]; [reflexivity|]. exfalso. inversion ND as [|? ? NI _]; subst. apply NI. rewrite Q. apply in_map, He.
    + destruct He as [->|He]; [contradiction|]. apply IH; [inversion ND; assumption|exact He].
  - intros NA. destruct (find _ m1) as [x|] eqn:X; [|reflexivity]. exfalso. apply find_some in X as [IX Q]. apply String.eqb_eq in Q. destruct (forall2_in_r _ _ _ _ F IX) as ([p n] & Hr & M & _). cbn in M. destruct (matched_one _ _ _ _ M) as (_ & _ & A). rewrite Q in A. exact (NA p n Hr A).
Qed.
(** Distinct labels stay distinct if the new names are distinct and differ from the labels that are kept. *)
Theorem C58_distinct_partial : forall t cols rules res, rename_columns t cols rules = Some res -> NoDup cols -> NoDup (map snd rules) ->
  (forall p n c, In (p, n) rules -> In c cols -> c = n -> exists p' n', In (p', n') rules /\ applies t p' c) -> NoDup res.
Proof.
  intros t cols rules res H NC NN K. pose proof (proj1 (C58_raises t cols rules) (ex_intro _ res H)) as [U P]. destruct (C58_result _ _ _ _ H) as [L W]. apply (NoDup_nth _ ""%string). intros i j Hi Hj E. rewrite L in Hi, Hj.
  assert (C : forall k, k < len cols -> (exists p n, In (p, n) rules /\ applies t p (nth k cols ""%string) /\ nth k res ""%string = n) \/ (forall p n, In (p, n) rules -> ~ applies t p (nth k cols ""%string)) /\ nth k res ""%string = nth k cols ""%string).
  { intros k Hk. destruct (W k Hk) as [W1 W2]. destruct (existsb (fun r => negb (String.eqb (nth k cols ""%string) t) && prefix (fst r) (nth k cols ""%string)) rules) eqn:X.
    - apply existsb_exists in X as ([p n] & Hr & A). apply applies_b in A. left. exists p, n. split; [exact Hr|]. split; [exact A|]. apply (W1 p n Hr A).
    - right. assert (NA : forall p n, In (p, n) rules -> ~ applies t p (nth k cols ""%string)). { intros p n Hr A. apply applies_b in A. assert (existsb (fun r => negb (String.eqb (nth k cols ""%string) t) && prefix (fst r) (nth k cols ""%string)) rules = true) by (apply existsb_exists; exists (p, n); split; assumption). congruence. } split; [exact NA|apply W2, NA]. }
  assert (NU : nth i cols ""%string = nth j cols ""%string -> i = j) by (apply (proj1 (NoDup_nth cols ""%string) NC); assumption).
  destruct (C i Hi) as [(p & n & Hr & A & Q)|[NA Q]], (C j Hj) as [(p' & n' & Hr' & A' & Q')|[NA' Q']].
  - assert (EN : n' = n) by congruence. rewrite EN in Hr'. clear Q Q' EN. assert (ER : (p, n) = (p', n)). { apply (In_nth _ _ (""%string, ""%string)) in Hr as (a & Ha & Ea). apply (In_nth _ _ (""%string, ""%string)) in Hr' as (b & Hb & Eb). assert (a = b); [|subst b; congruence]. apply (proj1 (NoDup_nth (map snd rules) ""%string) NN); [rewrite map_length; exact Ha|rewrite map_length; exact Hb|]. change ""%string with (snd (""%string, ""%string)). rewrite !map_nth, Ea, Eb. reflexivity. }
    injection ER as <-. destruct (U _ Hr) as (k & _ & _ & UK). rewrite (UK i Hi A), (UK j Hj A'). reflexivity.
  - exfalso. destruct (K p n (nth j cols ""%string) Hr (nth_In _ _ Hj)) as (q & m & Hq & Aq); [congruence|]. exact (NA' q m Hq Aq).
  - exfalso. destruct (K p' n' (nth i cols ""%string) Hr' (nth_In _ _ Hi)) as (q & m & Hq & Aq); [congruence|]. exact (NA q m Hq Aq).
  - apply NU. congruence.
Qed.
(** Otherwise it may return a frame with two columns of the same label, even two time columns, without raising. *)
Theorem C58_duplicates_refuted : exists t cols rules rules' res res',
  NoDup cols /\ In t cols /\ rename_columns t cols rules = Some res /\ ~ NoDup res /\ rename_columns t cols rules' = Some res' /\ exists i j, i < j < len res' /\ nth i res' ""%string = t /\ nth j res' ""%string = t.
Proof.
  exists "time"%string, ["time"; "a_x"; "b"]%string, [("a_"%string, "b"%string)], [("a_"%string, "time"%string)]. eexists. eexists. split; [repeat constructor; cbn; intuition discriminate|]. split; [left; reflexivity|]. split; [reflexivity|]. split.
  - cbn. intros N. inversion N as [|? ? _ N1]; subst. inversion N1 as [|? ? N2 _]; subst. apply N2. left. reflexivity.
  - split; [reflexivity|]. exists 0, 1. split; [cbn; lia|]. split; reflexivity.
Qed.
Example C58_case : rename_columns "time" ["time"; "test_a"; "control_b"; "x"]%string [("test_", "test"); ("control_", "control")]%string = Some ["time"; "test"; "control"; "x"]%string
  /\ rename_columns "time" ["time"; "test_a"; "test_b"]%string [("test_", "test")]%string = None /\ rename_columns "time" ["time"; "test_metric_count"]%string [("test_", "foo"); ("test_metric_", "bar")]%string = None.
Proof. split; [|split]; reflexivity. Qed.

Print Assumptions C58_raises.
Print Assumptions C58_result.
Print Assumptions C58_distinct_partial.
Print Assumptions C58_duplicates_refuted.
