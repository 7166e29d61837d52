(** C301: regressors, training table and forecasts of the NeuralProphet wrapper. *)
From Coq Require Import String.
From Coq Require Import List ZArith QArith Bool Lia Permutation Sorted.
From Verif Require Import NeuralModel.
Import ListNotations.
Open Scope Z_scope.

(** ** Specification *)
(** r is a dictionary that names its regressor v under key and has no keys beyond regularization and normalize *)
Definition describes (key : string) (r : regressor) (v : value) : Prop :=
  exists d, r = Dict d /\ In (key, v) d /\
    forall k w, In (k, w) d -> k = key \/ k = "regularization"%string \/ k = "normalize"%string.
(** the keys of a dictionary are different *)
Definition dicts (l : list regressor) : Prop := forall d, In (Dict d) l -> NoDup (map fst d).
(** every row has a value for every column *)
Definition full (t : table) : Prop := forall r, In r (t_rows t) -> length (snd r) = length (t_names t).
(** the row v of a table with columns names has x in column n *)
Definition holds (names : list string) (v : list (option Q)) (n : string) (x : option Q) : Prop :=
  exists k, nth_error names k = Some n /\ nth_error v k = Some x.
(** two lists of rows with the same times and the same values in every column but y *)
Definition alike (names : list string) (a b : list (Z * list (option Q))) : Prop :=
  Forall2 (fun r r' => fst r = fst r' /\ length (snd r) = length (snd r') /\
    forall k n, nth_error names k = Some n -> n <> "y"%string -> nth_error (snd r) k = nth_error (snd r') k) a b.
(** what the library's make_future_dataframe returns: the last lags rows of the table, then the steps times that follow *)
Definition library_future (lags : nat) (next : Z -> Z) (df : table) (steps : Z) : frame :=
  let last := fold_left (fun _ r => fst r) (t_rows df) 0 in
  Frame true (Table (t_names df) (skipn (length (t_rows df) - lags) (t_rows df) ++
    map (fun i => (Nat.iter (S i) next last, map (fun _ => None) (t_names df))) (seq 0 (Z.to_nat steps)))).

(** ** Lemmas *)
Lemma mem_in s l : mem s l = true <-> In s l.
Proof.
  unfold mem. rewrite existsb_exists. split.
  - intros (x & I & E). apply String.eqb_eq in E. subst. exact I.
  - intros I. exists s. split; [exact I|apply String.eqb_refl].
Qed.
Lemma lookup_in k d v : NoDup (map fst d) -> (lookup k d = Some v <-> In (k, v) d).
Proof.
  induction d as [|[k' w] d IH]; cbn; intros N; [split; [discriminate|intros []]|].
  inversion N as [|? ? A B]; subst. destruct (String.eqb_spec k k') as [->|E].
  - split; [intros H; injection H as ->; left; reflexivity|]. intros [H|H]; [injection H as ->; reflexivity|].
    exfalso. apply A. apply (in_map fst) in H. exact H.
  - rewrite (IH B). split; [intros H; right; exact H|]. intros [H|H]; [injection H as -> ->; congruence|exact H].
Qed.
Lemma names_spec key l : dicts l -> forall vs, names_of key l = Some vs <-> Forall2 (describes key) l vs.
Proof.
  induction l as [|r l IH]; intros D vs; cbn [names_of].
  - split; [intros H; injection H as <-; constructor|intros H; inversion H; reflexivity].
  - assert (dicts l) as D' by (intros d I; apply D; right; exact I). specialize (IH D').
    destruct r as [|d].
    + split; [discriminate|]. intros H. inversion H as [|? ? ? ? (d & E & _)]; discriminate E.
    + pose proof (D d (or_introl eq_refl)) as N. split.
      * destruct (lookup key d) as [v|] eqn:L; [|discriminate]. apply (lookup_in _ _ _ N) in L.
        destruct (forallb _ _) eqn:F; [|discriminate]. destruct (names_of key l) as [r|] eqn:E; [|discriminate].
        intros H. injection H as <-. constructor; [|apply IH; reflexivity]. exists d. split; [reflexivity|]. split; [exact L|].
        intros k w I. rewrite forallb_forall in F. specialize (F k (in_map fst _ _ I)). apply mem_in in F. cbn in F. intuition.
      * intros H. inversion H as [|? v ? r (d' & E & I & K) T]; subst. injection E as <-.
        apply (lookup_in _ _ _ N) in I. rewrite I. apply IH in T. rewrite T.
        replace (forallb _ _) with true; [reflexivity|]. symmetry. apply forallb_forall. intros k Hk. apply in_map_iff in Hk as ([k' w] & <- & Hk).
        apply mem_in. cbn. destruct (K k' w Hk) as [-> | [-> | ->]]; auto.
Qed.
Lemma hashed_map ns : hashed (map Text ns) = Some (map Some ns).
Proof. induction ns as [|n ns IH]; cbn; [reflexivity|]. rewrite IH. reflexivity. Qed.
Lemma all_some_map {A} (l : list A) : all_some (map Some l) = Some l.
Proof. induction l as [|n l IH]; cbn; [reflexivity|]. rewrite IH. reflexivity. Qed.
Lemma hashed_inv vs l : hashed vs = Some l -> forall ns, all_some l = Some ns -> vs = map Text ns.
Proof.
  revert l. induction vs as [|v vs IH]; intros l; cbn; [intros H; injection H as <-; intros ns H; injection H as <-; reflexivity|].
  destruct v as [s|t|]; [|discriminate|]; destruct (hashed vs) as [r|]; try discriminate; intros H; injection H as <-; cbn; intros ns;
    destruct (all_some r) as [q|] eqn:E; try discriminate; intros H; injection H as <-. cbn. f_equal. exact (IH r eq_refl q E).
Qed.
Lemma hashed_length vs l : hashed vs = Some l -> length l = length vs.
Proof.
  revert l. induction vs as [|v vs IH]; intros l; cbn; [intros H; injection H as <-; reflexivity|].
  destruct v as [s|t|]; [|discriminate|]; destruct (hashed vs) as [r|]; try discriminate; intros H; injection H as <-; cbn; f_equal; exact (IH r eq_refl).
Qed.
Lemma hashed_lists vs l : In (Texts l) vs -> hashed vs = None.
Proof.
  induction vs as [|v vs IH]; [intros []|]. intros [->|I]; cbn; [reflexivity|]. rewrite (IH I). destruct v; reflexivity.
Qed.
Lemma cell_at names : NoDup names -> forall vals k n, nth_error names k = Some n -> length vals = length names -> nth_error vals k = Some (cell names vals n).
Proof.
  induction 1 as [|n' names A B IH]; intros vals k n H L; [destruct k; discriminate|]. destruct vals as [|v vals]; [discriminate|]. cbn in L.
  destruct k as [|k]; cbn in H |- *.
  - injection H as ->. rewrite String.eqb_refl. reflexivity.
  - destruct (String.eqb_spec n n') as [->|E]; [exfalso; apply A; apply nth_error_In in H; exact H|]. apply IH; [exact H|lia].
Qed.
Lemma prefix_spec p s : String.prefix p s = true <-> exists r, s = (p ++ r)%string.
Proof.
  revert s. induction p as [|c p IH]; intros s.
  - cbn. split; [intros _; exists s; reflexivity|destruct s; reflexivity].
  - destruct s as [|c' s]; cbn; [split; [discriminate|intros (r & E); discriminate E]|].
    destruct (Ascii.ascii_dec c c') as [->|N].
    + rewrite IH. split; intros (r & E); exists r; congruence.
    + split; [discriminate|]. intros (r & E). congruence.
Qed.

(** C301: the parameters are accepted exactly when every custom seasonality has its three keys and every regressor is a
    dictionary with its name and only known keys; the names come in the order of the regressors, future ones first. *)
Theorem C301_params : forall p vs, dicts (futures p) -> dicts (laggeds p) ->
  (validate p = Some vs <->
   (forall s, In s (seasons p) -> In "name"%string s /\ In "period"%string s /\ In "fourier_order"%string s) /\
   exists a b, vs = a ++ b /\ Forall2 (describes "name") (futures p) a /\ Forall2 (describes "names") (laggeds p) b).
Proof.
  intros p vs DF DL. unfold validate. split.
  - destruct (forallb _ (seasons p)) eqn:F; [|discriminate]. destruct (names_of "name" _) as [a|] eqn:A; [|discriminate].
    destruct (names_of "names" _) as [b|] eqn:B; [|discriminate]. intros H. injection H as <-. split.
    + intros s I. rewrite forallb_forall in F. specialize (F s I). cbn in F. rewrite !andb_true_iff in F. destruct F as (X & Y & Z & _).
      repeat split; apply mem_in; assumption.
    + exists a, b. split; [reflexivity|]. split; apply names_spec; assumption.
  - intros (S & a & b & -> & A & B). apply names_spec in A; [|exact DF]. apply names_spec in B; [|exact DL]. rewrite A, B.
    replace (forallb _ _) with true; [reflexivity|]. symmetry. apply forallb_forall. intros s I. destruct (S s I) as (X & Y & Z).
    apply mem_in in X, Y, Z. cbn. rewrite X, Y, Z. reflexivity.
Qed.

(** C301: a model is constructed exactly when the names are texts and a series of several columns has a column y and a column
    for every name, a series of one column needs no regressors. *)
Theorem C301_construct : forall p d ns,
  construct p d = Some ns <->
  validate p = Some (map Text ns) /\ (length (t_names d) = 1%nat -> ns = []) /\
  (length (t_names d) <> 1%nat -> In "y"%string (t_names d) /\ incl ns (t_names d)).
Proof.
  intros p d ns. unfold construct, is_univariate. split.
  - destruct (validate p) as [vs|] eqn:V; [|discriminate]. destruct (hashed vs) as [l|] eqn:H; [|discriminate].
    destruct (Nat.eqb_spec (length (t_names d)) 1) as [U|U].
    + destruct l as [|x l]; [|discriminate]. intros E. injection E as <-. apply hashed_length in H. destruct vs; [|discriminate].
      split; [reflexivity|]. split; [reflexivity|]. intros N. congruence.
    + destruct (mem "y" _) eqn:Y; [|discriminate]. destruct (all_some l) as [q|] eqn:A; [|discriminate].
      destruct (forallb _ q) eqn:F; [|discriminate]. intros E. injection E as <-. rewrite (hashed_inv _ _ H _ A).
      split; [reflexivity|]. split; [congruence|]. intros _. split; [apply mem_in, Y|]. intros n I. rewrite forallb_forall in F. apply mem_in, F, I.
  - intros (V & U & W). rewrite V, hashed_map, all_some_map. destruct (Nat.eqb_spec (length (t_names d)) 1) as [E|E].
    + rewrite (U E). reflexivity.
    + destruct (W E) as [Y I]. apply mem_in in Y. rewrite Y. replace (forallb _ _) with true; [reflexivity|].
      symmetry. apply forallb_forall. intros n Hn. apply mem_in, I, Hn.
Qed.

(** C301: refuted: a lagged regressor may be given as a list of names, as the library allows, and the parameters are accepted,
    but no model can be constructed with them for any data. *)
Theorem C301_lists_refuted : forall p vs l, validate p = Some vs -> In (Texts l) vs -> forall d, construct p d = None.
Proof. intros p vs l V I d. unfold construct. rewrite V, (hashed_lists _ _ I). reflexivity. Qed.

(** C301: the library is trained on the rows of the data in their order, with the columns of the regressors in the order of
    their names, then y; the only column of a univariate series becomes y, whatever its name. *)
Theorem C301_training : forall M (train : list (list string) -> list regressor -> list regressor -> table -> option M) p d ns s,
  construct p d = Some ns -> full d -> NoDup (t_names d) ->
  exists df, snd (fit train p ns d s) = State df (match train (seasons p) (futures p) (laggeds p) df with Some m => Some m | None => s_model s end) /\
    t_names df = ns ++ ["y"%string] /\ length (t_rows df) = length (t_rows d) /\
    forall i t v, nth_error (t_rows d) i = Some (t, v) -> exists w, nth_error (t_rows df) i = Some (t, w) /\ length w = S (length ns) /\
      forall k n, nth_error (ns ++ ["y"%string]) k = Some n -> exists x, nth_error w k = Some x /\
        (length (t_names d) = 1%nat -> v = [x]) /\ (length (t_names d) <> 1%nat -> holds (t_names d) v n x).
Proof.
  intros M train p d ns s C Fu N. apply C301_construct in C as (_ & U & W). exists (ts_to_df ns d). split.
  - unfold fit. destruct (train _ _ _ _); reflexivity.
  - cbn. split; [reflexivity|]. split; [apply map_length|]. intros i t v H.
    assert (length v = length (t_names d)) as L by exact (Fu _ (nth_error_In _ _ H)).
    eexists. split; [rewrite nth_error_map, H; reflexivity|]. cbn [fst snd]. split; [rewrite map_length, app_length; cbn; lia|].
    intros k n K. eexists. split; [rewrite nth_error_map, K; reflexivity|]. unfold is_univariate.
    destruct (Nat.eqb_spec (length (t_names d)) 1) as [E|E]; split; intros H'; try congruence.
    + rewrite (U E) in K. destruct v as [|x [|? ?]]; cbn in L; try lia. destruct k as [|[|k]]; cbn in K; try discriminate. injection K as <-. reflexivity.
    + destruct (W E) as [Y I]. assert (In n (t_names d)) as In_n.
      { apply nth_error_In in K. apply in_app_iff in K as [K|[<-|[]]]; [apply I, K|exact Y]. }
      apply In_nth_error in In_n as [j J]. exists j. split; [exact J|]. apply cell_at; [exact N|exact J|exact L].
Qed.

(** ** The frame for the forecasts *)
Lemma insert_perm r l : Permutation (r :: l) (insert_row r l).
Proof. induction l as [|a l IH]; cbn; [reflexivity|]. destruct (_ <=? _); [reflexivity|]. rewrite perm_swap. constructor. exact IH. Qed.
Lemma sort_perm l : Permutation l (sort_rows l).
Proof. induction l as [|a l IH]; cbn; [constructor|]. rewrite <- insert_perm. constructor. exact IH. Qed.
Lemma insert_sorted r l : StronglySorted Z.le (map fst l) -> StronglySorted Z.le (map fst (insert_row r l)).
Proof.
  induction l as [|a l IH]; cbn; intros S; [repeat constructor|]. inversion S as [|? ? S' F]; subst. destruct (Z.leb_spec (fst r) (fst a)); cbn.
  - constructor; [exact S|]. constructor; [lia|]. eapply Forall_impl; [|exact F]. cbn. intros; lia.
  - constructor; [apply IH, S'|]. apply Forall_forall. intros t I. apply in_map_iff in I as (x & <- & I).
    apply (Permutation_in _ (Permutation_sym (insert_perm r l))) in I as [->|I]; [lia|]. rewrite Forall_forall in F. apply F, in_map, I.
Qed.
Lemma sort_sorted l : StronglySorted Z.le (map fst (sort_rows l)).
Proof. induction l as [|a l IH]; cbn; [constructor|]. apply insert_sorted, IH. Qed.
Lemma insert_map g r l : (forall x, fst (g x) = fst x) -> insert_row (g r) (map g l) = map g (insert_row r l).
Proof. intros G. induction l as [|a l IH]; cbn; [reflexivity|]. rewrite !G. destruct (_ <=? _); cbn; [reflexivity|]. rewrite IH. reflexivity. Qed.
Lemma sort_map g l : (forall x, fst (g x) = fst x) -> sort_rows (map g l) = map g (sort_rows l).
Proof. intros G. induction l as [|a l IH]; cbn; [reflexivity|]. fold (sort_rows (map g l)). rewrite IH. apply insert_map, G. Qed.
Lemma sort_id l : StronglySorted Z.le (map fst l) -> sort_rows l = l.
Proof.
  induction l as [|a l IH]; cbn; intros S; [reflexivity|]. inversion S as [|? ? S' F]; subst. fold (sort_rows l). rewrite (IH S').
  destruct l as [|b l]; [reflexivity|]. cbn. inversion F; subst. destruct (Z.leb_spec (fst a) (fst b)); [reflexivity|lia].
Qed.
Lemma put_spec names : NoDup names -> forall vals n v k m, length vals = length names ->
  nth_error (if mem n names then names else names ++ [n]) k = Some m ->
  (m = n -> nth_error (put names vals n v) k = Some v) /\
  (m <> n -> nth_error names k = Some m /\ nth_error (put names vals n v) k = nth_error vals k).
Proof.
  induction 1 as [|a names A B IH]; intros vals n v k m L H.
  - destruct vals; [|discriminate]. cbn in *. destruct k as [|k]; cbn in *; [|destruct k; discriminate]. injection H as <-. split; [reflexivity|congruence].
  - destruct vals as [|x vals]; [discriminate|]. cbn in L |- *. unfold mem in H. cbn [existsb] in H. destruct (String.eqb_spec n a) as [->|E]; cbn [orb] in H.
    + destruct k as [|k]; cbn in H |- *.
      * injection H as ->. split; [reflexivity|congruence].
      * split; [|intros _; split; [exact H|reflexivity]]. intros ->. exfalso. apply A, (nth_error_In _ k), H.
    + fold (mem n names) in H.
      destruct k as [|k].
      * assert (m = a) as -> by (destruct (mem n names); cbn in H; congruence). cbn. split; [congruence|]. split; reflexivity.
      * cbn. apply IH; [lia|]. destruct (mem n names); exact H.
Qed.
Lemma put_length names : forall vals n v, length vals = length names ->
  length (put names vals n v) = length (if mem n names then names else names ++ [n]).
Proof.
  induction names as [|a names IH]; intros vals n v L; [destruct vals; [reflexivity|discriminate]|]. destruct vals as [|x vals]; [discriminate|].
  cbn in L |- *. unfold mem. cbn [existsb]. destruct (String.eqb_spec n a) as [->|E]; cbn; [lia|]. rewrite IH by lia. unfold mem. destruct (existsb _ names); reflexivity.
Qed.
Lemma put_alike names : forall a b n v, length a = length names -> length b = length names ->
  (forall k m, nth_error names k = Some m -> m <> n -> nth_error a k = nth_error b k) -> NoDup names -> put names a n v = put names b n v.
Proof.
  induction names as [|c names IH]; intros a b n v La Lb H N; [reflexivity|]. destruct a as [|x a], b as [|y b]; try discriminate. cbn in La, Lb |- *.
  inversion N as [|? ? A B]; subst. destruct (String.eqb_spec n c) as [->|E].
  - f_equal. assert (forall k, nth_error a k = nth_error b k) as G.
    { intros k. destruct (nth_error names k) as [m|] eqn:K.
      - apply (H (S k) m K). intros ->. apply A, (nth_error_In _ k), K.
      - apply nth_error_None in K. transitivity (@None (option Q)); [|symmetry]; apply nth_error_None; lia. }
    clear -G. revert b G. induction a as [|x a IH]; intros [|y b] G; [reflexivity|discriminate (G 0%nat)|discriminate (G 0%nat)|].
    pose proof (G 0%nat) as E. injection E as ->. f_equal. apply IH. intros k. exact (G (S k)).
  - pose proof (H 0%nat c eq_refl ltac:(congruence)) as E0. injection E0 as ->. f_equal. apply IH; try lia; [|exact B]. intros k m K. exact (H (S k) m K).
Qed.
Lemma put_put names : forall vals n v w, length vals = length names -> put (if mem n names then names else names ++ [n]) (put names vals n v) n w = put names vals n w.
Proof.
  induction names as [|a names IH]; intros vals n v w L; [destruct vals; [|discriminate]; cbn; rewrite String.eqb_refl; reflexivity|].
  destruct vals as [|x vals]; [discriminate|]. cbn in L. unfold mem. cbn [existsb put]. destruct (String.eqb_spec n a) as [->|E]; cbn [orb].
  - cbn. rewrite String.eqb_refl. reflexivity.
  - fold (mem n names). specialize (IH vals n v w ltac:(lia)). destruct (mem n names); cbn; (destruct (String.eqb_spec n a); [congruence|]); f_equal; exact IH.
Qed.
Lemma zero_alike names a b : NoDup names -> alike names a b -> (forall r, In r a -> length (snd r) = length names) ->
  zero_y (Table names (sort_rows a)) = zero_y (Table names (sort_rows b)).
Proof.
  intros N A W. unfold zero_y. cbn [t_names t_rows]. f_equal.
  rewrite <- !(sort_map (fun r => (fst r, put names (snd r) "y" (Some 0%Q)))) by reflexivity. f_equal.
  induction A as [|r r' a b (E & L & H) A IH]; [reflexivity|]. cbn. f_equal.
  - rewrite E. f_equal. pose proof (W r (or_introl eq_refl)) as Wr. apply put_alike; [exact Wr|congruence|exact H|exact N].
  - apply IH. intros x I. apply W. right. exact I.
Qed.

(** C301: with a frame of future rows the library forecasts for those rows, all of them, ordered by time, with y set to zero
    and everything else as given. *)
Theorem C301_frame : forall M C make_future (forecast : M -> table -> option (list (string * C))) p ns s m steps f,
  s_model s = Some m -> f_ds f = true -> full (f_table f) -> NoDup (t_names (f_table f)) ->
  (futures p <> [] \/ laggeds p <> [] -> incl ns (t_names (f_table f))) -> steps <= Z.of_nat (length (t_rows (f_table f))) ->
  exists t rows, fst (predict make_future forecast p ns s steps true (Some f)) = forecast m t /\
    Permutation (t_rows (f_table f)) rows /\ StronglySorted Z.le (map fst rows) /\
    (forall n, In n (t_names t) <-> In n (t_names (f_table f)) \/ n = "y"%string) /\ NoDup (t_names t) /\
    Forall2 (fun r r' => fst r = fst r' /\ length (snd r') = length (t_names t) /\
      forall n x, holds (t_names t) (snd r') n x -> if String.eqb n "y" then x = Some 0%Q else holds (t_names (f_table f)) (snd r) n x) rows (t_rows t).
Proof.
  intros M C make_future forecast p ns s m steps f Em Ed Fu N R L.
  set (rows := sort_rows (t_rows (f_table f))). exists (zero_y (Table (t_names (f_table f)) rows)), rows.
  assert (prepare make_future p ns (s_df s) steps (Some f) = Some (Frame true (zero_y (Table (t_names (f_table f)) rows)))) as P.
  { unfold prepare. rewrite Ed. replace (Z.of_nat _ <? steps) with false by (symmetry; apply Z.ltb_ge; exact L). cbn [andb].
    destruct (0 <? _)%nat eqn:Z0; [|rewrite Ed; replace (Z.of_nat _ <? steps) with false by (symmetry; apply Z.ltb_ge; exact L); reflexivity].
    replace (forallb _ ns) with true.
    - rewrite Ed. replace (Z.of_nat _ <? steps) with false by (symmetry; apply Z.ltb_ge; exact L). reflexivity.
    - symmetry. apply forallb_forall. intros n I. apply orb_true_iff. left. apply mem_in, R; [|exact I].
      apply Nat.ltb_lt in Z0. destruct (futures p); [right|left; discriminate]. destruct (laggeds p); [cbn in Z0; lia|discriminate]. }
  split; [unfold predict; rewrite Em, P; cbn [f_table fst]; destruct (forecast _ _); reflexivity|].
  split; [apply sort_perm|]. split; [apply sort_sorted|]. cbn [zero_y t_names t_rows].
  assert (forall r, In r rows -> length (snd r) = length (t_names (f_table f))) as W.
  { intros r I. apply Fu. exact (Permutation_in _ (Permutation_sym (sort_perm _)) I). }
  clearbody rows. split; [|split].
  - intros n. destruct (mem "y" _) eqn:Y.
    + apply mem_in in Y. split; [auto|]. intros [I| ->]; assumption.
    + rewrite in_app_iff. cbn. intuition.
  - destruct (mem "y" _) eqn:Y; [exact N|]. apply NoDup_Add with (a := "y"%string) (l := t_names (f_table f)).
    + rewrite <- (app_nil_r (t_names (f_table f))) at 1. apply Add_app.
    + split; [exact N|]. intros I. apply mem_in in I. congruence.
  - clear P. induction rows as [|r rows IH]; cbn [map]; [constructor|]. constructor; [|apply IH; intros x I; apply W; right; exact I].
    cbn [fst snd]. pose proof (W r (or_introl eq_refl)) as Wr. split; [reflexivity|]. split; [apply put_length, Wr|].
    intros n x (k & K & X). destruct (put_spec _ N (snd r) "y" (Some 0%Q) k n Wr K) as [A B]. destruct (String.eqb_spec n "y") as [->|E].
    + rewrite (A eq_refl) in X. congruence.
    + destruct (B E) as [K' X']. exists k. split; [exact K'|]. rewrite <- X'. exact X.
Qed.

(** C301: without a fitted model, with fewer future rows than steps, without the times, or without a needed regressor predict
    raises, and the frame of the caller is left as it was. *)
Theorem C301_refused : forall M C make_future (forecast : M -> table -> option (list (string * C))) p ns s steps raw future,
  s_model s = None \/
  (exists f, future = Some f /\ (f_ds f = false \/ Z.of_nat (length (t_rows (f_table f))) < steps)) \/
  ((futures p <> [] \/ laggeds p <> []) /\ (future = None \/ exists f n, future = Some f /\ In n ns /\ n <> "ds"%string /\ ~ In n (t_names (f_table f)))) ->
  predict make_future forecast p ns s steps raw future = (None, future).
Proof.
  intros M C make_future forecast p ns s steps raw future H. unfold predict. destruct (s_model s) as [m|]; [|reflexivity].
  destruct H as [H|H]; [discriminate H|]. replace (prepare make_future p ns (s_df s) steps future) with (@None frame); [reflexivity|]. symmetry. unfold prepare.
  destruct H as [(f & -> & H)|(R & H)].
  - destruct (0 <? _)%nat.
    + destruct (forallb _ _); [|reflexivity]. destruct (f_ds f) eqn:D; [|reflexivity]. destruct H as [H|H]; [discriminate H|]. rewrite (proj2 (Z.ltb_lt _ _) H). reflexivity.
    + destruct (Z.of_nat _ <? steps) eqn:E; [reflexivity|]. destruct H as [->|H]; [reflexivity|]. apply Z.ltb_ge in E. lia.
  - assert ((0 <? length (futures p) + length (laggeds p))%nat = true) as ->.
    { apply Nat.ltb_lt. destruct R as [R|R]; [destruct (futures p)|destruct (laggeds p)]; try congruence; cbn; lia. }
    destruct H as [->|(f & n & -> & I & D & NI)]; [reflexivity|]. replace (forallb _ ns) with false; [reflexivity|]. symmetry.
    destruct (forallb _ ns) eqn:F; [|reflexivity]. rewrite forallb_forall in F. specialize (F n I). apply orb_true_iff in F as [F|F].
    + apply mem_in in F. contradiction.
    + apply andb_true_iff in F as [_ F]. apply String.eqb_eq in F. contradiction.
Qed.

(** C301: the values of y in the frame do not matter. *)
Theorem C301_y_ignored : forall M C make_future (forecast : M -> table -> option (list (string * C))) p ns s steps raw f f',
  f_ds f = f_ds f' -> t_names (f_table f) = t_names (f_table f') -> full (f_table f) -> NoDup (t_names (f_table f)) ->
  alike (t_names (f_table f)) (t_rows (f_table f)) (t_rows (f_table f')) ->
  fst (predict make_future forecast p ns s steps raw (Some f)) = fst (predict make_future forecast p ns s steps raw (Some f')).
Proof.
  intros M C make_future forecast p ns s steps raw [ds [names rows]] [ds' [names' rows']]. cbn [f_ds f_table t_names t_rows]. intros <- <- Fu N A.
  assert (length rows = length rows') as L by (clear -A; induction A; cbn; congruence).
  pose proof (zero_alike names rows rows' N A Fu) as Z. unfold predict. destruct (s_model s) as [m|]; [|reflexivity]. unfold prepare. cbn [f_ds f_table t_names t_rows].
  destruct (0 <? _)%nat; [destruct (forallb _ ns); [|reflexivity]; destruct ds; [|reflexivity]|]; cbn [f_ds f_table t_names t_rows]; rewrite <- L; destruct (_ <? steps); try reflexivity;
    try (destruct ds; [|reflexivity]); cbn [f_table]; rewrite Z; reflexivity.
Qed.

(** C301: refuted for autoregression: the library puts the last lags rows of the history before the future rows, but predict
    sets their values to zero.  Models with the same network forecast the same, whatever their histories were. *)
Theorem C301_history_refuted : forall M C lags next (forecast : M -> table -> option (list (string * C))) p df df' m steps raw,
  futures p = [] -> laggeds p = [] -> t_names df = ["y"%string] -> t_names df' = ["y"%string] -> full df -> full df' ->
  map fst (t_rows df) = map fst (t_rows df') ->
  predict (library_future lags next) forecast p [] (State df (Some m)) steps raw None
  = predict (library_future lags next) forecast p [] (State df' (Some m)) steps raw None.
Proof.
  intros M C lags next forecast p [names rows] [names' rows'] m steps raw F L. cbn [t_names t_rows]. intros -> -> Fu Fu' E.
  assert (forall (a : Z) (x y : list (Z * list (option Q))), map fst x = map fst y -> fold_left (fun _ r => fst r) x a = fold_left (fun _ r => fst r) y a) as G.
  { intros a x. revert a. induction x as [|r x IH]; intros a [|r' y] H; try discriminate; [reflexivity|]. cbn in *. injection H as -> H. apply IH, H. }
  assert (length rows = length rows') as LR by (rewrite <- (map_length fst rows), E; apply map_length).
  unfold predict. cbn [s_model s_df]. unfold prepare. rewrite F, L. cbn [length Nat.add Nat.ltb Nat.leb]. cbn [library_future f_ds f_table t_names t_rows].
  rewrite (G 0 rows rows' E). set (last := fold_left _ rows' 0). set (new := map _ (seq 0 (Z.to_nat steps))). rewrite LR.
  set (k := (length rows' - lags)%nat).
  assert (alike ["y"%string] (skipn k rows ++ new) (skipn k rows' ++ new)) as A.
  { apply Forall2_app.
    - unfold full in Fu, Fu'. cbn [t_rows t_names] in Fu, Fu'. clearbody k. clear last new LR. revert k rows' E Fu'. induction rows as [|r rows IH]; intros k [|r' rows'] E Fu'; try discriminate.
      + destruct k; constructor.
      + cbn in E. injection E as E1 E2. destruct k as [|k]; cbn [skipn].
        * constructor; [|apply (IH (fun x I => Fu x (or_intror I)) 0%nat rows' E2 (fun x I => Fu' x (or_intror I)))].
          split; [exact E1|]. split; [rewrite (Fu r (or_introl eq_refl)), (Fu' r' (or_introl eq_refl)); reflexivity|].
          intros j n J NE. destruct j as [|j]; cbn in J; [congruence|destruct j; discriminate].
        * apply (IH (fun x I => Fu x (or_intror I)) k rows' E2 (fun x I => Fu' x (or_intror I))).
    - induction new as [|x new IH]; [constructor|]. constructor; [|exact IH]. split; [reflexivity|]. split; reflexivity. }
  assert (length (skipn k rows ++ new) = length (skipn k rows' ++ new)) as LL by (rewrite !app_length, !skipn_length, LR; reflexivity).
  assert (NoDup ["y"%string]) as ND by (constructor; [intros []|constructor]).
  rewrite LL. destruct (_ <? steps); [reflexivity|]. cbn [f_table]. rewrite (zero_alike ["y"%string] _ _ ND A); [reflexivity|].
  intros r I. apply in_app_iff in I as [I|I].
  - apply (Fu r). cbn [t_rows]. rewrite <- (firstn_skipn k rows). apply in_app_iff. right. exact I.
  - unfold new in I. apply in_map_iff in I as (i & <- & _). reflexivity.
Qed.

(** C301: without regressors and without a frame the forecasts are those for the frame that the library makes for the training
    table and the steps. *)
Theorem C301_made : forall M C make_future (forecast : M -> table -> option (list (string * C))) p ns s steps raw,
  futures p = [] -> laggeds p = [] ->
  fst (predict make_future forecast p ns s steps raw None) = fst (predict make_future forecast p ns s steps raw (Some (make_future (s_df s) steps)))
  /\ snd (predict make_future forecast p ns s steps raw None) = None.
Proof.
  intros M C make_future forecast p ns s steps raw F L. unfold predict, prepare. rewrite F, L. cbn [length Nat.add Nat.ltb Nat.leb].
  destruct (s_model s) as [m|]; [|split; reflexivity]. destruct (_ <? steps); [split; reflexivity|]. destruct (f_ds _); split; reflexivity.
Qed.

(** C301: refuted for the number of steps: with a frame the forecasts are for all its rows, so the number of steps changes
    nothing as long as the frame is long enough. *)
Theorem C301_steps_refuted : forall M C make_future (forecast : M -> table -> option (list (string * C))) p ns s steps steps' raw f,
  steps <= Z.of_nat (length (t_rows (f_table f))) -> steps' <= Z.of_nat (length (t_rows (f_table f))) ->
  predict make_future forecast p ns s steps raw (Some f) = predict make_future forecast p ns s steps' raw (Some f).
Proof.
  intros M C make_future forecast p ns s steps steps' raw f A B. unfold predict. destruct (s_model s) as [m|]; [|reflexivity].
  replace (prepare make_future p ns (s_df s) steps (Some f)) with (prepare make_future p ns (s_df s) steps' (Some f)); [reflexivity|].
  unfold prepare. destruct (0 <? _)%nat; [destruct (forallb _ ns); [|reflexivity]; destruct (f_ds f) eqn:D; [|reflexivity]|];
    rewrite (proj2 (Z.ltb_ge _ _) A), (proj2 (Z.ltb_ge _ _) B); reflexivity.
Qed.

(** C301: refuted for the frame of the caller: after predict it is ordered by time and its y is zero, whatever it held.
    Calling again with the changed frame gives the same forecasts and leaves it as it is now. *)
Theorem C301_caller_refuted : forall M C make_future (forecast : M -> table -> option (list (string * C))) p ns s steps raw f m,
  s_model s = Some m -> f_ds f = true -> full (f_table f) -> NoDup (t_names (f_table f)) ->
  (futures p <> [] \/ laggeds p <> [] -> incl ns (t_names (f_table f))) -> steps <= Z.of_nat (length (t_rows (f_table f))) ->
  exists f', snd (predict make_future forecast p ns s steps raw (Some f)) = Some f' /\
    StronglySorted Z.le (map fst (t_rows (f_table f'))) /\
    (forall r, In r (t_rows (f_table f')) -> holds (t_names (f_table f')) (snd r) "y" (Some 0%Q)) /\
    predict make_future forecast p ns s steps raw (Some f') = (fst (predict make_future forecast p ns s steps raw (Some f)), Some f').
Proof.
  intros M C make_future forecast p ns s steps raw f m Em Ed Fu N R L.
  assert (forall g, f_ds g = true -> (futures p <> [] \/ laggeds p <> [] -> incl ns (t_names (f_table g))) -> steps <= Z.of_nat (length (t_rows (f_table g))) ->
    prepare make_future p ns (s_df s) steps (Some g) = Some (Frame true (zero_y (Table (t_names (f_table g)) (sort_rows (t_rows (f_table g))))))) as P.
  { clear -m. intros g Ed R L. unfold prepare. rewrite Ed. cbn [andb].
    destruct (0 <? _)%nat eqn:Z0; [|rewrite Ed, (proj2 (Z.ltb_ge _ _) L); reflexivity].
    replace (forallb _ ns) with true; [rewrite Ed, (proj2 (Z.ltb_ge _ _) L); reflexivity|].
    symmetry. apply forallb_forall. intros n I. apply orb_true_iff. left. apply mem_in, R; [|exact I].
    apply Nat.ltb_lt in Z0. destruct (futures p); [right|left; discriminate]. destruct (laggeds p); [cbn in Z0; lia|discriminate]. }
  pose proof (P f Ed R L) as Pf. set (names := t_names (f_table f)) in *. set (rows := sort_rows (t_rows (f_table f))) in *.
  assert (forall r, In r rows -> length (snd r) = length names) as W.
  { intros r I. apply Fu. exact (Permutation_in _ (Permutation_sym (sort_perm _)) I). }
  assert (StronglySorted Z.le (map fst rows)) as S by apply sort_sorted.
  assert (length rows = length (t_rows (f_table f))) as LR by (symmetry; apply Permutation_length, sort_perm).
  set (f' := Frame true (zero_y (Table names rows))) in *. exists f'.
  assert (map fst (t_rows (f_table f')) = map fst rows) as Et by (cbn; rewrite map_map; reflexivity).
  split; [unfold predict; rewrite Em, Pf; reflexivity|]. split; [rewrite Et; exact S|]. split.
  - intros r I. unfold f' in I |- *. cbn [f_table t_rows t_names zero_y] in I |- *. apply in_map_iff in I as (r0 & <- & I). cbn [snd].
    assert (In "y"%string (if mem "y" names then names else names ++ ["y"%string])) as Y by (destruct (mem "y" names) eqn:Y; [apply mem_in, Y|apply in_app_iff; right; left; reflexivity]).
    apply In_nth_error in Y as [k K]. exists k. split; [exact K|]. apply (put_spec _ N (snd r0) "y" (Some 0%Q) k "y" (W r0 I) K). reflexivity.
  - assert (prepare make_future p ns (s_df s) steps (Some f') = Some f') as Pf'.
    { rewrite P; [|reflexivity| |].
      - f_equal. rewrite sort_id by (rewrite Et; exact S). unfold f'. f_equal. unfold zero_y. cbn [f_table t_names t_rows]. f_equal.
        + destruct (mem "y" names) eqn:Y; [rewrite Y; reflexivity|]. replace (mem "y" (names ++ ["y"%string])) with true; [reflexivity|].
          symmetry. apply mem_in, in_app_iff. right. left. reflexivity.
        + rewrite map_map. apply map_ext_in. intros r I. cbn [fst snd]. f_equal. apply put_put, W, I.
      - intros H n I. apply (R H) in I. unfold f'. cbn [f_table t_names zero_y]. destruct (mem "y" names); [exact I|apply in_app_iff; left; exact I].
      - cbn. rewrite map_length, LR. exact L. }
    unfold predict. rewrite Em, Pf, Pf'. reflexivity.
Qed.

(** C301: a forecast has the columns of the library that are called ds or whose name begins with yhat, in their order. *)
Theorem C301_columns : forall M C make_future (forecast : M -> table -> option (list (string * C))) p ns s steps future all,
  fst (predict make_future forecast p ns s steps true future) = Some all ->
  exists cols, fst (predict make_future forecast p ns s steps false future) = Some cols /\
    forall c, In c cols <-> In c all /\ (fst c = "ds"%string \/ exists rest, fst c = ("yhat" ++ rest)%string).
Proof.
  intros M C make_future forecast p ns s steps future all. unfold predict. destruct (s_model s) as [m|]; [|discriminate].
  destruct (prepare _ _ _ _ _ _) as [f|]; [|discriminate]. cbn [fst]. destruct (forecast m _) as [cols|]; [|discriminate]. intros H. injection H as ->.
  eexists. split; [reflexivity|]. intros c. rewrite filter_In, orb_true_iff, String.eqb_eq, prefix_spec. reflexivity.
Qed.
(** C301: refuted for the documented columns: no forecast has a column called time, fcst, fcst_lower or fcst_upper. *)
Theorem C301_documented_refuted : forall M C make_future (forecast : M -> table -> option (list (string * C))) p ns s steps future cols,
  fst (predict make_future forecast p ns s steps false future) = Some cols ->
  forall n, In n ["time"; "fcst"; "fcst_lower"; "fcst_upper"]%string -> ~ In n (map fst cols).
Proof.
  intros M C make_future forecast p ns s steps future cols H n I J. unfold predict in H. destruct (s_model s) as [m|]; [|discriminate].
  destruct (prepare _ _ _ _ _ _) as [f|]; [|discriminate]. cbn [fst] in H. destruct (forecast m _) as [all|]; [|discriminate]. injection H as <-.
  apply in_map_iff in J as (c & <- & J). apply filter_In in J as [_ J].
  cbn in I. destruct I as [I|[I|[I|[I|[]]]]]; rewrite <- I in J; discriminate J.
Qed.

(** ** A case *)
Definition demo_params : params := Params [["name"; "period"; "fourier_order"]%string] [Dict [("name", Text "price"); ("normalize", Other)]%string] [].
Definition demo_data : table := Table ["price"; "y"; "other"]%string [(10, [Some 1%Q; Some 2%Q; Some 3%Q]); (20, [Some 4%Q; Some 5%Q; Some 6%Q])].
Definition demo_future : frame := Frame true (Table ["y"; "price"]%string [(40, [Some 9%Q; Some 8%Q]); (30, [None; Some 7%Q])]).
Definition demo_train (_ : list (list string)) (_ _ : list regressor) (df : table) : option nat := Some (length (t_rows df)).
Definition demo_forecast (_ : nat) (t : table) : option (list (string * list (Z * list (option Q)))) := Some [("ds", []); ("yhat1", t_rows t); ("trend", [])]%string.
Example C301_case :
  construct demo_params demo_data = Some ["price"%string] /\
  (let '(ok, s) := fit demo_train demo_params ["price"%string] demo_data (State (Table [] []) None) in
   ok = true /\ s_df s = Table ["price"; "y"]%string [(10, [Some 1%Q; Some 2%Q]); (20, [Some 4%Q; Some 5%Q])] /\ s_model s = Some 2%nat /\
   predict (library_future 1 Z.succ) demo_forecast demo_params ["price"%string] s 1 false (Some demo_future)
   = (Some [("ds", []); ("yhat1", [(30, [Some 0%Q; Some 7%Q]); (40, [Some 0%Q; Some 8%Q])])]%string,
      Some (Frame true (Table ["y"; "price"]%string [(30, [Some 0%Q; Some 7%Q]); (40, [Some 0%Q; Some 8%Q])])))) /\
  predict (library_future 1 Z.succ) demo_forecast (Params [] [] []) [] (State (Table ["y"%string] [(1, [Some 5%Q])]) (Some 0%nat)) 2 true None
   = (Some [("ds", []); ("yhat1", [(1, [Some 0%Q]); (2, [Some 0%Q]); (3, [Some 0%Q])]); ("trend", [])]%string, None).
Proof. repeat split. Qed.

Print Assumptions C301_params.
Print Assumptions C301_construct.
Print Assumptions C301_lists_refuted.
Print Assumptions C301_training.
Print Assumptions C301_frame.
Print Assumptions C301_refused.
Print Assumptions C301_y_ignored.
Print Assumptions C301_history_refuted.
Print Assumptions C301_steps_refuted.
Print Assumptions C301_caller_refuted.
Print Assumptions C301_columns.
Print Assumptions C301_documented_refuted.

Print Assumptions C301_made.
