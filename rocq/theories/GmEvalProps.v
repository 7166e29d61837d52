(** C319: the evaluation of global models on collections — specification, proofs and theorems. *)
From Coq Require Import List Bool Arith ZArith QArith String Lia.
From Verif Require Import Common GmLossModel GmFcstModel GmFcstProps GmEnsModel GmEvalModel.
Import ListNotations.
Open Scope nat_scope.

(** ** Specification *)
(** a dictionary has every key once *)
Definition dictionary (c : coll) : Prop := match c with Named d => NoDup (map fst d) | _ => True end.
(** the rows of one series *)
Definition of_series (k : key) (l : list row) : list row := filter (fun r => same_key (fst (fst r)) k) l.
(** the networks give every quantile of every step of a window, and an ensemble has a model *)
Definition models (g : evaluated) : list gm := match g with Single m => [m] | Ensemble _ ms => ms end.
Definition fits (fw nq : nat) (g : evaluated) : Prop := models g <> [] /\ forall m t k j, In m (models g) -> List.length (g_net m t k j) = nq * fw.
Definition kind (c : coll) : nat := match c with One _ => 0 | Listed _ => 1 | Named _ => 2 end.

(** ** Proofs *)
Lemma same_key_eq a b : same_key a b = true <-> a = b.
Proof.
  destruct a, b; cbn; split; intros H; try discriminate.
  - apply Nat.eqb_eq in H. congruence.
  - injection H as ->. apply Nat.eqb_refl.
  - apply String.eqb_eq in H. congruence.
  - injection H as ->. apply String.eqb_refl.
Qed.
Lemma kind_eq a b : same_kind a b = true <-> kind a = kind b.
Proof. destruct a, b; cbn; split; intros H; congruence. Qed.
Lemma listed_keys (l : list (list Q)) n : map fst (List.combine (map At (seq n (List.length l))) l) = map At (seq n (List.length l)).
Proof. revert n. induction l as [|x l IH]; intros n; [reflexivity |]. cbn. rewrite IH. reflexivity. Qed.
Lemma keys_distinct c : dictionary c -> NoDup (map fst (items c)).
Proof.
  destruct c as [x|l|d]; cbn [items]; intros D.
  - repeat constructor. intros [].
  - rewrite listed_keys. apply FinFun.Injective_map_NoDup; [intros a b H; congruence | apply seq_NoDup].
  - cbn [dictionary] in D. rewrite map_map. cbn [fst]. rewrite <- (map_map fst Called). apply FinFun.Injective_map_NoDup; [intros a b H; congruence | exact D].
Qed.
Lemma item_in k l v : item k l = Some v -> In (k, v) l.
Proof. induction l as [|[k' x] l IH]; cbn [item]; [discriminate |]. destruct (same_key k' k) eqn:E; intros H; [apply same_key_eq in E; injection H as ->; left; congruence | right; auto]. Qed.
Lemma item_key k l : In k (map fst l) <-> exists v, item k l = Some v.
Proof.
  induction l as [|[k' x] l IH]; cbn [map fst In item]; [split; [intros [] | intros (v & H); discriminate] |]. destruct (same_key k' k) eqn:E.
  - apply same_key_eq in E. split; [intros _; exists x; reflexivity | auto].
  - rewrite <- IH. split; [intros [H|H]; [exfalso; apply same_key_eq in H; congruence | exact H] | auto].
Qed.
Lemma paired_spec ks valid kv : paired ks valid = Some kv -> map fst kv = ks /\ forall k v, In (k, v) kv -> item k valid = Some v.
Proof.
  revert kv. induction ks as [|k ks IH]; intros kv E; cbn [paired] in E.
  - injection E as <-. split; [reflexivity | intros k v []].
  - destruct (item k valid) as [v|] eqn:Ev; [| discriminate]. destruct (paired ks valid) as [r|]; [| discriminate]. injection E as <-. destruct (IH r eq_refl) as (M & I).
    split; [cbn; congruence |]. intros k' v' [H|H]; [injection H as <- <-; exact Ev | auto].
Qed.
Lemma paired_some ks valid : (forall k, In k ks -> In k (map fst valid)) -> exists kv, paired ks valid = Some kv.
Proof.
  induction ks as [|k ks IH]; intros H; [exists []; reflexivity |]. destruct (IH (fun x I => H x (or_intror I))) as (r & E). destruct (proj1 (item_key k valid) (H k (or_introl eq_refl))) as (v & Ev).
  cbn [paired]. rewrite Ev, E. eexists; reflexivity.
Qed.
Lemma max_le l x : In x l -> x <= fold_right Nat.max 0 l.
Proof. induction l as [|y l IH]; intros I; [destruct I |]. cbn. destruct I as [->|I]; [lia | specialize (IH I); lia]. Qed.
Lemma max_zero l : fold_right Nat.max 0 l = 0 <-> forall x, In x l -> x = 0.
Proof.
  split; [intros H x I; pose proof (max_le l x I); lia |]. induction l as [|y l IH]; intros H; [reflexivity |]. cbn. rewrite (H y (or_introl eq_refl)), IH; [reflexivity |]. intros x I. apply H. right. exact I.
Qed.
Lemma step_num_mono a b fw : 1 <= fw -> a <= b -> step_num a fw <= step_num b fw.
Proof. intros H L. pose proof (step_num_bounds a fw H). pose proof (step_num_bounds b fw H). nia. Qed.
Lemma adjust_from_firstn fw nq m prev l : firstn m (adjust_from fw nq prev l) = adjust_from fw nq prev (firstn m l).
Proof. revert m prev. induction l as [|c l IH]; intros [|m] prev; cbn; try reflexivity. rewrite IH. reflexivity. Qed.
Lemma adjust_pi_firstn fw nq m l : firstn m (adjust_pi fw nq l) = adjust_pi fw nq (firstn m l).
Proof. destruct l as [|r l], m as [|m]; cbn; try reflexivity. rewrite adjust_from_firstn. reflexivity. Qed.
Lemma firstn_seq a m n : m <= n -> firstn m (seq a n) = seq a m.
Proof. revert a n. induction m as [|m IH]; intros a [|n] L; cbn; try reflexivity; try lia. rewrite IH by lia. reflexivity. Qed.
Lemma single_firstn fw nq t k m n g : m <= n -> firstn m (single fw nq t k n g) = single fw nq t k m g.
Proof.
  intros L. unfold single. destruct (g_rnn g); [rewrite adjust_pi_firstn |]; rewrite firstn_map, firstn_seq by exact L; reflexivity.
Qed.
Lemma adjust_length fw nq l : List.length (adjust_pi fw nq l) = List.length l.
Proof. assert (F : forall l prev, List.length (adjust_from fw nq prev l) = List.length l) by (clear l; induction l as [|c l IH]; intros prev; cbn; [reflexivity | rewrite IH; reflexivity]). destruct l as [|r l]; cbn; [reflexivity | rewrite F; reflexivity]. Qed.
Lemma single_length fw nq t k n g : List.length (single fw nq t k n g) = n.
Proof. unfold single. destruct (g_rnn g); rewrite ?adjust_length, map_length, seq_length; reflexivity. Qed.
Lemma nth_firstn_lt {A} (l : list A) m j d : j < m -> nth j (firstn m l) d = nth j l d.
Proof. revert m j. induction l as [|x l IH]; intros [|m] [|j] L; cbn; try reflexivity; try lia. apply IH. lia. Qed.
Lemma windows_firstn fw nq t k m n g : m <= n -> firstn m (windows fw nq g t k n) = windows fw nq g t k m.
Proof.
  intros L. destruct g as [g|e ms]; cbn [windows]; [apply single_firstn; exact L |]. unfold combine. destruct ms as [|g ms]; [destruct m; reflexivity |].
  cbn [map hd]. rewrite !single_length, firstn_map, firstn_seq by exact L. apply map_ext_in. intros j J. apply in_seq in J.
  assert (N : forall x, nth j (single fw nq t k n x) [] = nth j (single fw nq t k m x) []) by (intros x; rewrite <- (single_firstn fw nq t k m n x L), nth_firstn_lt by lia; reflexivity).
  rewrite N. apply map_ext. intros c.
  assert (X : forall l, map (fun w => cell (nth j w []) c) (map (single fw nq t k n) l) = map (fun w => cell (nth j w []) c) (map (single fw nq t k m) l)) by (intros l; rewrite !map_map; apply map_ext; intros x; rewrite N; reflexivity).
  rewrite X. reflexivity.
Qed.
Lemma eval_firstn fw fcst v n : step_num (List.length v) fw <= n -> eval_windows fw fcst v = eval_windows fw (firstn n fcst) v.
Proof. intros L. unfold eval_windows. apply map_ext_in. intros j J. apply in_seq in J. rewrite nth_firstn_lt by lia. reflexivity. Qed.
Lemma rows_own fw nq g t steps k v : 1 <= fw -> List.length v <= steps -> GmEvalModel.rows_of fw nq g t steps (k, v) = GmEvalModel.rows_of fw nq g t (List.length v) (k, v).
Proof.
  intros F L. unfold GmEvalModel.rows_of. cbn [fst snd]. rewrite (eval_firstn fw (windows fw nq g t k (step_num steps fw)) v (step_num (List.length v) fw)) by lia.
  rewrite windows_firstn by (apply step_num_mono; assumption). reflexivity.
Qed.
Lemma of_series_app k a b : of_series k (a ++ b) = of_series k a ++ of_series k b.
Proof. unfold of_series. induction a as [|r a IH]; [reflexivity |]. cbn [app filter]. destruct (same_key _ k); cbn [app]; rewrite IH; reflexivity. Qed.
Lemma of_series_rows k fw nq g t steps kv : of_series k (GmEvalModel.rows_of fw nq g t steps kv) = if same_key (fst kv) k then GmEvalModel.rows_of fw nq g t steps kv else [].
Proof.
  unfold GmEvalModel.rows_of. generalize (eval_windows fw (windows fw nq g t (fst kv) (step_num steps fw)) (snd kv)). intros w. generalize (List.combine (seq 0 (List.length w)) w). intros l.
  unfold of_series. induction l as [|p l IH]; [cbn; destruct (same_key (fst kv) k); reflexivity |]. cbn [map filter fst]. rewrite IH. destruct (same_key (fst kv) k); reflexivity.
Qed.
Lemma of_series_all k v fw nq g t steps kv : NoDup (map fst kv) -> In (k, v) kv -> of_series k (flat_map (GmEvalModel.rows_of fw nq g t steps) kv) = GmEvalModel.rows_of fw nq g t steps (k, v).
Proof.
  assert (NONE : forall l, ~ In k (map fst l) -> of_series k (flat_map (GmEvalModel.rows_of fw nq g t steps) l) = []).
  { induction l as [|p l IH]; intros H; [reflexivity |]. cbn [flat_map]. rewrite of_series_app, of_series_rows, IH by (intros X; apply H; right; exact X).
    destruct (same_key (fst p) k) eqn:E; [exfalso; apply H; left; apply same_key_eq; exact E | reflexivity]. }
  induction kv as [|p kv IH]; intros N I; [destruct I |]. cbn [map] in N. inversion N as [|x l NI ND]; subst. cbn [flat_map]. rewrite of_series_app, of_series_rows. destruct I as [->|I].
  - cbn [fst]. rewrite (proj2 (same_key_eq k k) eq_refl), NONE by exact NI. apply app_nil_r.
  - rewrite (IH ND I). destruct (same_key (fst p) k) eqn:E; [| reflexivity]. exfalso. apply same_key_eq in E. apply NI. rewrite E. apply (in_map fst) in I. exact I.
Qed.
Lemma adjust_rows fw nq l : GmFcstProps.rows_of fw nq l -> GmFcstProps.rows_of fw nq (adjust_pi fw nq l).
Proof.
  assert (F : forall l prev r, (forall r, In r l -> List.length r = nq * fw) -> In r (adjust_from fw nq prev l) -> List.length r = nq * fw).
  { clear l. induction l as [|c l IH]; intros prev r H I; [destruct I |]. cbn [adjust_from] in I. destruct I as [<-|I].
    - unfold adjust1. rewrite map_length, seq_length. apply H. left. reflexivity.
    - apply (IH _ r (fun x X => H x (or_intror X)) I). }
  intros H r I. destruct l as [|x l]; [destruct I |]. destruct I as [<-|I]; [apply H; left; reflexivity |]. apply (F l x r (fun y Y => H y (or_intror Y)) I).
Qed.
Lemma single_rows fw nq t k n m : (forall j, List.length (g_net m t k j) = nq * fw) -> GmFcstProps.rows_of fw nq (single fw nq t k n m).
Proof.
  intros H. assert (R : GmFcstProps.rows_of fw nq (map (g_net m t k) (seq 0 n))) by (intros r I; apply in_map_iff in I; destruct I as (j & <- & _); apply H).
  unfold single. destruct (g_rnn m); [apply adjust_rows |]; exact R.
Qed.
Lemma fits_windows fw nq g t k n : fits fw nq g -> GmFcstProps.rows_of fw nq (windows fw nq g t k n) /\ List.length (windows fw nq g t k n) = n.
Proof.
  intros (NE & H). destruct g as [m|e ms]; cbn [windows models] in *.
  - split; [apply single_rows; intros j; apply H; left; reflexivity | apply single_length].
  - destruct ms as [|m ms]; [congruence |]. unfold combine. cbn [map hd]. rewrite single_length. split; [| rewrite map_length, seq_length; reflexivity].
    intros r I. apply in_map_iff in I. destruct I as (j & <- & J). rewrite map_length, seq_length. apply in_seq in J.
    apply (single_rows fw nq t k n m); [intros i; apply H; left; reflexivity |]. apply nth_In. rewrite single_length. lia.
Qed.
(** what an evaluation that does not raise does *)
Lemma evaluate_some fw nq g train valid rows : evaluate fw nq g train valid = Some rows ->
  exists kv, paired (map fst (items train)) (items valid) = Some kv /\ rows = flat_map (GmEvalModel.rows_of fw nq g (items train) (fold_right Nat.max 0 (map (fun p => List.length (snd p)) kv))) kv.
Proof.
  unfold evaluate. destruct (negb (same_kind train valid)); [discriminate |]. destruct (negb _); [discriminate |]. destruct (List.length (items train) =? 0); [discriminate |].
  destruct (paired _ _) as [kv|]; [| discriminate]. destruct g; [| destruct (_ =? 0); [discriminate |]]; intros H; injection H as <-; exists kv; split; reflexivity.
Qed.
Lemma rows_for fw nq g train valid rows k x v : 1 <= fw -> dictionary train -> evaluate fw nq g train valid = Some rows -> item k (items train) = Some x -> item k (items valid) = Some v ->
  of_series k rows = GmEvalModel.rows_of fw nq g (items train) (List.length v) (k, v).
Proof.
  intros F D E X V. destruct (evaluate_some _ _ _ _ _ _ E) as (kv & P & ->). destruct (paired_spec _ _ _ P) as (M & I).
  assert (K : In (k, v) kv).
  { assert (Ik : In k (map fst kv)) by (rewrite M; apply item_key; exists x; exact X). apply in_map_iff in Ik. destruct Ik as ([k' v'] & Ek & Ik). cbn in Ek. subst k'. pose proof (I k v' Ik). congruence. }
  rewrite (of_series_all k v); [| rewrite M; apply keys_distinct; exact D | exact K]. apply rows_own; [exact F |]. apply max_le. apply in_map_iff. exists (k, v). split; [reflexivity | exact K].
Qed.

(** ** Theorems *)
(** C319.  An evaluation is refused exactly if the two collections are of different kinds or sizes, empty, or have different keys, or if an
    ensemble has no value at all to be compared with. *)
Theorem C319_accepted : forall fw nq g train valid,
  (exists rows, evaluate fw nq g train valid = Some rows) <->
  kind train = kind valid /\ List.length (items train) = List.length (items valid) /\ items train <> [] /\
  (forall k, In k (map fst (items train)) -> In k (map fst (items valid))) /\
  match g with Single _ => True | Ensemble _ _ => exists k v, In k (map fst (items train)) /\ item k (items valid) = Some v /\ v <> [] end.
Proof.
  intros fw nq g train valid. split.
  - intros (rows & E). unfold evaluate in E. destruct (same_kind train valid) eqn:K; [| discriminate]. cbn [negb] in E. destruct (List.length (items train) =? List.length (items valid)) eqn:L; [| discriminate]. cbn [negb] in E.
    destruct (List.length (items train) =? 0) eqn:Z; [discriminate |]. destruct (paired (map fst (items train)) (items valid)) as [kv|] eqn:P; [| discriminate]. destruct (paired_spec _ _ _ P) as (M & I).
    split; [apply kind_eq; exact K |]. split; [apply Nat.eqb_eq; exact L |]. split; [intros X; rewrite X in Z; discriminate |]. split.
    + intros k H. rewrite <- M in H. apply in_map_iff in H. destruct H as ([k' v] & <- & H). apply item_key. exists v. apply I. exact H.
    + destruct g; [exact Logic.I |]. destruct (fold_right Nat.max 0 (map (fun p : key * list Q => List.length (snd p)) kv) =? 0) eqn:S; [discriminate |]. apply Nat.eqb_neq in S.
      assert (X : exists p, In p kv /\ List.length (snd p) <> 0).
      { clear - S. induction kv as [|p kv IH]; [destruct (S eq_refl) |]. destruct (Nat.eq_dec (List.length (snd p)) 0) as [Z|Z]; [| exists p; split; [left; reflexivity | exact Z]].
        destruct IH as (q & Q & N); [cbn in S; rewrite Z in S; exact S | exists q; split; [right; exact Q | exact N]]. }
      destruct X as ([k v] & Kv & N). exists k, v. split; [rewrite <- M; apply (in_map fst) in Kv; exact Kv |]. split; [apply I; exact Kv |]. intros ->. apply N. reflexivity.
  - intros (K & L & NE & S & G). unfold evaluate. rewrite (proj2 (kind_eq _ _) K), (proj2 (Nat.eqb_eq _ _) L). cbn [negb]. destruct (List.length (items train) =? 0) eqn:Z; [destruct (items train); [congruence | discriminate] |].
    destruct (paired_some _ _ S) as (kv & P). rewrite P. destruct g; [eexists; reflexivity |]. destruct (fold_right Nat.max 0 (map (fun p : key * list Q => List.length (snd p)) kv) =? 0) eqn:X; [exfalso | eexists; reflexivity]. apply Nat.eqb_eq in X. rewrite max_zero in X.
    destruct G as (k & v & Hk & Hv & N). destruct (paired_spec _ _ _ P) as (M & I). rewrite <- M in Hk. apply in_map_iff in Hk. destruct Hk as ([k' v'] & Ek & Hk). cbn in Ek. subst k'. pose proof (I k v' Hk) as J. assert (v' = v) as -> by congruence.
    apply N. destruct v as [|q v]; [reflexivity |]. specialize (X (List.length (q :: v))). cbn in X. discriminate X. apply in_map_iff. exists (k, q :: v). split; [reflexivity | exact Hk].
Qed.
(** Every value of every series is compared exactly once, with the forecast for its own step; the rest of the last window is missing. *)
Theorem C319_rows : forall fw nq g train valid rows k x v, 1 <= fw -> 1 <= nq -> fits fw nq g -> dictionary train -> evaluate fw nq g train valid = Some rows ->
  item k (items train) = Some x -> item k (items valid) = Some v ->
  map (fun r => snd (fst r)) (of_series k rows) = seq 0 (step_num (List.length v) fw) /\
  (forall t, t < List.length v -> exists med rest act, In (k, t / fw, (med, rest, act)) rows /\
     nth_error act (t mod fw) = Some (Some (nth t v 0%Q)) /\ cell med (t mod fw) = cell (nth (t / fw) (windows fw nq g (items train) k (step_num (List.length v) fw)) []) (t mod fw)) /\
  (forall j h med rest act y, In (k, j, (med, rest, act)) rows -> nth_error act h = Some (Some y) -> h < fw /\ j * fw + h < List.length v /\ y = nth (j * fw + h) v 0%Q).
Proof.
  intros fw nq g train valid rows k x v F Hq FI D E X V.
  assert (W : forall n, GmFcstProps.rows_of fw nq (windows fw nq g (items train) k n)) by (intros n; apply fits_windows; exact FI).
  assert (WL : forall n, List.length (windows fw nq g (items train) k n) = n) by (intros n; apply fits_windows; exact FI). pose proof (rows_for _ _ _ _ _ _ _ _ _ F D E X V) as R.
  set (fc := windows fw nq g (items train) k (step_num (List.length v) fw)) in *.
  destruct (C218_windows fw nq fc v F (W _) Hq) as (L & A & B); [unfold fc; rewrite WL; lia |]. unfold GmEvalModel.rows_of in R. cbn [fst snd] in R. fold fc in R. set (w := eval_windows fw fc v) in *.
  assert (INR : forall j y, nth_error w j = Some y <-> In (k, j, y) rows).
  { intros j y. assert (I1 : In (k, j, y) rows <-> In (k, j, y) (of_series k rows)).
    { unfold of_series. rewrite filter_In. cbn [fst]. rewrite (proj2 (same_key_eq k k) eq_refl). tauto. }
    rewrite I1, R, in_map_iff. split.
    - intros N. exists (j, y). split; [reflexivity |]. apply (nth_error_In _ j). assert (j < List.length w) as J by (apply nth_error_Some; congruence).
      clear - N J. assert (G : forall (l : list (list Q * list Q * list (option Q))) a i, nth_error l i = Some y -> nth_error (List.combine (seq a (List.length l)) l) i = Some (a + i, y)).
      { induction l as [|z l IH]; intros a [|i] H; cbn in *; try discriminate; [injection H as ->; rewrite Nat.add_0_r; reflexivity | rewrite (IH (S a) i H); f_equal; f_equal; lia]. }
      rewrite (G w 0 j N). reflexivity.
    - intros ([j' y'] & H & I). cbn in H. injection H as -> ->. clear - I.
      assert (G : forall (l : list (list Q * list Q * list (option Q))) a i, In (i, y) (List.combine (seq a (List.length l)) l) -> exists d, i = a + d /\ nth_error l d = Some y).
      { induction l as [|z l IH]; intros a i H; cbn in H; [destruct H |]. destruct H as [H|H]; [injection H as <- <-; exists 0; split; [lia | reflexivity] |]. destruct (IH (S a) i H) as (d & -> & N). exists (S d). split; [lia | exact N]. }
      destruct (G w 0 j I) as (d & -> & N). exact N. }
  split; [| split].
  - rewrite R, map_map. cbn [fst snd]. rewrite <- L.
    assert (G : forall (l : list (list Q * list Q * list (option Q))) a, map (fun p : nat * (list Q * list Q * list (option Q)) => fst p) (List.combine (seq a (List.length l)) l) = seq a (List.length l)).
    { induction l as [|z l IH]; intros a; [reflexivity |]. cbn. rewrite IH. reflexivity. }
    apply (G w 0).
  - intros t T. destruct (A t T) as (med & rest & act & N & A1 & A2). exists med, rest, act. split; [apply INR; exact N |]. split; assumption.
  - intros j h med rest act y I N. apply INR in I. exact (B j h med rest act y I N).
Qed.
(** The rows of a series do not depend on what the other series are compared with, although the longest of them decides how far all are forecast. *)
Theorem C319_own : forall fw nq g train valid valid' rows rows' k, 1 <= fw -> dictionary train ->
  evaluate fw nq g train valid = Some rows -> evaluate fw nq g train valid' = Some rows' ->
  In k (map fst (items train)) -> item k (items valid) = item k (items valid') -> of_series k rows = of_series k rows'.
Proof.
  intros fw nq g train valid valid' rows rows' k F D E E' K S. apply item_key in K. destruct K as (x & X).
  assert (V : exists v, item k (items valid) = Some v).
  { apply item_key. destruct (proj1 (C319_accepted fw nq g train valid) (ex_intro _ rows E)) as (_ & _ & _ & H & _). apply H. apply item_key. exists x. exact X. }
  destruct V as (v & V). rewrite (rows_for _ _ _ _ _ _ _ _ _ F D E X V). symmetry. apply (rows_for fw nq g train valid' rows' k x v); [assumption .. | congruence].
Qed.
(** a series without values to compare with has no row, and nothing says so *)
Theorem C319_silent_refuted : forall fw nq g train valid rows k x, 1 <= fw -> dictionary train -> evaluate fw nq g train valid = Some rows ->
  item k (items train) = Some x -> item k (items valid) = Some [] -> of_series k rows = [].
Proof.
  intros fw nq g train valid rows k x F D E X V. rewrite (rows_for _ _ _ _ _ _ _ _ _ F D E X V). unfold GmEvalModel.rows_of. cbn [fst snd List.length].
  assert (Z : step_num 0 fw = 0) by (pose proof (step_num_bounds 0 fw F); nia). unfold eval_windows. cbn [List.length]. rewrite Z. reflexivity.
Qed.
(** The series under a key are those of the collection: a single series is the series 0, those of a list are counted from 0, those of a dictionary
    keep their keys. *)
Theorem C319_series : forall c k x, dictionary c ->
  item k (items c) = Some x <->
  match c, k with
  | One y, At i => i = 0 /\ x = y
  | Listed l, At i => nth_error l i = Some x
  | Named d, Called s => In (s, x) d
  | _, _ => False
  end.
Proof.
  intros c k x D. destruct c as [y|l|d]; cbn [items].
  - cbn [item]. destruct k as [i|s]; cbn [same_key]; [| split; [discriminate | intros []]]. destruct i as [|i]; cbn; split; [intros H; injection H as ->; auto | intros (_ & ->); reflexivity | discriminate | intros (H & _); discriminate].
  - assert (G : forall (l : list (list Q)) a, item k (List.combine (map At (seq a (List.length l))) l) = match k with At i => if i <? a then None else nth_error l (i - a) | Called _ => None end).
    { clear. induction l as [|z l IH]; intros a; cbn [List.length seq map List.combine item].
      - destruct k as [i|s]; [| reflexivity]. destruct (i <? a); [reflexivity |]. destruct (i - a); reflexivity.
      - rewrite IH. destruct k as [i|s]; cbn [same_key]; [| reflexivity]. destruct (Nat.eqb_spec a i) as [->|N].
        + rewrite Nat.ltb_irrefl, Nat.sub_diag. reflexivity.
        + destruct (Nat.ltb_spec i a) as [L|L]; [rewrite (proj2 (Nat.ltb_lt i (S a))) by lia; reflexivity |]. rewrite (proj2 (Nat.ltb_ge i (S a))) by lia. replace (i - a) with (S (i - S a)) by lia. reflexivity. }
    rewrite G. destruct k as [i|s]; [| split; [discriminate | intros []]]. cbn [Nat.ltb Nat.leb]. rewrite Nat.sub_0_r. reflexivity.
  - cbn [dictionary] in D. destruct k as [i|s].
    + split; [| intros []]. intros H. apply item_in in H. apply in_map_iff in H. destruct H as (p & H & _). discriminate.
    + induction d as [|[t y] d IH]; cbn [map item fst snd In]; [split; [discriminate | intros []] |]. cbn [map fst] in D. inversion D as [|z l NI ND]; subst. cbn [same_key]. destruct (String.eqb_spec t s) as [->|N].
      * split; [intros H; injection H as ->; left; reflexivity |]. intros [H|H]; [injection H as ->; reflexivity |]. exfalso. apply NI. apply (in_map fst) in H. exact H.
      * rewrite (IH ND). split; [auto |]. intros [H|H]; [exfalso; apply N; congruence | exact H].
Qed.
(** two series, windows of two, a network that adds the number of the window *)
Definition demo_gm : gm := {| g_rnn := false; g_net := fun _ k j => map (fun c => inject_Z (Z.of_nat (10 * j + c))) (seq 0 2) |}.
Example C319_case :
  evaluate 2 1 (Single demo_gm) (Named [("a", [1; 2]); ("b", [3])])%string%Q (Named [("b", [7]); ("a", [4; 5; 6])])%string%Q
    = Some [(Called "a", 0%nat, ([0; 1], [], [Some 4; Some 5])); (Called "a", 1%nat, ([10; 11], [], [Some 6; None])); (Called "b", 0%nat, ([0; 1], [], [Some 7; None]))]%string%Q /\
  fits 2 1 (Single demo_gm).
Proof. split; [vm_compute; reflexivity |]. split; [discriminate |]. intros m t k j [<-|[]]. reflexivity. Qed.
(** an ensemble of two, one of them of the type rnn *)
Example C319_ensemble_case :
  let g := Ensemble Mean [demo_gm; {| g_rnn := true; g_net := fun _ k j => map (fun c => inject_Z (Z.of_nat (10 * j + c + 2))) (seq 0 2) |}] in
  fits 2 1 g /\ (exists rows, evaluate 2 1 g (Listed [[1]; [2]]%Q) (Listed [[4; 5; 6]; []]%Q) = Some rows /\ List.length rows = 2 /\ of_series (At 1) rows = []).
Proof. split; [split; [discriminate |]; intros m t k j [<-|[<-|[]]]; reflexivity |]. eexists. split; [vm_compute; reflexivity |]. split; reflexivity. Qed.

Print Assumptions C319_accepted.
Print Assumptions C319_rows.
Print Assumptions C319_own.
Print Assumptions C319_silent_refuted.

Print Assumptions C319_series.
