(** Properties of the default search spaces (C313). *)
From Coq Require Import String.
From Coq Require Import List ZArith QArith Qround Qreals Reals Bool Lia Lra Sorted.
From Verif Require Import SearchSpaceModel.
Import ListNotations.
Open Scope string_scope.

(** ** Specification *)
(** one point of a search space: one of its values for each parameter *)
Definition choice (ps : list param) (a : list (string * value)) : Prop :=
  Forall2 (fun p nv => fst nv = pname p /\ In (snd nv) (values p)) ps a.
Definition real_in (ok : R -> Prop) (v : value) : Prop := exists r, v = VReal r /\ ok r.
Definition int_in (lo hi : Z) (v : value) : Prop := exists z, v = VInt z /\ (lo <= z <= hi)%Z.
Definition text_in (l : list string) (v : value) : Prop := exists s, v = VStr s /\ In s l.
(** the values that make sense for a parameter of a model *)
Definition sensible (f : family) (n : string) (v : value) : Prop :=
  match f, n with
  | Prophet, "seasonality_prior_scale" => real_in (fun r => (1 / 100 <= r <= 10)%R) v
  | Prophet, "changepoint_prior_scale" => real_in (fun r => (1 / 1000 <= r <= 1)%R) v
  | Prophet, "changepoint_range" => real_in (fun r => (8 / 10 <= r <= 95 / 100)%R) v
  | Prophet, "seasonality_mode" => text_in ["additive"; "multiplicative"] v
  | Prophet, _ => exists b, v = VBool b
  | Stlf, "method" => text_in ["linear"; "quadratic"; "theta"; "prophet"; "simple"] v
  | Stlf, _ => int_in 2 30 v
  | Arima, "d" => int_in 0 2 v
  | Arima, _ => int_in 0 5 v
  | HoltWinters, "seasonal_periods" => int_in 2 30 v
  | HoltWinters, "damped" => exists b, v = VBool b
  | HoltWinters, _ => text_in ["additive"; "multiplicative"] v
  | Sarima, "d" => int_in 0 2 v
  | Sarima, "trend" => text_in ["n"; "c"; "t"; "ct"] v
  | Sarima, "seasonal_order" => exists P D Q s, v = VTup [P; D; Q; s] /\ (0 <= P /\ 0 <= D /\ 0 <= Q /\ 2 <= s)%Z
  | Sarima, _ => int_in 0 5 v
  | Theta, _ => int_in 1 30 v
  | LightGbm, "n_estimators" => int_in 1 750 v
  | LightGbm, "max_depth" => int_in 1 19 v
  | LightGbm, "num_leaves" => int_in 2 2047 v
  | LightGbm, "learning_rate" => real_in (fun r => (0 < r <= 1)%R) v
  | LightGbm, _ => real_in (fun r => (0 <= r < 1 / 10)%R) v
  | Lstm, "num_epochs" => int_in 1 1999 v
  | Lstm, _ => int_in 1 499 v
  | Linear, _ | Quadratic, _ => real_in (fun r => (0 < r < 1)%R) v
  | _, _ => int_in 1 19 v
  end.
(** the type a parameter is declared with *)
Definition has_type (t : string) (v : value) : Prop :=
  match v with
  | VInt _ => t = "int" | VBool _ => t = "bool" | VStr _ => t = "str" | VReal _ => t = "float" | VTup _ => False
  end.
Definition below (v w : value) : Prop :=
  match v, w with VInt a, VInt b => (a < b)%Z | VReal a, VReal b => (a < b)%R | _, _ => False end.

(** ** Lemmas *)
Lemma irange_in a b s v : (0 < s)%Z -> In v (irange a b s) -> exists z, v = VInt z /\ (a <= z < b)%Z.
Proof.
  intros S I. apply in_map_iff in I as (k & <- & K). apply in_seq in K. exists (a + Z.of_nat k * s)%Z.
  split; [reflexivity|]. split; [nia|].
  assert (L : (Z.of_nat k + 1 <= - ((a - b) / s))%Z) by lia.
  pose proof (Z.mul_succ_div_gt (a - b) s S) as G. set (d := ((a - b) / s)%Z) in *. clearbody d. nia.
Qed.
Lemma arange_in a b s v : (0 < s)%Q -> In v (arange a b s) -> exists r, v = VReal r /\ (Q2R a <= r < Q2R b)%R.
Proof.
  intros S I. apply in_map_iff in I as (k & <- & K). apply in_seq in K. eexists. split; [reflexivity|].
  assert (NN : (0 <= inject_Z (Z.of_nat k))%Q) by (change 0%Q with (inject_Z 0); rewrite <- Zle_Qle; lia).
  split.
  - apply Qle_Rle. rewrite <- (Qplus_0_r a) at 1. apply Qplus_le_r. apply Qmult_le_0_compat; [exact NN | apply Qlt_le_weak; exact S].
  - apply Qlt_Rlt. assert (L : (inject_Z (Z.of_nat k) < (b - a) / s)%Q).
    { pose proof (Qceiling_lt ((b - a) / s)) as C. apply Qle_lt_trans with (inject_Z (Qceiling ((b - a) / s) - 1)); [|exact C].
      rewrite <- Zle_Qle. lia. }
    apply (Qmult_lt_r _ _ s S) in L. setoid_replace ((b - a) / s * s)%Q with (b - a)%Q in L by (field; intro E; rewrite E in S; discriminate S).
    apply (Qplus_lt_r _ _ a) in L. setoid_replace (a + (b - a))%Q with b in L by ring. exact L.
Qed.
Lemma logspace_in a b n v : (a <= b)%R -> (2 <= n)%nat -> In v (logspace a b n) -> exists e, v = VReal (Rpower 10 e) /\ (a <= e <= b)%R.
Proof.
  intros AB N I. apply in_map_iff in I as (k & <- & K). apply in_seq in K. eexists. split; [reflexivity|].
  assert (NP : (0 < INR (n - 1))%R) by (apply lt_0_INR; lia).
  assert (KN : (INR k <= INR (n - 1))%R) by (apply le_INR; lia). pose proof (pos_INR k) as K0.
  assert (D : (0 <= (b - a) / INR (n - 1))%R) by (unfold Rdiv; apply Rmult_le_pos; [lra | left; apply Rinv_0_lt_compat; exact NP]).
  split; [nra|]. assert (E : (INR (n - 1) * ((b - a) / INR (n - 1)) = b - a)%R) by (field; lra). nra.
Qed.
Lemma power_le a b : (a <= b)%R -> (Rpower 10 a <= Rpower 10 b)%R.
Proof. intro H. apply Rle_Rpower; lra. Qed.
Lemma power_Z z : Rpower 10 (IZR z) = powerRZ 10 z.
Proof. symmetry. apply powerRZ_Rpower. lra. Qed.
Lemma sorted_map (g : nat -> value) : (forall i j, (i < j)%nat -> below (g i) (g j)) -> forall n k, StronglySorted below (map g (seq k n)).
Proof.
  intros H n. induction n as [|n IH]; intro k; [constructor|]. cbn [seq map]. constructor; [apply IH|].
  apply Forall_forall. intros v I. apply in_map_iff in I as (j & <- & J). apply in_seq in J. apply H. lia.
Qed.
Lemma irange_sorted a b s : (0 < s)%Z -> StronglySorted below (irange a b s).
Proof. intro S. apply sorted_map. intros i j L. cbn. nia. Qed.
Lemma arange_sorted a b s : (0 < s)%Q -> StronglySorted below (arange a b s).
Proof.
  intro S. apply sorted_map. intros i j L. cbn [below]. apply Qlt_Rlt. apply Qplus_lt_r. apply (Qmult_lt_r _ _ s S). rewrite <- Zlt_Qlt. lia.
Qed.
Lemma logspace_sorted a b n : (a < b)%R -> (2 <= n)%nat -> StronglySorted below (logspace a b n).
Proof.
  intros AB N. apply sorted_map. intros i j L. cbn [below]. apply Rpower_lt; [lra|].
  assert (NP : (0 < INR (n - 1))%R) by (apply lt_0_INR; lia). apply lt_INR in L.
  assert (D : (0 < (b - a) / INR (n - 1))%R) by (apply Rdiv_lt_0_compat; lra). nra.
Qed.
Lemma choice_names ps a : choice ps a -> map fst a = map pname ps.
Proof. induction 1 as [|p [n v] ps a [E _] _ IH]; [reflexivity|]. cbn in *. congruence. Qed.
Lemma choice_lookup ps a : choice ps a -> forall n,
  match lookup n a with
  | Some v => exists p, In p ps /\ pname p = n /\ In v (values p)
  | None => ~ In n (map pname ps)
  end.
Proof.
  induction 1 as [|p [k v] ps a [E I] _ IH]; intro n; [intros []|]. cbn [lookup]. cbn [fst snd] in *. destruct (String.eqb_spec k n) as [->|N].
  - exists p. repeat split; [left; reflexivity | congruence | exact I].
  - specialize (IH n). destruct (lookup n a) as [w|].
    + destruct IH as (q & Q1 & Q2). exists q. split; [right; exact Q1 | exact Q2].
    + cbn [map In]. intros [X|X]; [congruence | contradiction].
Qed.
Lemma absent_or_choice ps a l n : choice ps a ->
  (forall p v, In p ps -> pname p = n -> In v (values p) -> text_in l v) -> absent_or l n a = true.
Proof.
  intros C H. unfold absent_or. pose proof (choice_lookup ps a C n) as L. destruct (lookup n a) as [v|]; [|reflexivity].
  destruct L as (p & P & N & I). destruct (H p v P N I) as (s & -> & J). apply existsb_exists. exists s. split; [exact J | apply String.eqb_refl].
Qed.
Lemma lookup_absent ps a n : choice ps a -> ~ In n (map pname ps) -> lookup n a = None.
Proof.
  intros C N. pose proof (choice_lookup ps a C n) as L. destruct (lookup n a) as [v|]; [|reflexivity].
  destruct L as (p & P & E & _). exfalso. apply N. apply in_map_iff. exists p. auto.
Qed.
Ltac absent := let X := fresh in intro X; cbn in X; repeat (destruct X as [X|X]; [discriminate X|]); exact X.
Ltac texts_in :=
  let p := fresh "p" in let v := fresh "v" in let P := fresh "P" in let N := fresh "N" in let I := fresh "I" in
  intros p v P N I; cbn [In] in P;
  repeat (destruct P as [<-|P]; [try discriminate N; cbn in I; repeat (destruct I as [<-|I]; [eexists; split; [reflexivity | cbn; tauto]|]); destruct I|]); destruct P.

(** ** C313 *)
(** Every point of the search space of a model is accepted by its parameter class. *)
Theorem C313_accepted : forall f ps c a,
  search_space f = Some ps -> param_class f = Some c -> choice ps a -> accepts f c a = true.
Proof.
  intros f ps c a S P C. unfold accepts. rewrite (choice_names ps a C).
  assert (V : validates f a = true).
  { destruct f; try reflexivity; injection S as <-; cbn [validates].
    - rewrite (lookup_absent _ a "growth" C), (lookup_absent _ a "custom_seasonalities" C), (lookup_absent _ a "extra_regressors" C) by absent. reflexivity.
    - rewrite (absent_or_choice _ a _ "method" C) by texts_in. rewrite (absent_or_choice _ a _ "decomposition" C) by texts_in. reflexivity.
    - rewrite (absent_or_choice _ a _ "trend" C) by texts_in. rewrite (absent_or_choice _ a _ "seasonal" C) by texts_in. reflexivity.
    - unfold absent_or. rewrite (lookup_absent _ a "boosting_type" C), (lookup_absent _ a "calendar_features" C),
        (lookup_absent _ a "cov_history_input_windows" C), (lookup_absent _ a "cov_future_input_windows" C) by absent. reflexivity. }
  rewrite V. destruct f; try discriminate S; try discriminate P; injection S as <-; injection P as <-; reflexivity.
Qed.

(** Every value is sensible, except for the learning rates. *)
Lemma int_of a b s lo hi v : In v (irange a b s) -> (0 < s)%Z -> (lo <= a)%Z -> (b <= hi + 1)%Z -> int_in lo hi v.
Proof. intros I S A B. destruct (irange_in a b s v S I) as (z & -> & L). exists z. split; [reflexivity | lia]. Qed.
Theorem C313_sensible_partial : forall f ps p v,
  search_space f = Some ps -> In p ps -> In v (values p) -> ~ (f = LightGbm /\ pname p = "learning_rate") ->
  sensible f (pname p) v.
Proof.
  intros f ps p v S P I NL.
  destruct f; try discriminate S; injection S as <-; cbn [In] in P;
    repeat (destruct P as [<-|P]); try contradiction; cbn [values bools ints texts floats pname sensible] in *;
    try (eapply int_of; [exact I | lia | cbn; lia | cbn; lia]);
    try (cbn [map In] in I; repeat (destruct I as [<-|I]; [first
      [ eexists; reflexivity | eexists; split; [reflexivity | cbn; tauto]
      | eexists; split; [reflexivity | lia] | exists 1%Z, 0%Z; eexists; eexists; split; [reflexivity | lia]
      | do 4 eexists; split; [reflexivity | lia]
      | eexists; split; [reflexivity | unfold Q2R; cbn; lra] ] |]); contradiction).
  - destruct (logspace_in (-2) 1 10 v ltac:(lra) ltac:(lia) I) as (e & -> & L). eexists. split; [reflexivity|].
    pose proof (power_le (-2) e (proj1 L)) as A. pose proof (power_le e 1 (proj2 L)) as B.
    rewrite Rpower_1 in B by lra. rewrite (power_Z (-2)) in A. replace (powerRZ 10 (-2)) with (1 / 100)%R in A by (cbn [powerRZ]; change (Pos.to_nat 2) with 2%nat; change (Pos.to_nat 3) with 3%nat; field). lra.
  - destruct (logspace_in (-3) 0 10 v ltac:(lra) ltac:(lia) I) as (e & -> & L). eexists. split; [reflexivity|].
    pose proof (power_le (-3) e (proj1 L)) as A. pose proof (power_le e 0 (proj2 L)) as B.
    rewrite Rpower_O in B by lra. rewrite (power_Z (-3)) in A. replace (powerRZ 10 (-3)) with (1 / 1000)%R in A by (cbn [powerRZ]; change (Pos.to_nat 2) with 2%nat; change (Pos.to_nat 3) with 3%nat; field). lra.
Qed.

(** The learning rates of the search space of the autoregressive forecaster are the powers of ten between 10^0.001 and 10^0.8,
    not the numbers between 0.001 and 0.8: every one is above one. *)
Theorem C313_learning_rate_refuted : forall ps p v,
  search_space LightGbm = Some ps -> In p ps -> pname p = "learning_rate" -> In v (values p) ->
  exists r, v = VReal r /\ (1 < r)%R.
Proof.
  intros ps p v S P N I. injection S as <-. cbn [In] in P. repeat (destruct P as [<-|P]); try discriminate N; try contradiction.
  destruct (logspace_in (1 / 1000) (8 / 10) 50 v ltac:(lra) ltac:(lia) I) as (e & -> & L). eexists. split; [reflexivity|].
  rewrite <- (Rpower_O 10) by lra. apply Rpower_lt; lra.
Qed.

(** The values of a parameter that is called ordered are in increasing order; the names of a space are distinct. *)
Theorem C313_ordered : forall f ps p, search_space f = Some ps -> In p ps -> is_ordered p = true -> StronglySorted below (values p).
Proof.
  intros f ps p S P O. destruct f; try discriminate S; injection S as <-; cbn [In] in P;
    repeat (destruct P as [<-|P]); try contradiction; try discriminate O; cbn [values ints floats];
    first [ apply irange_sorted; lia | apply arange_sorted; reflexivity | apply logspace_sorted; [lra | lia]
          | repeat (constructor; [|repeat (constructor; [cbn; first [lia | unfold Q2R; cbn; lra]|]); constructor]); constructor ].
Qed.
Theorem C313_distinct : forall f ps, search_space f = Some ps -> NoDup (map pname ps).
Proof.
  intros f ps S. destruct f; try discriminate S; injection S as <-; cbn [map pname bools ints texts floats];
    repeat (constructor; [cbn; intuition discriminate|]); constructor.
Qed.

(** Values have the declared type, except for the seasonal orders: tuples declared as texts. *)
Theorem C313_types_partial : forall f ps p v, search_space f = Some ps -> In p ps -> In v (values p) -> pname p <> "seasonal_order" ->
  has_type (vtype p) v.
Proof.
  intros f ps p v S P I N. destruct f; try discriminate S; injection S as <-; cbn [In] in P;
    repeat (destruct P as [<-|P]); try contradiction; cbn [values bools ints texts floats vtype pname] in *; try congruence;
    try (apply in_map_iff in I as (? & <- & _); reflexivity);
    repeat (destruct I as [<-|I]; [reflexivity|]); contradiction.
Qed.
Theorem C313_types_refuted : exists ps p, search_space Sarima = Some ps /\ In p ps /\ vtype p = "str" /\ values p <> []
  /\ Forall (fun v => ~ has_type "str" v) (values p).
Proof.
  eexists. eexists. split; [reflexivity|]. split; [right; right; right; left; reflexivity|]. split; [reflexivity|]. split; [discriminate|].
  repeat (constructor; [intro H; exact H|]). constructor.
Qed.

(** No point of the search space of SARIMA has a lag in both its seasonal and its other part. *)
Theorem C313_lags : forall ps a, search_space Sarima = Some ps -> choice ps a ->
  exists p q P D Q s, lookup "p" a = Some (VInt p) /\ lookup "q" a = Some (VInt q) /\ lookup "seasonal_order" a = Some (VTup [P; D; Q; s])
  /\ forall lag k, (1 <= lag <= Z.max p q)%Z -> (1 <= k)%Z -> lag <> (k * s)%Z.
Proof.
  intros ps a S C. injection S as <-. unfold choice in C.
  inversion C as [|? [n1 v1] ? ? [E1 I1] C1]; subst. inversion C1 as [|? [n2 v2] ? ? [E2 I2] C2]; subst. inversion C2 as [|? [n3 v3] ? ? [E3 I3] C3]; subst.
  inversion C3 as [|? [n4 v4] ? ? [E4 I4] C4]; subst. clear C C1 C2 C3 C4. cbn [fst snd pname ints values] in *. subst.
  destruct (irange_in 1 6 1 _ ltac:(lia) I1) as (p & -> & Lp). destruct (irange_in 1 6 1 _ ltac:(lia) I3) as (q & -> & Lq).
  assert (K : exists P D Q, v4 = VTup [P; D; Q; 7%Z]) by (cbn in I4; repeat (destruct I4 as [<-|I4]; [do 3 eexists; reflexivity|]); contradiction).
  destruct K as (P & D & Q & ->). exists p, q, P, D, Q, 7%Z. cbn. repeat split; try reflexivity. intros lag k L K. nia.
Qed.

(** There is no search space for VAR, and no class for the search space of ARNet. *)
Theorem C313_missing_refuted : (search_space Var = None /\ param_class Var <> None) /\ (search_space Arnet <> None /\ param_class Arnet = None).
Proof. repeat split; discriminate. Qed.

(** A call that is accepted gives every required keyword, none twice, and none that is unknown unless the class swallows them;
    conversely such a call is accepted when the values pass the checks of the constructor. *)
Lemma mem_in s l : mem s l = true <-> In s l.
Proof.
  unfold mem. rewrite existsb_exists. split.
  - intros (x & I & E). apply String.eqb_eq in E. subst. exact I.
  - intro I. exists s. split; [exact I | apply String.eqb_refl].
Qed.
Lemma distinct_nodup l : distinct l = true <-> NoDup l.
Proof.
  induction l as [|s l IH]; cbn [distinct]; [split; [constructor | reflexivity]|].
  rewrite andb_true_iff, negb_true_iff. split.
  - intros [M D]. constructor; [|apply IH; exact D]. intro I. apply mem_in in I. congruence.
  - intro N. inversion N as [|? ? A B]; subst. split; [|apply IH; exact B]. destruct (mem s l) eqn:E; [|reflexivity].
    exfalso. apply A, mem_in, E.
Qed.
Theorem C313_call : forall f c a, accepts f c a = true <->
  NoDup (map fst a)
  /\ (forall n, In n (required c) -> exists v, In (n, v) a)
  /\ (open c = true \/ forall n v, In (n, v) a -> In n (required c) \/ In n (optional c))
  /\ validates f a = true.
Proof.
  intros f c a. unfold accepts. rewrite !andb_true_iff, orb_true_iff, distinct_nodup, !forallb_forall. split.
  - intros [[[D R] O] V]. split; [exact D|]. split; [|split; [|exact V]].
    + intros n I. specialize (R n I). apply mem_in in R. apply in_map_iff in R as ([k v] & E & R). cbn in E. subst. eauto.
    + destruct O as [O|O]; [left; exact O|right]. intros n v I. apply in_app_or. apply mem_in. apply O. exact (in_map fst _ _ I).
  - intros (D & R & O & V). repeat split; [exact D | | | exact V].
    + intros n I. destruct (R n I) as [v J]. apply mem_in. exact (in_map fst _ _ J).
    + destruct O as [O|O]; [left; exact O|right]. intros n I. apply in_map_iff in I as ([k v] & <- & I). apply mem_in, in_or_app.
      exact (O k v I).
Qed.
(** The checks of the exponential smoothing constructor refuse exactly the unknown names of a trend or of a season. *)
Theorem C313_checked : forall a,
  validates HoltWinters a = true <->
  forall n v, n = "trend" \/ n = "seasonal" -> lookup n a = Some v -> text_in ["add"; "mul"; "additive"; "multiplicative"] v.
Proof.
  intros a. unfold validates. rewrite andb_true_iff.
  assert (A : forall l n, absent_or l n a = true <-> forall v, lookup n a = Some v -> text_in l v).
  { intros l n. unfold absent_or. destruct (lookup n a) as [v|]; [|split; [discriminate | reflexivity]].
    destruct v as [z|b|s|r|t]; try (split; [discriminate|]; intro H; destruct (H _ eq_refl) as (? & E & _); discriminate E).
    split.
    - intros H v E. injection E as <-. exists s. split; [reflexivity|]. apply mem_in. exact H.
    - intro H. destruct (H _ eq_refl) as (s' & E & I). injection E as <-. apply mem_in in I. exact I. }
  rewrite !A. split.
  - intros [T S] n v [->| ->]; auto.
  - intro H. split; intros v; apply H; auto.
Qed.

Example C313_case :
  choice [ints "m" (irange 1 31 1)] [("m", VInt 12)] /\ search_space Theta = Some [ints "m" (irange 1 31 1)]
  /\ accepts HoltWinters (Class [] ["trend"; "damped"; "seasonal"; "seasonal_periods"] false) [("trend", VStr "up")] = false
  /\ accepts Lstm (Class ["hidden_size"; "time_window"; "num_epochs"] [] false) [("hidden_size", VInt 5)] = false
  /\ accepts Linear (Class [] ["alpha"] false) [("beta", VInt 5)] = false
  /\ accepts Quadratic (Class [] ["alpha"] true) [("beta", VInt 5)] = true.
Proof.
  repeat split. constructor; [|constructor]. split; [reflexivity|]. apply in_map_iff. exists 11%nat. split; [reflexivity|]. apply in_seq. vm_compute. lia.
Qed.

Print Assumptions C313_accepted.
Print Assumptions C313_sensible_partial.
Print Assumptions C313_learning_rate_refuted.
Print Assumptions C313_ordered.
Print Assumptions C313_distinct.
Print Assumptions C313_types_partial.
Print Assumptions C313_types_refuted.
Print Assumptions C313_lags.
Print Assumptions C313_missing_refuted.

Print Assumptions C313_call.
Print Assumptions C313_checked.
