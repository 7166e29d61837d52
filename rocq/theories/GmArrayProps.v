(** Theorems about the arrays of a batch of the global model (C198-C202). *)
From Coq Require Import List Bool Arith ZArith QArith Lia Lqa.
From Verif Require Import Common GmBatchModel GmBatchProps.
Import ListNotations.
Open Scope nat_scope.

Lemma qmin_spec a b : (qmin a b <= a /\ qmin a b <= b /\ (qmin a b = a \/ qmin a b = b))%Q.
Proof. unfold qmin. destruct (Qle_bool a b) eqn:E; [apply Qle_bool_iff in E|assert (H : ~ (a <= b)%Q) by (rewrite <- Qle_bool_iff; congruence); apply Qnot_le_lt in H]; repeat split; auto; lra. Qed.
Lemma qmax_spec a b : (a <= qmax a b /\ b <= qmax a b /\ (qmax a b = a \/ qmax a b = b))%Q.
Proof. unfold qmax. destruct (Qle_bool a b) eqn:E; [apply Qle_bool_iff in E|assert (H : ~ (a <= b)%Q) by (rewrite <- Qle_bool_iff; congruence); apply Qnot_le_lt in H]; repeat split; auto; lra. Qed.
(** smallest and largest member *)
Definition is_min (m : Q) (l : list Q) : Prop := In m l /\ forall x, In x l -> (m <= x)%Q.
Definition is_max (m : Q) (l : list Q) : Prop := In m l /\ forall x, In x l -> (x <= m)%Q.
Lemma fold_min x t : is_min (fold_right qmin x t) (x :: t).
Proof.
  induction t as [|y t [I A]]; cbn [fold_right]; [split; [left; reflexivity|intros z [<-|[]]; apply Qle_refl]|]. destruct (qmin_spec y (fold_right qmin x t)) as (H1 & H2 & H3). split.
  - destruct H3 as [->| ->]; [right; left; reflexivity|]. destruct I as [<-|I]; [left; reflexivity|right; right; exact I].
  - intros z [<-|[<-|Z]]; [|exact H1|]; (eapply Qle_trans; [exact H2|apply A]); [left; reflexivity|right; exact Z].
Qed.
Lemma fold_max x t : is_max (fold_right qmax x t) (x :: t).
Proof.
  induction t as [|y t [I A]]; cbn [fold_right]; [split; [left; reflexivity|intros z [<-|[]]; apply Qle_refl]|]. destruct (qmax_spec y (fold_right qmax x t)) as (H1 & H2 & H3). split.
  - destruct H3 as [->| ->]; [right; left; reflexivity|]. destruct I as [<-|I]; [left; reflexivity|right; right; exact I].
  - intros z [<-|[<-|Z]]; [|exact H1|]; (eapply Qle_trans; [|exact H2]; apply A); [left; reflexivity|right; exact Z].
Qed.
Lemma present_in l x : In x (present l) <-> In (Some x) l.
Proof. unfold present. rewrite in_flat_map. split; [intros ([y|] & I & H); [destruct H as [<-|[]]; exact I|destruct H]|intros I; exists (Some x); split; [exact I|left; reflexivity]]. Qed.
Lemma ts_min_some l m : ts_min l = Some m -> is_min m (present l).
Proof. unfold ts_min. destruct (present l) as [|x t]; [discriminate|]. intros E. injection E as <-. apply fold_min. Qed.
Lemma ts_max_some l m : ts_max l = Some m -> is_max m (present l).
Proof. unfold ts_max. destruct (present l) as [|x t]; [discriminate|]. intros E. injection E as <-. apply fold_max. Qed.
(** all values that decide on the offset *)
Definition seen (train : list (option Q)) (valid : option (list (option Q))) : list Q :=
  present train ++ match valid with Some v => present v | None => [] end.
Lemma seen_min train valid m : (match valid with None => ts_min train | Some v => both qmin (ts_min train) (ts_min v) end) = Some m -> is_min m (seen train valid).
Proof.
  unfold seen. destruct valid as [v|]; [|rewrite app_nil_r; apply ts_min_some]. unfold both. destruct (ts_min train) as [a|] eqn:A; [|discriminate]. destruct (ts_min v) as [b|] eqn:B; [|discriminate]. intros E. injection E as <-.
  apply ts_min_some in A as [A1 A2]. apply ts_min_some in B as [B1 B2]. destruct (qmin_spec a b) as (H1 & H2 & H3). split.
  - apply in_or_app. destruct H3 as [->| ->]; [left|right]; assumption.
  - intros x I. apply in_app_or in I as [I|I]; [eapply Qle_trans; [exact H1|apply A2; exact I]|eapply Qle_trans; [exact H2|apply B2; exact I]].
Qed.
Lemma seen_max train valid m : (match valid with None => ts_max train | Some v => both qmax (ts_max train) (ts_max v) end) = Some m -> is_max m (seen train valid).
Proof.
  unfold seen. destruct valid as [v|]; [|rewrite app_nil_r; apply ts_max_some]. unfold both. destruct (ts_max train) as [a|] eqn:A; [|discriminate]. destruct (ts_max v) as [b|] eqn:B; [|discriminate]. intros E. injection E as <-.
  apply ts_max_some in A as [A1 A2]. apply ts_max_some in B as [B1 B2]. destruct (qmax_spec a b) as (H1 & H2 & H3). split.
  - apply in_or_app. destruct H3 as [->| ->]; [left|right]; assumption.
  - intros x I. apply in_app_or in I as [I|I]; [eapply Qle_trans; [apply A2; exact I|exact H1]|eapply Qle_trans; [apply B2; exact I|exact H2]].
Qed.
Lemma both_present f train v : present train <> [] -> present v <> [] -> (both f (ts_min train) (ts_min v) <> None) /\ (both f (ts_max train) (ts_max v) <> None).
Proof. unfold both, ts_min, ts_max. intros A B. destruct (present train); [congruence|]. destruct (present v); [congruence|]. split; discriminate. Qed.

(** C198.  If the ratio is larger than 1 and there is a value in every part, the values lifted by the offset are all positive;
    positive values are not lifted, constant ones become 1, and otherwise the largest is the ratio times the smallest. *)
Theorem C198_offset_partial : forall rt train valid, (1 < rt)%Q -> present train <> [] -> (forall v, valid = Some v -> present v <> []) ->
  exists o, offset_of rt train valid = Some o
  /\ (forall x, In x (seen train valid) -> (0 < x + o)%Q)
  /\ ((forall x, In x (seen train valid) -> (0 < x)%Q) -> o = 0%Q)
  /\ (forall mn mx, is_min mn (seen train valid) -> is_max mx (seen train valid) -> (mn <= 0)%Q ->
        (mn == mx -> mn + o == 1)%Q /\ (~ mn == mx -> mx + o == rt * (mn + o))%Q).
Proof.
  intros rt train valid R P V. unfold offset_of.
  destruct (match valid with None => ts_min train | Some v => both qmin (ts_min train) (ts_min v) end) as [m|] eqn:M.
  2:{ exfalso. destruct valid as [v|]; [exact (proj1 (both_present qmin train v P (V v eq_refl)) M)|]. revert M. unfold ts_min. destruct (present train); [congruence|discriminate]. }
  destruct (match valid with None => ts_max train | Some v => both qmax (ts_max train) (ts_max v) end) as [mx|] eqn:X.
  2:{ exfalso. destruct valid as [v|]; [exact (proj2 (both_present qmax train v P (V v eq_refl)) X)|]. revert X. unfold ts_max. destruct (present train); [congruence|discriminate]. }
  apply seen_min in M as [M1 M2]. apply seen_max in X as [X1 X2].
  assert (U1 : forall m', is_min m' (seen train valid) -> (m' == m)%Q) by (intros m' [I A]; apply Qle_antisym; [apply A; exact M1|apply M2; exact I]).
  assert (U2 : forall m', is_max m' (seen train valid) -> (m' == mx)%Q) by (intros m' [I A]; apply Qle_antisym; [apply X2; exact I|apply A; exact X1]).
  destruct (Qle_bool m 0) eqn:Z.
  - apply Qle_bool_iff in Z. destruct (Qeq_bool m mx) eqn:C.
    + apply Qeq_bool_iff in C. exists (1 - m)%Q. split; [reflexivity|]. split; [intros x I; specialize (M2 x I); lra|]. split; [intros A; specialize (A m M1); lra|].
      intros mn mx' I J _. pose proof (U1 mn I). pose proof (U2 mx' J). split; intros K; [lra|exfalso; apply K; lra].
    + assert (NC : ~ (m == mx)%Q) by (rewrite <- Qeq_bool_iff; congruence). destruct (Qeq_bool rt 1) eqn:R1; [apply Qeq_bool_iff in R1; lra|]. exists ((mx - rt * m) / (rt - 1))%Q. split; [reflexivity|].
      assert (Lt : (m < mx)%Q) by (assert (m <= mx)%Q by (apply M2; exact X1); apply Qle_lteq in H as [H|H]; [exact H|contradiction]).
      assert (D : (m + (mx - rt * m) / (rt - 1) == (mx - m) / (rt - 1))%Q) by (field; lra).
      assert (PO : (0 < (mx - m) / (rt - 1))%Q) by (apply Qlt_shift_div_l; lra).
      split; [intros x I; specialize (M2 x I); lra|]. split; [intros A; specialize (A m M1); lra|].
      intros mn mx' I J _. pose proof (U1 mn I) as E1. pose proof (U2 mx' J) as E2. split; intros K; [exfalso; apply NC; lra|]. rewrite E1, E2. field. lra.
  - assert (NZ : (0 < m)%Q) by (apply Qnot_le_lt; rewrite <- Qle_bool_iff; congruence). exists 0%Q. split; [reflexivity|]. split; [intros x I; specialize (M2 x I); lra|]. split; [reflexivity|].
    intros mn mx' I _ N. pose proof (U1 mn I). lra.
Qed.
Example C198_case : offset_of 5 [Some (-3); None; Some 1]%Q (Some [Some 5]%Q) = Some (20 # 4)%Q.
Proof. reflexivity. Qed.
(** GMParam accepts every ratio that is not negative (utils.py:1240); with 1/2 the values are pushed below 0. *)
Theorem C198_ratio_refuted : ~ (forall rt train, (0 <= rt)%Q -> ~ (rt == 1)%Q -> present train <> [] -> exists o, offset_of rt train None = Some o /\ forall x, In x (present train) -> (0 < x + o)%Q).
Proof.
  intros H. destruct (H (1 # 2)%Q [Some (-1); Some 2]%Q) as (o & E & P); [lra|lra|discriminate|]. vm_compute in E. injection E as <-. specialize (P (-1)%Q ltac:(left; reflexivity)). vm_compute in P. discriminate.
Qed.
(** A validation series without any value switches the lifting off. *)
Theorem C198_missing_refuted : ~ (forall rt train valid, (1 < rt)%Q -> present train <> [] -> exists o, offset_of rt train valid = Some o /\ forall x, In x (present train) -> (0 < x + o)%Q).
Proof.
  intros H. destruct (H 5%Q [Some (-1); Some 2]%Q (Some [None])) as (o & E & P); [lra|discriminate|]. vm_compute in E. injection E as <-. specialize (P (-1)%Q ltac:(left; reflexivity)). vm_compute in P. discriminate.
Qed.

(** C199.  The training array does not depend on the validation values if all values are positive ... *)
Definition positive (l : list (option Q)) : Prop := forall x, In (Some x) l -> (0 < x)%Q.
Theorem C199_independent_partial : forall p training n m freq train v1 v2 r1 r2, positive (fst train) -> positive (fst v1) -> positive (fst v2) ->
  get_row p training n m freq train (Some v1) = Some r1 -> get_row p training n m freq train (Some v2) = Some r2 ->
  train_x r1 = train_x r2 /\ train_time r1 = train_time r2 /\ offset r1 = offset r2.
Proof.
  intros p training n m freq train v1 v2 r1 r2 P0 P1 P2. assert (Z : forall v, positive v -> offset_of (ratio p) (fst train) (Some v) = Some 0%Q).
  { intros v Pv. unfold offset_of. destruct (both qmin (ts_min (fst train)) (ts_min v)) as [mn|] eqn:E; [|reflexivity]. apply (seen_min _ (Some v)) in E as [I _]. unfold seen in I.
    assert (0 < mn)%Q by (apply in_app_or in I as [I|I]; apply present_in in I; auto). destruct (Qle_bool mn 0) eqn:L; [apply Qle_bool_iff in L; lra|reflexivity]. }
  unfold get_row. cbn [option_map]. rewrite (Z _ P1), (Z _ P2). destruct (fill_first _) as [x0|]; [|discriminate]. destruct (fill_season _ x0) as [x|]; [|discriminate]. destruct v1 as [a1 b1], v2 as [a2 b2].
  intros E1 E2. destruct (length a1 <? m); [destruct (rev b1); [discriminate|]|]; injection E1 as <-; (destruct (length a2 <? m); [destruct (rev b2); [discriminate|]|]; injection E2 as <-); cbn; auto.
Qed.
(** ... but not in general: the offset of the training values is taken from the validation values, which a model that is
    validated on them must not have seen. *)
Theorem C199_independent_refuted : ~ (forall p n m freq train v1 v2 r1 r2, valid_params p -> (1 < ratio p)%Q -> length (fst v1) = length (fst v2) -> snd v1 = snd v2 ->
  get_row p true n m freq train (Some v1) = Some r1 -> get_row p true n m freq train (Some v2) = Some r2 -> train_x r1 = train_x r2).
Proof.
  intros H. assert (V : valid_params demo) by (unfold valid_params; cbn; lia).
  specialize (H demo 2 1 1%Z ([Some 1; Some 2]%Q, [0; 1]%Z) ([Some 3]%Q, [2]%Z) ([Some (-3)]%Q, [2]%Z) _ _ V ltac:(reflexivity) eq_refl eq_refl eq_refl eq_refl). vm_compute in H. discriminate.
Qed.

(** ** Cutting and padding *)
Lemma last_n_nth {A} k (l : list A) i : i < k -> k <= length l -> nth_error (last_n k l) i = nth_error l (length l - k + i).
Proof. intros. unfold last_n. generalize (length l - k). clear. intros m. revert l. induction m as [|m IH]; intros l; [reflexivity|]. destruct l; cbn; [destruct i; reflexivity|apply IH]. Qed.
Lemma last_n_len {A} k (l : list A) : k <= length l -> length (last_n k l) = k.
Proof. intros. unfold last_n. rewrite skipn_length. lia. Qed.
Lemma tile_length {A} (l : list A) rep : length (tile l rep) = rep * length l.
Proof. unfold tile. induction rep as [|r IH]; [reflexivity|]. cbn [repeat concat]. rewrite app_length, IH. lia. Qed.
Lemma tile_nth_error {A} (l : list A) : forall rep i, i < rep * length l -> nth_error (tile l rep) i = nth_error l (i mod length l).
Proof.
  induction rep as [|r IH]; intros i H; [lia|]. unfold tile. cbn [repeat concat]. fold (tile l r). destruct (Nat.lt_ge_cases i (length l)) as [Hi|Hi].
  - rewrite nth_error_app1 by exact Hi. rewrite Nat.mod_small by exact Hi. reflexivity.
  - rewrite nth_error_app2 by exact Hi. rewrite IH by lia. f_equal. replace i with (i - length l + 1 * length l) at 2 by lia. rewrite Nat.mod_add by lia. reflexivity.
Qed.
Lemma cut_or_pad_spec {A} s n (l : list A) : 1 <= s -> s <= length l ->
  length (cut_or_pad s n l) = n
  /\ (n <= length l -> forall i, i < n -> nth_error (cut_or_pad s n l) i = nth_error l (length l - n + i))
  /\ (length l <= n -> forall i, i < length l -> nth_error (cut_or_pad s n l) (n - length l + i) = nth_error l i)
  /\ (length l <= n -> forall i, i < n - length l -> nth_error (cut_or_pad s n l) i = nth_error (cut_or_pad s n l) (i + s)).
Proof.
  intros S SL. unfold cut_or_pad. destruct (Nat.leb_spec n (length l)) as [C|C].
  - split; [apply last_n_len; exact C|]. split; [intros _ i Hi; apply last_n_nth; assumption|]. split; [|intros; lia]. intros Le i Hi. rewrite last_n_nth by lia. f_equal. lia.
  - set (pad := n - length l). assert (FL : length (firstn s l) = s) by (apply firstn_length_le; exact SL). set (rep := pad / s + 1).
    assert (RS : pad < rep * s) by (unfold rep; pose proof (Nat.mul_succ_div_gt pad s ltac:(lia)); lia).
    assert (TL : length (tile (firstn s l) rep) = rep * s) by (rewrite tile_length, FL; reflexivity).
    assert (LL : length (last_n pad (tile (firstn s l) rep)) = pad) by (apply last_n_len; rewrite TL; lia).
    assert (NF : forall j, j < s -> nth_error (firstn s l) j = nth_error l j).
    { clear. revert l. induction s as [|s IH]; intros l j H; [lia|]. destruct l; [reflexivity|]. destruct j; [reflexivity|]. cbn. apply IH. lia. }
    assert (NP : forall i, i < pad -> nth_error (last_n pad (tile (firstn s l) rep) ++ l) i = nth_error l ((rep * s - pad + i) mod s)).
    { intros i Hi. rewrite nth_error_app1 by (rewrite LL; exact Hi). rewrite last_n_nth by (rewrite ?TL; lia). rewrite TL, tile_nth_error by (rewrite FL; lia). rewrite FL. apply NF, Nat.mod_upper_bound. lia. }
    split; [rewrite app_length, LL; unfold pad; lia|]. split; [intros; lia|]. split.
    + intros _ i Hi. rewrite nth_error_app2 by (rewrite LL; unfold pad; lia). rewrite LL. f_equal. unfold pad. lia.
    + intros _ i Hi. rewrite NP by exact Hi. destruct (Nat.lt_ge_cases (i + s) pad) as [H|H].
      * rewrite NP by exact H. f_equal. replace (rep * s - pad + (i + s)) with (rep * s - pad + i + 1 * s) by lia. rewrite Nat.mod_add by lia. reflexivity.
      * rewrite nth_error_app2 by (rewrite LL; lia). rewrite LL. f_equal. replace (rep * s - pad + i) with (i + s - pad + (rep - 1) * s) by (unfold rep in *; nia). rewrite Nat.mod_add by lia. apply Nat.mod_small. lia.
Qed.

Print Assumptions C198_offset_partial.
Print Assumptions C198_ratio_refuted.
Print Assumptions C198_missing_refuted.
Print Assumptions C199_independent_partial.
Print Assumptions C199_independent_refuted.
