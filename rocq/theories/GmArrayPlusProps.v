(** Theorems about the arrays of a batch of the global model: cutting, padding, missing values, seasonality (C200-C202). *)
From Coq Require Import List Bool Arith ZArith QArith Lia Lqa.
From Verif Require Import Common GmBatchModel GmBatchProps GmArrayProps.
Import ListNotations.
Open Scope nat_scope.

(** the value at a position, [Some None] being NaN *)
Notation at_ := (@nth_error (option Q)).

Lemma fill_first_spec l l' : fill_first l = Some l' -> length l' = length l /\ (forall i v, at_ l i = Some (Some v) -> at_ l' i = Some (Some v)) /\ (forall i, 1 <= i -> at_ l' i = at_ l i)
  /\ (1 <= length l -> exists v, at_ l' 0 = Some (Some v)).
Proof.
  destruct l as [|[x|] t]; cbn [fill_first].
  - intros E. injection E as <-. repeat split; auto. cbn. lia.
  - intros E. injection E as <-. repeat split; auto. intros _. exists x. reflexivity.
  - destruct (present (None :: t)) as [|y u]; [discriminate|]. intros E. injection E as <-. split; [reflexivity|]. split; [intros [|i] v H; [discriminate|exact H]|]. split; [intros [|i] H; [lia|reflexivity]|]. intros _. exists y. reflexivity.
Qed.
Lemma forward_spec : forall l k prev, length (forward prev k l) = length l
  /\ (forall i v, at_ l i = Some (Some v) -> at_ (forward prev k l) i = Some (Some v))
  /\ (forall i, k <= i -> at_ (forward prev k l) i = at_ l i)
  /\ (forall i, i < k -> at_ l i = Some None -> at_ (forward prev k l) i = at_ (prev :: forward prev k l) i).
Proof.
  induction l as [|v t IH]; intros k prev; [destruct k; cbn; repeat split; auto; intros [|i] _ H; discriminate|]. destruct k as [|k].
  - cbn [forward]. repeat split; auto. intros i H. lia.
  - cbn [forward]. set (v' := match v with None => prev | Some _ => v end). destruct (IH k v') as (L & A & B & C). split; [cbn; rewrite L; reflexivity|]. split; [|split].
    + intros [|i] w H; cbn in *; [|apply A; exact H]. injection H as ->. reflexivity.
    + intros [|i] H; [lia|]. cbn. apply B. lia.
    + intros [|i] H E; cbn in *; [injection E as ->; reflexivity|]. rewrite C by (try lia; exact E). reflexivity.
Qed.
Lemma fill_season_spec s l l' : 1 <= s -> fill_season s l = Some l' -> length l' = length l /\ (forall i v, at_ l i = Some (Some v) -> at_ l' i = Some (Some v)) /\ (forall i, s <= i -> at_ l' i = at_ l i) /\ at_ l' 0 = at_ l 0
  /\ (forall i, 1 <= i < s -> at_ l i = Some None -> at_ l' i = at_ l' (i - 1)) /\ (s = 1 \/ s <= length l).
Proof.
  intros S1. unfold fill_season. destruct (Nat.eqb_spec s 1) as [->|N].
  - intros E. injection E as <-. repeat split; auto. intros i H. lia.
  - destruct (Nat.ltb_spec (length l) s) as [H|H]; [discriminate|]. destruct l as [|x t]; [cbn in H; lia|]. intros E. injection E as <-. destruct (forward_spec t (s - 1) x) as (L & A & B & C). split; [cbn; rewrite L; reflexivity|].
    split; [intros [|i] v E; cbn in *; [exact E|apply A; exact E]|]. split; [intros [|i] Hi; [lia|cbn; apply B; lia]|]. split; [reflexivity|]. split; [|right; exact H].
    intros [|i] Hi E; [lia|]. cbn [nth_error] in E |- *. replace (S i - 1) with i by lia. apply C; [lia|exact E].
Qed.

(** the parts of a row *)
Lemma row_parts p training n m freq train valid r : get_row p training n m freq train valid = Some r ->
  exists x0, offset_of (ratio p) (fst train) (option_map fst valid) = Some (offset r)
  /\ fill_first (cut_or_pad (seasonality p) n (add_off (offset r) (fst train))) = Some x0 /\ fill_season (seasonality p) x0 = Some (train_x r)
  /\ train_time r = cut_or_pad (seasonality p) n (snd train).
Proof.
  unfold get_row. destruct (offset_of _ _ _) as [o|]; [|discriminate]. destruct (fill_first _) as [x0|] eqn:F; [|discriminate]. destruct (fill_season _ x0) as [x|] eqn:G; [|discriminate]. intros E. exists x0.
  assert (P : offset r = o /\ train_x r = x /\ train_time r = cut_or_pad (seasonality p) n (snd train)).
  { destruct valid as [[vv vt]|].
    - destruct (length vv <? m); [destruct (rev vt); [discriminate|]|]; injection E as <-; cbn; auto.
    - destruct training; [injection E as <-; cbn; auto|]. destruct (rev (snd train)); [discriminate|]. injection E as <-; cbn; auto. }
  destruct P as (-> & -> & ->). auto.
Qed.
Lemma add_off_nth o l i : at_ (add_off o l) i = option_map (option_map (fun x => x + o)%Q) (at_ l i).
Proof. unfold add_off. revert i. induction l as [|v l IH]; intros [|i]; cbn; auto. Qed.
Lemma add_off_len o l : length (add_off o l) = length l.
Proof. apply map_length. Qed.

Section Row.
Variables (p : params) (training : bool) (n m : nat) (freq : Z) (train : list (option Q) * list Z) (valid : option (list (option Q) * list Z)) (r : row).
Hypothesis vp : valid_params p.
Hypothesis long : seasonality p <= length (fst train).
Hypothesis made : get_row p training n m freq train valid = Some r.
Notation len := (length (fst train)).
Notation raw := (cut_or_pad (seasonality p) n (add_off (offset r) (fst train))).
Lemma filled : length (train_x r) = n /\ (forall i v, at_ raw i = Some (Some v) -> at_ (train_x r) i = Some (Some v)) /\ (forall i, seasonality p <= i -> at_ (train_x r) i = at_ raw i)
  /\ (forall i, 1 <= i < seasonality p -> at_ raw i = Some None -> at_ (train_x r) i = at_ (train_x r) (i - 1)) /\ (1 <= n -> exists v, at_ (train_x r) 0 = Some (Some v)) /\ (seasonality p = 1 \/ seasonality p <= n).
Proof.
  assert (S : 1 <= seasonality p) by (unfold valid_params in vp; lia). destruct (row_parts _ _ _ _ _ _ _ _ made) as (x0 & _ & F & G & _).
  destruct (fill_first_spec _ _ F) as (L1 & A1 & B1 & C1). destruct (fill_season_spec _ _ _ S G) as (L2 & A2 & B2 & C2 & D2 & E2).
  assert (RL : length raw = n) by (apply (cut_or_pad_spec (seasonality p) n (add_off (offset r) (fst train)) S); rewrite add_off_len; exact long).
  split; [lia|]. split; [intros i v H; apply A2, A1, H|]. split; [intros i H; rewrite B2, B1 by lia; reflexivity|]. split; [intros i H E; apply D2; [exact H|]; rewrite B1 by lia; exact E|]. split; [intros N; rewrite C2; apply C1; lia|lia].
Qed.
End Row.

(** C200.  A row has the length asked for.  A series that is long enough gives its last values, lifted by the offset; one that
    is too short stands at the end, and the values before it repeat its first season, in phase. *)
Theorem C200_values : forall p training n m freq train valid r, valid_params p -> seasonality p <= length (fst train) -> get_row p training n m freq train valid = Some r ->
  let len := length (fst train) in
  length (train_x r) = n
  /\ (n <= len -> forall i v, i < n -> at_ (fst train) (len - n + i) = Some (Some v) -> at_ (train_x r) i = Some (Some (v + offset r)%Q))
  /\ (len <= n -> forall i v, at_ (fst train) i = Some (Some v) -> at_ (train_x r) (n - len + i) = Some (Some (v + offset r)%Q))
  /\ (len <= n -> forall i j k v, i < n - len -> j < seasonality p -> i + k * seasonality p = n - len + j -> at_ (fst train) j = Some (Some v) -> at_ (train_x r) i = Some (Some (v + offset r)%Q)).
Proof.
  intros p training n m freq train valid r VP SL E len. destruct (filled p training n m freq train valid r VP SL E) as (L & A & _). assert (S : 1 <= seasonality p) by (unfold valid_params in VP; lia).
  pose proof (cut_or_pad_spec (seasonality p) n (add_off (offset r) (fst train)) S) as C. rewrite add_off_len in C. specialize (C SL). destruct C as (_ & C1 & C2 & C3). fold len in C1, C2, C3.
  split; [exact L|]. split; [|split].
  - intros Le i v Hi H. apply A. rewrite C1 by assumption. rewrite add_off_nth, H. reflexivity.
  - intros Le i v H. apply A. rewrite C2; [|exact Le|apply nth_error_Some; unfold len; congruence]. rewrite add_off_nth, H. reflexivity.
  - intros Le i j k v Hi Hj Ek H. apply A. revert i Hi Ek. induction k as [|k IH]; intros i Hi Ek; [cbn in Ek; lia|]. rewrite C3 by assumption.
    destruct (Nat.lt_ge_cases (i + seasonality p) (n - len)) as [Lt|Ge]; [apply IH; [exact Lt|lia]|].
    assert (k = 0) by nia. subst k. replace (i + seasonality p) with (n - len + j) by lia. rewrite C2; [|exact Le|unfold len; lia]. rewrite add_off_nth, H. reflexivity.
Qed.
Example C200_case : option_map train_x (get_row demo true 8 0 1 ([Some 1; Some 2; Some 3; Some 4; None]%Q, [0; 1; 2; 3; 4]%Z) None) = Some [Some (2 + 0); Some (1 + 0); Some (2 + 0); Some (1 + 0); Some (2 + 0); Some (3 + 0); Some (4 + 0); None]%Q.
Proof. reflexivity. Qed.
(** The times of a series that is not padded are its last ones. *)
Theorem C200_times_partial : forall p training n m freq train valid r, valid_params p -> seasonality p <= length (fst train) -> length (snd train) = length (fst train) -> n <= length (fst train) ->
  get_row p training n m freq train valid = Some r -> exists before, snd train = before ++ train_time r /\ length (train_time r) = n.
Proof.
  intros p training n m freq train valid r VP SL TL Le E. destruct (row_parts _ _ _ _ _ _ _ _ E) as (_ & _ & _ & _ & ->). unfold cut_or_pad. rewrite (proj2 (Nat.leb_le n (length (snd train)))) by lia.
  exists (firstn (length (snd train) - n) (snd train)). unfold last_n. split; [symmetry; apply firstn_skipn|]. rewrite skipn_length. lia.
Qed.
(** The times of padded values are not earlier times but those of the first season again, so that they do not increase. *)
Theorem C200_times_refuted : ~ (forall p training n m freq train valid r, valid_params p -> seasonality p <= length (fst train) -> length (snd train) = length (fst train) -> (0 < freq)%Z ->
  (forall i a b, nth_error (snd train) i = Some a -> nth_error (snd train) (S i) = Some b -> b = (a + freq)%Z) -> get_row p training n m freq train valid = Some r ->
  forall i a b, nth_error (train_time r) i = Some a -> nth_error (train_time r) (S i) = Some b -> (a < b)%Z).
Proof.
  intros H. assert (V : valid_params demo) by (unfold valid_params; cbn; lia).
  assert (HH := fun r => H demo true 4 0 1%Z ([Some 1; Some 2; Some 3]%Q, [5; 6; 7]%Z) None r V ltac:(cbn; lia) eq_refl ltac:(lia)).
  specialize (HH _ ltac:(intros [|[|[|i]]] a b A B; cbn in A, B; try discriminate; try (destruct i; discriminate); injection A as <-; injection B as <-; reflexivity) eq_refl 0 6%Z 5%Z eq_refl eq_refl). lia.
Qed.
(** The validation part has the validation values, lifted by the same offset, then missing values; its times go on in steps of
    freq.  In testing mode without validation data all of it is missing, at the times that follow the series. *)
Theorem C200_validation : forall p training n m freq train vv vt r, length vt = length vv -> get_row p training n m freq train (Some (vv, vt)) = Some r ->
  length (valid_x r) = m /\ length (valid_time r) = m
  /\ (forall i, i < m -> i < length vv -> at_ (valid_x r) i = option_map (option_map (fun x => x + offset r)%Q) (at_ vv i) /\ nth_error (valid_time r) i = nth_error vt i)
  /\ (forall k t, length vv + k < m -> nth_error vt (length vv - 1) = Some t -> at_ (valid_x r) (length vv + k) = Some None /\ nth_error (valid_time r) (length vv + k) = Some (t + Z.of_nat (S k) * freq)%Z).
Proof.
  intros p training n m freq train vv vt r TL. unfold get_row. destruct (offset_of _ _ _) as [o|]; [|discriminate]. destruct (fill_first _) as [x0|]; [|discriminate]. destruct (fill_season _ x0) as [x|]; [|discriminate].
  destruct (Nat.ltb_spec (length vv) m) as [C|C].
  - destruct (rev vt) as [|t u] eqn:RV; [discriminate|]. intros E. injection E as <-. cbn [valid_x valid_time offset]. assert (VT : vt = rev u ++ [t]) by (rewrite <- (rev_involutive vt), RV; reflexivity).
    assert (TA : length (times_after t freq (m - length vv)) = m - length vv) by (unfold times_after; rewrite map_length; apply seq_length).
    split; [rewrite app_length, add_off_len, repeat_length; lia|]. split; [rewrite app_length, TA; lia|]. split.
    + intros i Hi Hv. rewrite nth_error_app1 by (rewrite add_off_len; exact Hv). rewrite nth_error_app1 by lia. rewrite add_off_nth. auto.
    + intros k t' Hk T. assert (t' = t).
      { rewrite VT in T. rewrite nth_error_app2 in T by (rewrite VT, app_length in TL; cbn in TL; lia). replace (length vv - 1 - length (rev u)) with 0 in T by (rewrite VT, app_length in TL; cbn in TL; lia). cbn in T. congruence. }
      subst t'. rewrite nth_error_app2 by (rewrite add_off_len; lia). rewrite nth_error_app2 by lia. rewrite add_off_len, TL. replace (length vv + k - length vv) with k by lia. split.
      * apply nth_error_repeat. lia.
      * unfold times_after. rewrite (map_nth_error _ k _ (d := k)); [reflexivity|]. rewrite (nth_error_nth' _ 0) by (rewrite seq_length; lia). rewrite seq_nth by lia. reflexivity.
  - intros E. injection E as <-. cbn [valid_x valid_time offset]. assert (NF : forall {A} (l : list A) i, i < m -> nth_error (firstn m l) i = nth_error l i).
    { clear. intros A l. revert l. induction m as [|m IH]; intros l i H; [lia|]. destruct l; [reflexivity|]. destruct i; [reflexivity|]. cbn. apply IH. lia. }
    split; [rewrite firstn_length, add_off_len; lia|]. split; [rewrite firstn_length; lia|]. split; [intros i Hi Hv; rewrite !NF by exact Hi; rewrite add_off_nth; auto|intros; lia].
Qed.
Theorem C200_testing : forall p n m freq train r t, get_row p false n m freq train None = Some r -> nth_error (rev (snd train)) 0 = Some t ->
  valid_x r = repeat None m /\ length (valid_time r) = m /\ forall k, k < m -> nth_error (valid_time r) k = Some (t + Z.of_nat (S k) * freq)%Z.
Proof.
  intros p n m freq train r t. unfold get_row. destruct (offset_of _ _ _) as [o|]; [|discriminate]. destruct (fill_first _) as [x0|]; [|discriminate]. destruct (fill_season _ x0) as [x|]; [|discriminate].
  destruct (rev (snd train)) as [|t' u]; [discriminate|]. intros E T. cbn in T. injection T as ->. injection E as <-. cbn [valid_x valid_time]. split; [reflexivity|]. split; [unfold times_after; rewrite map_length; apply seq_length|].
  intros k Hk. unfold times_after. rewrite (map_nth_error _ k _ (d := k)); [reflexivity|]. rewrite (nth_error_nth' _ 0) by (rewrite seq_length; lia). rewrite seq_nth by lia. reflexivity.
Qed.

(** C201.  There is no missing value in the first season of a row; what was missing there is the value before it (the first
    one: the first value there is); later missing values stay. *)
Theorem C201_first_season : forall p training n m freq train valid r, valid_params p -> 1 <= n -> seasonality p <= length (fst train) -> get_row p training n m freq train valid = Some r ->
  seasonality p <= n /\ (forall i, i < seasonality p -> exists v, at_ (train_x r) i = Some (Some v))
  /\ (length (fst train) <= n -> forall i, n - length (fst train) + i < seasonality p -> 1 <= n - length (fst train) + i -> at_ (fst train) i = Some None -> at_ (train_x r) (n - length (fst train) + i) = at_ (train_x r) (n - length (fst train) + i - 1))
  /\ (n <= length (fst train) -> forall i, 1 <= i < seasonality p -> at_ (fst train) (length (fst train) - n + i) = Some None -> at_ (train_x r) i = at_ (train_x r) (i - 1))
  /\ (n <= length (fst train) -> forall i, seasonality p <= i < n -> at_ (fst train) (length (fst train) - n + i) = Some None -> at_ (train_x r) i = Some None).
Proof.
  intros p training n m freq train valid r VP N SL E. destruct (filled p training n m freq train valid r VP SL E) as (L & A & B & C & D & SS). assert (S1 : 1 <= seasonality p) by (unfold valid_params in VP; lia).
  pose proof (cut_or_pad_spec (seasonality p) n (add_off (offset r) (fst train)) S1) as K. rewrite add_off_len in K. specialize (K SL). destruct K as (RL & K1 & K2 & _).
  assert (SN : seasonality p <= n) by lia. split; [exact SN|]. split; [|split; [|split]].
  - induction i as [|i IH]; intros Hi; [apply D; exact N|]. destruct (at_ (cut_or_pad (seasonality p) n (add_off (offset r) (fst train))) (S i)) as [[v|]|] eqn:R.
    + exists v. apply A. exact R.
    + rewrite (C (S i)) by (try exact R; lia). replace (S i - 1) with i by lia. apply IH. lia.
    + apply nth_error_None in R. lia.
  - intros Le i Hi H1 M. apply C; [lia|]. rewrite K2; [|exact Le|apply nth_error_Some; congruence]. rewrite add_off_nth, M. reflexivity.
  - intros Le i Hi M. apply C; [exact Hi|]. rewrite K1 by lia. rewrite add_off_nth, M. reflexivity.
  - intros Le i Hi M. rewrite B by lia. rewrite K1 by lia. rewrite add_off_nth, M. reflexivity.
Qed.
Example C201_case : option_map train_x (get_row demo true 4 0 1 ([Some 9; None; None; Some 3; None]%Q, [0; 1; 2; 3; 4]%Z) None) = Some [Some (3 + 0); Some (3 + 0); Some (3 + 0); None]%Q.
Proof. reflexivity. Qed.
(** A series that has a value only before the part that is used raises. *)
Theorem C201_missing_refuted : ~ (forall p n train, valid_params p -> seasonality p <= n -> seasonality p <= length (fst train) -> present (fst train) <> [] -> (1 < ratio p)%Q -> get_row p true n 0 1%Z train None <> None).
Proof.
  intros H. assert (V : valid_params demo) by (unfold valid_params; cbn; lia).
  apply (H demo 2 ([Some 9; None; None]%Q, [0; 1; 2]%Z) V); [cbn; lia|cbn; lia|discriminate|reflexivity|reflexivity].
Qed.
(** So does every series if the season is longer than the training part, which the parameters do not exclude. *)
Theorem C201_season_refuted : ~ (forall p lengths l train, valid_params p -> (1 < ratio p)%Q -> train_layout p lengths None 1 0 = Some l -> In (length (fst train)) lengths -> (forall v, In v (fst train) -> exists x, v = Some x) ->
  get_row p true (reduced_length l) 0 1%Z train None <> None).
Proof.
  intros H. set (p := {| s2s := false; input_window := 2; fcst_window := 1; min_training_step_num := 1; step_length := 1; min_warming_up := 2; validation_step_num := 3; fcst_step_num := 2; seasonality := 7; ratio := 5 |}).
  assert (V : valid_params p) by (unfold valid_params; cbn; lia).
  apply (H p [7] _ (map (fun k => Some (inject_Z (Z.of_nat (S k)))) (seq 0 7), [0; 1; 2; 3; 4; 5; 6]%Z) V ltac:(reflexivity) eq_refl ltac:(left; reflexivity)); [|reflexivity].
  intros v I. apply in_map_iff in I as (k & <- & _). eexists. reflexivity.
Qed.

(** C202.  The first seasonal factors are the ratios of the values of the first season to their mean, and lie within the
    bounds; without bounds their mean is 1. *)
Theorem C202_factors : forall s lo hi x, 1 <= s -> s <= length x -> (lo <= hi)%Q -> (forall v, In v x -> 0 < v)%Q ->
  exists mean, (0 < mean)%Q /\ (mean * inject_Z (Z.of_nat s) == qsum (firstn s x))%Q /\ length (init_season s lo hi x) = s
  /\ (forall i v, i < s -> nth_error x i = Some v -> exists f, nth_error (init_season s lo hi x) i = Some f /\ (lo <= f <= hi)%Q
        /\ (lo * mean <= v <= hi * mean -> f * mean == v)%Q /\ (v < lo * mean -> f = lo)%Q /\ (hi * mean < v -> f = hi)%Q)
  /\ (qsum (init_ratios s x) == inject_Z (Z.of_nat s))%Q.
Proof.
  intros s lo hi x S SL LH P. set (season := firstn s x). assert (FL : length season = s) by (apply firstn_length_le; exact SL).
  assert (SP : forall v, In v season -> (0 < v)%Q) by (intros v I; apply P; rewrite <- (firstn_skipn s x); apply in_or_app; left; exact I).
  assert (SS : (0 < qsum season)%Q).
  { destruct season as [|v t]; [cbn in FL; lia|]. cbn [qsum]. assert (0 <= qsum t)%Q by (apply qsum_nonneg; intros y I; apply Qlt_le_weak, SP; right; exact I). specialize (SP v (or_introl eq_refl)). lra. }
  assert (SQ : (0 < inject_Z (Z.of_nat s))%Q) by (rewrite (Zlt_Qlt 0) || change 0%Q with (inject_Z 0); rewrite <- Zlt_Qlt; lia).
  set (mean := (qsum season / inject_Z (Z.of_nat s))%Q). assert (MP : (0 < mean)%Q) by (unfold mean; apply Qlt_shift_div_l; lra).
  exists mean. split; [exact MP|]. split; [unfold mean; field; lra|]. assert (IR : init_ratios s x = map (fun v => (v / mean)%Q) season) by (unfold init_ratios; cbv zeta; fold season; rewrite FL; reflexivity).
  split; [unfold init_season; rewrite map_length, IR, map_length; exact FL|]. split.
  - intros i v Hi E. exists (clip lo hi (v / mean)%Q). split.
    { unfold init_season. rewrite IR. apply map_nth_error. apply (map_nth_error (fun v => (v / mean)%Q)). rewrite <- E. unfold season. clear -Hi. revert x i Hi. induction s as [|s IH]; intros x i Hi; [lia|]. destruct x; [reflexivity|]. destruct i; [reflexivity|]. cbn. apply IH. lia. }
    assert (VM : (v / mean * mean == v)%Q) by (field; lra).
    assert (CL : ((lo <= v / mean -> v / mean <= hi -> clip lo hi (v / mean) = (v / mean)) /\ (v / mean < lo -> clip lo hi (v / mean) = lo) /\ (hi < v / mean -> clip lo hi (v / mean) = hi))%Q).
    { unfold clip. destruct (Qle_bool lo (v / mean)) eqn:E1; [apply Qle_bool_iff in E1|assert (E1' : (v / mean < lo)%Q) by (apply Qnot_le_lt; rewrite <- Qle_bool_iff; congruence)].
      - destruct (Qle_bool (v / mean) hi) eqn:E2; [apply Qle_bool_iff in E2|assert (E2' : (hi < v / mean)%Q) by (apply Qnot_le_lt; rewrite <- Qle_bool_iff; congruence)]; repeat split; intros; try reflexivity; lra.
      - destruct (Qle_bool lo hi) eqn:E2; [|exfalso; assert (~ (lo <= hi)%Q) by (rewrite <- Qle_bool_iff; congruence); contradiction]. repeat split; intros; try reflexivity; lra. }
    destruct CL as (C1 & C2 & C3). revert C1 C2 C3 VM. generalize (v / mean)%Q. intros w C1 C2 C3 VM.
    assert (W : forall c, (c * mean <= v <-> c <= w)%Q) by (intros c; rewrite <- VM; apply Qmult_le_r; exact MP).
    assert (W2 : forall c, (v <= c * mean <-> w <= c)%Q) by (intros c; rewrite <- VM; apply Qmult_le_r; exact MP).
    split; [|split; [|split]].
    + destruct (Qlt_le_dec w lo) as [H|H]; [rewrite C2 by exact H; lra|]. destruct (Qlt_le_dec hi w) as [H'|H']; [rewrite C3 by exact H'; lra|]. rewrite C1 by assumption. lra.
    + intros [H1 H2]. apply W in H1. apply W2 in H2. rewrite C1 by assumption. exact VM.
    + intros H. apply C2. apply Qnot_le_lt. intros X. apply W in X. lra.
    + intros H. apply C3. apply Qnot_le_lt. intros X. apply W2 in X. lra.
  - rewrite IR. assert (SC : forall l, (qsum (map (fun v => (v / mean)) l) == qsum l / mean)%Q).
    { induction l as [|v l IH]; cbn [map qsum]; [field; lra|]. rewrite IH. field. lra. }
    rewrite SC. unfold mean. field. split; lra.
Qed.
Example C202_case : init_season 2 (1#10) 10 [1; 3; 7]%Q = [1 / (4 / 2); 3 / (4 / 2)]%Q.
Proof. reflexivity. Qed.

Print Assumptions C200_values.
Print Assumptions C200_times_partial.
Print Assumptions C200_times_refuted.
Print Assumptions C200_validation.
Print Assumptions C200_testing.
Print Assumptions C201_first_season.
Print Assumptions C201_missing_refuted.
Print Assumptions C201_season_refuted.
Print Assumptions C202_factors.
