(** C210: the adjusted pinball loss — specification, proofs and theorems. *)
From Coq Require Import List Bool Arith Reals Lia Lra Psatz.
From Verif Require Import GmLossModel GmLossProofs.
Import ListNotations.
Open Scope nat_scope.

(** ** Specification *)
(** the pinball loss of forecasting x where y comes out *)
Definition tickR (q y x : R) : R := (if Rle_dec x y then q * (y - x) else (1 - q) * (x - y))%R.
Definition presentR (l : list (option R)) : nat := length (filter (fun o => negb (is_nan o)) l).
(** the sum over the steps whose target is present *)
Definition over_present (target : list (option R)) (f : nat -> R -> R) : R :=
  fold_right Rplus 0%R (map (fun h => match nth h target None with Some y => f h y | None => 0%R end) (seq 0 (length target))).

(** ** Proofs *)
Lemma pin_tickR q y x : (0 <= q <= 1)%R -> pin q (y - x) = tickR q y x.
Proof.
  intros H. unfold pin, tickR. destruct (Rle_dec x y).
  - rewrite Rmax_left by nra. ring.
  - rewrite Rmax_right by nra. ring.
Qed.
Lemma rsum_scale {A} (c : R) (f : A -> R) l : rsum (map (fun x => c * f x)%R l) = (c * rsum (map f l))%R.
Proof. unfold rsum. induction l as [|x l IH]; cbn; [ring |]. rewrite IH. ring. Qed.
Section Row.
Variables (L : adjusted) (input : list R) (target : list (option R)).
Hypothesis WL : length (aweight L) = length (aquantile L).
Hypothesis QL : 1 <= length (aquantile L).
Hypothesis IL : length input = length target * length (aquantile L).
Local Notation m := (length (aquantile L)).
Local Notation H := (length target).
Local Notation ex := (if input_log L then exp else fun x => x).
Local Notation lg := (if input_log L then fun x => x else ln).
Definition acell (j h : nat) (y : R) : R :=
  match j with
  | O => (pin (nth 0 (aquantile L) 0%R) (ex y - ex (nth h input 0%R)) / (ex y + ex (nth h input 0%R)) * 2)%R
  | S _ => pin (nth j (aquantile L) 0%R) (y - lg (nth (j * H + h) input 0%R))%R
  end.
Lemma adj_row_nth j : j < m ->
  nth j (adj_row L input target) 0%R =
  (nth j (aweight L) 0 * over_present target (acell j) / INR (num_not_nan target))%R.
Proof.
  intros Hj. unfold adj_row.
  rewrite (map_nth_in _ _ []) by (rewrite chunks_len; exact Hj). rewrite chunks_nth by exact Hj.
  f_equal. unfold over_present. change (fold_right Rplus 0%R) with rsum. rewrite <- rsum_scale.
  set (res0 := zip_with (fun t f => (pin (hd 0 (aquantile L)) (ex t - ex f) / (ex t + ex f) * 2)%R) (map (set_nan 1%R) target) (firstn H input)).
  set (resn := zip_with (fun (b : bool) r => if b then 0%R else r) (map is_nan target) res0).
  assert (L0 : length res0 = H) by (unfold res0; rewrite zip_len, map_length, firstn_length, IL; nia).
  assert (Ln : length resn = H) by (unfold resn; rewrite zip_len, map_length, L0; lia).
  set (dif := zip_with Rminus (repeat_row (m - 1) (map (set_nan 1%R) target)) (map lg (skipn H input))).
  set (resq := zip_with (fun d q => pin q d) dif (spread H (tl (aquantile L)))).
  set (resqn := zip_with (fun (b : bool) r => if b then 0%R else r) (repeat_row (m - 1) (map is_nan target)) resq).
  assert (TL : length (tl (aquantile L)) = m - 1) by (destruct (aquantile L); cbn; lia).
  assert (MH : (m - 1) * H = H * m - H) by (rewrite Nat.mul_sub_distr_r, (Nat.mul_comm H m); lia).
  assert (Ld : length dif = (m - 1) * H) by (unfold dif; rewrite zip_len, row_len, !map_length, skipn_length, IL; lia).
  assert (Lq : length resq = (m - 1) * H) by (unfold resq; rewrite zip_len, Ld, spread_len, TL; lia).
  assert (Lqn : length resqn = (m - 1) * H) by (unfold resqn; rewrite zip_len, Lq, row_len, map_length; lia).
  set (all := if 1 <? m then resn ++ resqn else resn).
  assert (La : length all = m * H).
  { unfold all. destruct (1 <? m) eqn:E; [apply Nat.ltb_lt in E; rewrite app_length, Ln, Lqn; nia | apply Nat.ltb_ge in E; rewrite Ln; replace m with 1 by lia; lia]. }
  rewrite (slice_map _ 0%R j H) by (rewrite zip_len, La, spread_len, WL; nia).
  f_equal. apply map_ext_seq. intros h Hh.
  assert (B : j * H + h < m * H) by nia.
  rewrite (zip_nth _ _ _ _ 0%R 0%R) by (rewrite ?La, ?spread_len, ?WL; lia).
  rewrite spread_nth by (rewrite ?WL; lia). rewrite Rmult_comm. f_equal.
  destruct j as [|j].
  - assert (EA : nth (0 * H + h) all 0%R = nth h resn 0%R).
    { unfold all. cbn [Nat.mul plus]. destruct (1 <? m); [apply app_nth1; rewrite Ln; exact Hh | reflexivity]. }
    rewrite EA. unfold resn. rewrite (zip_nth _ _ _ _ false 0%R) by (rewrite ?map_length, ?L0; exact Hh).
    unfold res0. rewrite (zip_nth _ _ _ _ 0%R 0%R) by (rewrite ?map_length, ?firstn_length, ?IL; nia).
    rewrite firstn_nth by exact Hh.
    rewrite (map_nth_in is_nan target None false h) by exact Hh. rewrite (map_nth_in (set_nan 1%R) target None 0%R h) by exact Hh.
    unfold acell. destruct (nth h target None); [| reflexivity]. cbn [is_nan set_nan]. destruct (aquantile L); reflexivity.
  - assert (M1 : (1 <? m) = true) by (apply Nat.ltb_lt; lia).
    assert (EA : nth (S j * H + h) all 0%R = nth (j * H + h) resqn 0%R).
    { unfold all. rewrite M1. rewrite app_nth2 by (rewrite Ln; cbn; lia). f_equal. rewrite Ln. cbn. lia. }
    assert (B2 : j * H + h < (m - 1) * H) by nia.
    rewrite EA. unfold resqn. rewrite (zip_nth _ _ _ _ false 0%R) by (rewrite ?row_len, ?map_length, ?Lq; exact B2).
    pose proof (row_nth (m - 1) (map is_nan target) false j h) as R1. rewrite map_length in R1. rewrite R1 by lia.
    unfold resq. rewrite (zip_nth _ _ _ _ 0%R 0%R) by (rewrite ?Ld, ?spread_len, ?TL; exact B2).
    rewrite spread_nth by (rewrite ?TL; lia).
    unfold dif. rewrite (zip_nth _ _ _ _ 0%R 0%R) by (rewrite ?row_len, ?map_length, ?skipn_length, ?IL; lia).
    pose proof (row_nth (m - 1) (map (set_nan 1%R) target) 0%R j h) as R2. rewrite map_length in R2. rewrite R2 by lia.
    rewrite (map_nth_in is_nan target None false h) by exact Hh. rewrite (map_nth_in (set_nan 1%R) target None 0%R h) by exact Hh.
    rewrite (map_nth_in lg (skipn H input) 0%R 0%R (j * H + h)) by (rewrite skipn_length, IL; lia).
    rewrite skipn_nth. replace (H + (j * H + h)) with (S j * H + h) by (cbn; lia).
    unfold acell. destruct (nth h target None); [| reflexivity]. cbn [is_nan set_nan]. destruct (aquantile L) as [|q0 qs]; [cbn in Hj; lia | reflexivity].
Qed.
End Row.
Lemma over_ext target f g : (forall h y, nth_error target h = Some (Some y) -> f h y = g h y) -> over_present target f = over_present target g.
Proof.
  intros H. unfold over_present. f_equal. apply map_ext_seq. intros h Hh. destruct (nth h target None) as [y|] eqn:E; [| reflexivity].
  apply H. rewrite <- E. apply nth_error_nth'. exact Hh.
Qed.
Lemma over_zero target f : (forall h y, nth_error target h = Some (Some y) -> f h y = 0%R) -> over_present target f = 0%R.
Proof.
  intros H. rewrite (over_ext target f (fun _ _ => 0%R)) by exact H. unfold over_present. generalize (seq 0 (length target)). intros l.
  induction l as [|h l IH]; [reflexivity |]. cbn. rewrite IH. destruct (nth h target None); lra.
Qed.
Lemma over_nonneg target f : (forall h y, nth_error target h = Some (Some y) -> 0 <= f h y)%R -> (0 <= over_present target f)%R.
Proof.
  intros H. unfold over_present. assert (A : forall h, h < length target -> (0 <= match nth h target None with Some y => f h y | None => 0 end)%R).
  { intros h Hh. destruct (nth h target None) as [y|] eqn:E; [| lra]. apply H. rewrite <- E. apply nth_error_nth'. exact Hh. }
  assert (G : forall l, (forall h, In h l -> h < length target) -> (0 <= fold_right Rplus 0 (map (fun h => match nth h target None with Some y => f h y | None => 0 end) l))%R).
  { induction l as [|h l IH]; intros B; cbn; [lra |]. pose proof (A h (B h (or_introl eq_refl))). specialize (IH (fun x Hx => B x (or_intror Hx))). lra. }
  apply G. intros h Hh. apply in_seq in Hh. lia.
Qed.
Lemma num_posR (l : list (option R)) : (0 < INR (num_not_nan l))%R.
Proof. apply lt_0_INR. unfold num_not_nan. lia. Qed.

Definition shaped (L : adjusted) (input : list R) (target : list (option R)) : Prop :=
  1 <= length (aquantile L) /\ length (aweight L) = length (aquantile L) /\ length input = length target * length (aquantile L) /\ forall q, In q (aquantile L) -> (0 < q < 1)%R.

(** ** Theorems *)
(** C210: on logarithmic scale, the loss of the first quantile is the weight times the average, over the steps whose target is
    present, of twice the pinball loss on the original scale divided by the sum of target and forecast *)
Theorem C210_first L input target : shaped L input target -> input_log L = true ->
  nth 0 (adj_row L input target) 0%R =
  (nth 0 (aweight L) 0 * over_present target (fun h y => 2 * tickR (nth 0 (aquantile L) 0) (exp y) (exp (nth h input 0)) / (exp y + exp (nth h input 0)))
   / INR (Nat.max 1 (presentR target)))%R.
Proof.
  intros [QL [WL [IL HQ]]] LG. rewrite adj_row_nth by auto. unfold num_not_nan, presentR. f_equal. f_equal. apply over_ext. intros h y Hy.
  unfold acell. rewrite LG. assert (HQ0 := HQ (nth 0 (aquantile L) 0%R) (nth_In _ _ QL)). rewrite pin_tickR by lra. unfold Rdiv. ring.
Qed.
(** for the median this is half the sMAPE of the forecasts *)
Theorem C210_smape L input target : shaped L input target -> input_log L = true -> nth 0 (aquantile L) 0%R = (1 / 2)%R ->
  nth 0 (adj_row L input target) 0%R =
  (nth 0 (aweight L) 0 * over_present target (fun h y => Rabs (exp y - exp (nth h input 0)) / (exp y + exp (nth h input 0))) / INR (Nat.max 1 (presentR target)))%R.
Proof.
  intros S1 LG M. rewrite C210_first by assumption. rewrite M. f_equal. f_equal. apply over_ext. intros h y Hy. f_equal.
  unfold tickR. destruct (Rle_dec _ _).
  - rewrite Rabs_right by lra. field.
  - rewrite Rabs_left by lra. field.
Qed.
(** the other quantiles are compared on the logarithmic scale *)
Theorem C210_others L input target j : shaped L input target -> input_log L = true -> 1 <= j < length (aquantile L) ->
  nth j (adj_row L input target) 0%R =
  (nth j (aweight L) 0 * over_present target (fun h y => tickR (nth j (aquantile L) 0) y (nth (j * length target + h) input 0)) / INR (Nat.max 1 (presentR target)))%R.
Proof.
  intros [QL [WL [IL HQ]]] LG Hj. rewrite adj_row_nth by (auto; lia). unfold num_not_nan, presentR. f_equal. f_equal. apply over_ext. intros h y Hy.
  unfold acell. rewrite LG. destruct j as [|j]; [lia |]. assert (HQ0 := HQ (nth (S j) (aquantile L) 0%R) (nth_In _ _ (proj2 Hj))). apply pin_tickR. lra.
Qed.
Lemma tickR_nonneg q y x : (0 < q < 1)%R -> (0 <= tickR q y x)%R.
Proof. intros H. unfold tickR. destruct (Rle_dec x y); nra. Qed.
Lemma tickR_same q y : tickR q y y = 0%R.
Proof. unfold tickR. destruct (Rle_dec y y); lra. Qed.
(** no loss is negative for weights that are not, and a perfect forecast has none *)
Theorem C210_nonneg L input target j : shaped L input target -> input_log L = true -> (forall w, In w (aweight L) -> 0 <= w)%R -> j < length (aquantile L) ->
  (0 <= nth j (adj_row L input target) 0)%R.
Proof.
  intros S1 LG HW Hj. pose proof S1 as [QL [WL [IL HQ]]]. assert (N := num_posR target). unfold num_not_nan in N. fold (presentR target) in N.
  assert (W : (0 <= nth j (aweight L) 0)%R) by (apply HW; apply nth_In; lia).
  assert (Q := HQ (nth j (aquantile L) 0%R) (nth_In _ _ Hj)).
  assert (I : (0 < / INR (Nat.max 1 (presentR target)))%R) by (apply Rinv_0_lt_compat; exact N).
  destruct j as [|j].
  - rewrite C210_first by assumption. unfold Rdiv at 1. apply Rmult_le_pos; [| lra]. apply Rmult_le_pos; [exact W |]. apply over_nonneg. intros h y _.
    unfold Rdiv. pose proof (exp_pos y) as P1. pose proof (exp_pos (nth h input 0%R)) as P2. pose proof (tickR_nonneg _ (exp y) (exp (nth h input 0%R)) Q) as P3.
    apply Rmult_le_pos; [lra |]. apply Rlt_le. apply Rinv_0_lt_compat. lra.
  - rewrite C210_others by (auto; lia). unfold Rdiv. apply Rmult_le_pos; [| lra]. apply Rmult_le_pos; [exact W |]. apply over_nonneg. intros h y _. apply tickR_nonneg. exact Q.
Qed.
Theorem C210_perfect L input target j : shaped L input target -> input_log L = true -> j < length (aquantile L) ->
  (forall h y, nth_error target h = Some (Some y) -> nth (j * length target + h) input 0%R = y) -> nth j (adj_row L input target) 0%R = 0%R.
Proof.
  intros S1 LG Hj P. destruct j as [|j].
  - rewrite C210_first by assumption. rewrite over_zero; [unfold Rdiv; ring |]. intros h y Hy. cbn in P. rewrite (P h y Hy), tickR_same. unfold Rdiv. ring.
  - rewrite C210_others by (auto; lia). rewrite over_zero; [unfold Rdiv; ring |]. intros h y Hy. rewrite (P h y Hy). apply tickR_same.
Qed.
(** the hypotheses hold *)
Definition two_quantiles (lg : bool) : adjusted := {| aquantile := [1 / 2; 9 / 10]%R; aweight := [1 / 2; 1 / 2]%R; input_log := lg |}.
Example C210_case : shaped (two_quantiles true) [0; 0; 0; 0]%R [Some 1%R; None].
Proof. unfold shaped. cbn. repeat split; auto; destruct H as [<-|[<-|[]]]; lra. Qed.
(** on the original scale the forecasts of the other quantiles are compared in logarithms with a target that is not: a perfect
    forecast has a loss *)
Theorem C210_original_refuted : exists L input target j, shaped L input target /\ input_log L = false /\ j < length (aquantile L) /\
  (forall h y, nth_error target h = Some (Some y) -> nth (j * length target + h) input 0%R = y /\ 0 < y)%R /\ nth j (adj_row L input target) 0%R <> 0%R.
Proof.
  exists (two_quantiles false), [1; 1]%R, [Some 1%R], 1.
  split; [unfold shaped; cbn; repeat split; auto; destruct H as [<-|[<-|[]]]; lra |]. split; [reflexivity |]. split; [cbn; lia |]. split.
  - intros h y Hy. destruct h as [|h]; [injection Hy as <-; cbn; lra | destruct h; discriminate].
  - rewrite adj_row_nth by (cbn; lia). unfold over_present, acell, two_quantiles, pin, num_not_nan. cbn. rewrite ln_1. rewrite Rmax_left by lra. lra.
Qed.

Print Assumptions C210_first.
Print Assumptions C210_smape.
Print Assumptions C210_others.
Print Assumptions C210_nonneg.
Print Assumptions C210_perfect.
Print Assumptions C210_original_refuted.
