(** The linear and the quadratic forecaster. *)
From Coq Require Import List ZArith Reals Bool Lia Lra Arith.
From Verif Require Import OutlierModel OutlierProps HeuristicModel HeuristicSpec HeuristicProps LsqModel LsqProofs RegModel.
Import ListNotations.
Open Scope nat_scope.

(** the curve of a trend with given coefficients *)
Definition curve (m : trend) (a b c : R) (x : nat) : R :=
  match m with Linear => (a + b * INR x)%R | Quadratic => (a + b * INR x + c * INR x ^ 2)%R end.
Definition need (m : trend) : nat := match m with Linear => 2 | Quadratic => 3 end.

Definition full (m : trend) : list (nat -> R) := (fun _ => 1%R) :: features m.
Lemma feature_grows m f x : In f (features m) -> f x <> f (S x).
Proof. pose proof (pos_INR x) as PX. intros H. destruct m; cbn in H; repeat (destruct H as [<-|H]); try contradiction; rewrite S_INR; [lra|lra|]. intros E. nra. Qed.
Lemma feature_pos m f x : In f (features m) -> f (S x) <> 0%R.
Proof. pose proof (pos_INR x) as PX. intros H. destruct m; cbn in H; repeat (destruct H as [<-|H]); try contradiction; rewrite S_INR; [lra|lra|]. intros E. nra. Qed.
Lemma feature_zero m f : In f (features m) -> f 0 = 0%R.
Proof. intros H. destruct m; cbn in H; repeat (destruct H as [<-|H]); try contradiction; cbn; lra. Qed.
Lemma add_many m a n : add_constant (seq a (S (S n))) (features m) = Some (full m).
Proof.
  unfold add_constant. cbn [seq]. assert (E : existsb (nonzero_const (a :: S a :: seq (S (S a)) n)) (features m) = false).
  { destruct (existsb _ _) eqn:E; [|reflexivity]. apply existsb_exists in E as (f & Hf & E). unfold nonzero_const in E. apply andb_prop in E as [_ E]. rewrite forallb_forall in E. specialize (E (S a) ltac:(cbn; auto)). destruct (Req_EM_T (f (S a)) (f a)) as [Q|]; [|discriminate]. exfalso. apply (feature_grows m f a Hf). symmetry. exact Q. }
  rewrite E. reflexivity.
Qed.
Lemma add_zero m : add_constant [0] (features m) = Some (full m).
Proof.
  unfold add_constant. assert (E : existsb (nonzero_const [0]) (features m) = false).
  { destruct (existsb _ _) eqn:E; [|reflexivity]. apply existsb_exists in E as (f & Hf & E). unfold nonzero_const in E. apply andb_prop in E as [E _]. rewrite (feature_zero m f Hf) in E. destruct (Req_EM_T 0 0); [discriminate|lra]. }
  rewrite E. reflexivity.
Qed.
Lemma add_single m x : add_constant [S x] (features m) = Some (features m).
Proof.
  unfold add_constant. assert (E : existsb (nonzero_const [S x]) (features m) = true).
  { apply existsb_exists. exists (fun x => INR x). assert (H : In (fun x => INR x) (features m)) by (destruct m; cbn; auto). split; [exact H|]. unfold nonzero_const. cbn [forallb]. destruct (Req_EM_T (INR (S x)) 0) as [Z|_]; [exfalso; exact (feature_pos m _ x H Z)|]. destruct (Req_EM_T (INR (S x)) (INR (S x))); [reflexivity|lra]. }
  rewrite E. reflexivity.
Qed.
Definition trained (m : trend) (values : list R) : fitted :=
  {| f_cols := full m; f_data := combine (map (row_of (full m)) (seq 0 (length values))) values |}.
Lemma fit_ok m values : values <> [] -> fit m values = Some (trained m values).
Proof.
  intros N. unfold fit, trained. destruct values as [|v [|w values]]; [congruence| |]; cbn [length].
  - change (seq 0 1) with [0]. rewrite add_zero. reflexivity.
  - rewrite add_many. reflexivity.
Qed.
Lemma trained_params m values : n_params (trained m values) = need m.
Proof. destruct m; reflexivity. Qed.
Lemma trained_data m values d : In d (f_data (trained m values)) <-> exists i, i < length values /\ d = (row_of (full m) i, nth i values 0%R).
Proof.
  cbn [f_data trained]. set (l := map (row_of (full m)) (seq 0 (length values))). assert (L : length l = length values) by (unfold l; rewrite map_length, seq_length; reflexivity).
  assert (N : forall i, i < length values -> nth i (combine l values) (row_of (full m) 0, 0%R) = (row_of (full m) i, nth i values 0%R)).
  { intros i Hi. rewrite combine_nth by exact L. f_equal. unfold l. rewrite map_nth, seq_nth by exact Hi. reflexivity. }
  split.
  - intros H. apply In_nth with (d := (row_of (full m) 0, 0%R)) in H as (i & Hi & <-). rewrite combine_length, L, Nat.min_id in Hi. exists i. split; [exact Hi|apply N, Hi].
  - intros (i & Hi & ->). rewrite <- N by exact Hi. apply nth_In. rewrite combine_length, L, Nat.min_id. exact Hi.
Qed.
Lemma trained_sum m values (f : row * R -> R) : sumof f (f_data (trained m values)) = total (length values) (fun i => f (row_of (full m) i, nth i values 0%R)).
Proof.
  cbn [f_data trained]. revert f. induction values as [|v values IH] using rev_ind; intros f; [reflexivity|].
  rewrite app_length, Nat.add_1_r. rewrite seq_S, map_app. cbn [plus map]. cbn [total].
  assert (C : forall (A B : Type) (l : list A) (r : list B) x y, length l = length r -> combine (l ++ [x]) (r ++ [y]) = combine l r ++ [(x, y)]) by (induction l as [|a l IHl]; intros [|b r] x y L; try discriminate; [reflexivity|]; cbn; f_equal; apply IHl; injection L; auto).
  rewrite C by (rewrite map_length, seq_length; reflexivity). rewrite sumof_app, IH. f_equal.
  - apply total_ext. intros i Hi. rewrite app_nth1 by exact Hi. reflexivity.
  - cbn. rewrite app_nth2, Nat.sub_diag by lia. cbn. ring.
Qed.
Lemma dot_full m p x : dot (need m) p (row_of (full m) x) = curve m (p 0) (p 1) (p 2) x.
Proof. destruct m; unfold dot, curve; cbn -[INR]; ring. Qed.
Lemma independent_full m values : need m <= length values -> independent (need m) (f_data (trained m values)).
Proof.
  intros L p H. assert (V : forall x, x < need m -> curve m (p 0) (p 1) (p 2) x = 0%R) by (intros x Hx; rewrite <- dot_full; apply (H (row_of (full m) x, nth x values 0%R)); apply trained_data; exists x; split; [lia|reflexivity]).
  assert (V0 := V 0). assert (V1 := V 1). assert (V2 := V 2). destruct m; cbn in V0, V1, V2, L |- *; intros i Hi.
  - specialize (V0 ltac:(lia)). specialize (V1 ltac:(lia)). destruct i as [|[|i]]; [lra|lra|lia].
  - specialize (V0 ltac:(lia)). specialize (V1 ltac:(lia)). specialize (V2 ltac:(lia)). destruct i as [|[|[|i]]]; [lra|lra|lra|lia].
Qed.

Section Grid.
Variable roll next : Z -> Z.
Hypothesis next_later : forall t, (t < next t)%Z.
Variable tq : R -> nat -> R.
Notation predict := (RegModel.predict roll next tq).
Definition default : line := {| l_time := 0; l_fcst := 0; l_lower := None; l_upper := None |}.
(** the number of the observation a row of the answer is about *)
Definition index (history : bool) (n i : nat) : nat := if history then i else n + i.
Definition stamp (history : bool) (times : list Z) (last : Z) (i : nat) : Z :=
  if history then (if i <? length times then nth i times 0%Z else after next (S (i - length times)) last) else after next (S i) last.

Lemma last_ok times last : In last times -> (forall t, In t times -> (t <= last)%Z) -> zmax times = last.
Proof. intros IL ML. assert (NE : times <> []) by (destruct times; [destruct IL|discriminate]). destruct (zmax_spec _ NE) as [A B]. specialize (ML _ A). specialize (B _ IL). lia. Qed.
Lemma predict_rows m alpha history steps times values last :
  length times = length values -> In last times -> (forall t, In t times -> (t <= last)%Z) -> roll last = last -> (history = true \/ 2 <= steps) ->
  exists rows, predict m (fit m values) alpha history steps times = Some rows /\ length rows = (if history then length times + steps else steps) /\
    forall i, i < length rows -> nth i rows default = forecast_line tq (trained m values) (full m) alpha (stamp history times last i, index history (length times) i).
Proof.
  intros LT IL ML RL HS. assert (NE : times <> []) by (destruct times; [destruct IL|discriminate]). assert (NV : values <> []) by (intros ->; destruct times; [congruence|discriminate]).
  unfold RegModel.predict. rewrite fit_ok by exact NV. set (xs := if history then seq 0 (length times + steps) else seq (length times) steps).
  assert (AX : add_constant xs (features m) = Some (full m)).
  { unfold xs. destruct history.
    - destruct (length times + steps) as [|[|n]] eqn:E; [destruct times; [congruence|discriminate]|apply add_zero|apply add_many].
    - destruct HS as [HS|HS]; [discriminate|]. destruct steps as [|[|n]]; [lia|lia|apply add_many]. }
  cbv zeta. rewrite AX. rewrite trained_params. replace (length (full m) =? need m) with true by (destruct m; reflexivity). cbn [negb].
  rewrite (last_ok _ _ IL ML), future_on by assumption. set (fut := map _ (seq 0 steps)). assert (LF : length fut = steps) by (unfold fut; rewrite map_length, seq_length; reflexivity).
  assert (LX : length xs = if history then length times + steps else steps) by (unfold xs; destruct history; apply seq_length).
  set (dates := if history then times ++ fut else fut). assert (LD : length dates = length xs) by (rewrite LX; unfold dates; destruct history; rewrite ?app_length, LF; reflexivity).
  rewrite LD, Nat.eqb_refl. eexists. split; [reflexivity|]. rewrite map_length, combine_length, LD, Nat.min_id. split; [exact LX|]. intros i Hi.
  rewrite (nth_indep _ default (forecast_line tq (trained m values) (full m) alpha (0%Z, 0))) by (rewrite map_length, combine_length, LD, Nat.min_id; exact Hi). rewrite map_nth, combine_nth by exact LD. f_equal. f_equal.
  - unfold dates, stamp. rewrite LX in Hi. unfold fut. destruct history; [|rewrite nth_map_seq by exact Hi; reflexivity]. destruct (Nat.ltb_spec i (length times)); [apply app_nth1; assumption|]. rewrite app_nth2 by lia. rewrite nth_map_seq by lia. reflexivity.
  - unfold xs, index. rewrite LX in Hi. destruct history; rewrite seq_nth by exact Hi; reflexivity.
Qed.

(** ** C169: the answer to predict *)
(** C169 (partial): with history, or for two and more steps, a fitted model answers with one row for every
    observation asked for and every step, at their times; the last time has to be on the grid of the frequency. *)
Theorem C169_rows_partial : forall m alpha history steps times values last,
  length times = length values -> In last times -> (forall t, In t times -> (t <= last)%Z) -> roll last = last -> (history = true \/ 2 <= steps) ->
  exists rows, predict m (fit m values) alpha history steps times = Some rows /\
    map l_time rows = (if history then times else []) ++ map (fun i => after next (S i) last) (seq 0 steps).
Proof.
  intros m alpha history steps times values last LT IL ML RL HS. destruct (predict_rows m alpha history steps times values last LT IL ML RL HS) as (rows & E & L & A). exists rows. split; [exact E|].
  apply (nth_ext _ _ 0%Z 0%Z); [rewrite map_length, app_length, map_length, seq_length, L; destruct history; reflexivity|]. intros i Hi. rewrite map_length in Hi. change 0%Z with (l_time default) at 1. rewrite map_nth, A by exact Hi. cbn [l_time forecast_line fst]. rewrite L in Hi. unfold stamp. destruct history.
  - destruct (Nat.ltb_spec i (length times)); [rewrite app_nth1 by assumption; reflexivity|]. rewrite app_nth2, nth_map_seq by lia. reflexivity.
  - cbn [app]. rewrite nth_map_seq by exact Hi. reflexivity.
Qed.
(** A single step cannot be forecast: statsmodels takes the one row for a constant column, does not add the constant,
    and the shapes no longer match. Whatever the data, predict(steps=1) raises after fit. *)
Theorem C169_one_step_refuted : forall m alpha times values, times <> [] -> length times = length values ->
  predict m (fit m values) alpha false 1 times = None.
Proof.
  intros m alpha times values NE LT. unfold RegModel.predict. rewrite fit_ok by (intros ->; destruct times; [congruence|discriminate]). cbn [seq]. destruct times as [|t times]; [congruence|]. cbn [length]. cbv zeta. change (seq (S (length times)) 1) with [S (length times)]. rewrite add_single, trained_params. destruct m; reflexivity.
Qed.
(** Nor can anything be forecast on a grid that does not contain the last time: one date too many comes out. *)
Theorem C169_off_grid_refuted : forall m alpha history steps times values last,
  length times = length values -> In last times -> (forall t, In t times -> (t <= last)%Z) -> (last < roll last)%Z ->
  predict m (fit m values) alpha history steps times = None.
Proof.
  intros m alpha history steps times values last LT IL ML RL. unfold RegModel.predict. destruct (fit m values) as [f|]; [|reflexivity]. cbv zeta. rewrite (last_ok _ _ IL ML). pose proof (future_off roll next next_later last steps RL) as LF.
  destruct history.
  - destruct (add_constant _ _) as [cols|]; [|reflexivity]. destruct (negb _); [reflexivity|]. rewrite app_length, LF, seq_length. destruct (Nat.eqb_spec (length times + S steps) (length times + steps)); [lia|reflexivity].
  - destruct (add_constant _ _) as [cols|]; [|reflexivity]. destruct (negb _); [reflexivity|]. rewrite LF, seq_length. destruct (Nat.eqb_spec (S steps) steps); [lia|reflexivity].
Qed.

(** ** C170: least squares *)
(** The values returned for the history are at least as close to the observations, in the sum of squares, as those of
    any other line (parabola). *)
Theorem C170_least : forall m alpha steps times values last rows,
  length times = length values -> In last times -> (forall t, In t times -> (t <= last)%Z) -> roll last = last ->
  predict m (fit m values) alpha true steps times = Some rows ->
  forall a b c, (total (length values) (fun i => Rsqr (nth i values 0 - l_fcst (nth i rows default)))
                 <= total (length values) (fun i => Rsqr (nth i values 0 - curve m a b c i)))%R.
Proof.
  intros m alpha steps times values last rows LT IL ML RL E a b c. destruct (predict_rows m alpha true steps times values last LT IL ML RL (or_introl eq_refl)) as (rows' & E' & L & A). rewrite E in E'. injection E' as <-.
  pose proof (beta_least (need m) (f_data (trained m values)) (fun i => match i with 0 => a | 1 => b | _ => c end)) as B. unfold ssr in B. rewrite !trained_sum in B. cbn [fst snd] in B.
  replace (total (length values) (fun i => Rsqr (nth i values 0 - l_fcst (nth i rows default)))%R) with (total (length values) (fun i => (nth i values 0 - dot (need m) (beta (need m) (f_data (trained m values))) (row_of (full m) i)) * (nth i values 0 - dot (need m) (beta (need m) (f_data (trained m values))) (row_of (full m) i)))%R).
  - eapply Rle_trans; [exact B|]. apply Req_le, total_ext. intros i _. rewrite dot_full. reflexivity.
  - apply total_ext. intros i Hi. rewrite A by lia. cbn [l_fcst forecast_line fst snd index]. rewrite trained_params. reflexivity.
Qed.

(** ** C171: what lies on the curve *)
(** Observations on a line (parabola) are continued along it: from two (three) observations on, every row of the answer
    is the value of the curve at its number. *)
Theorem C171_exact : forall m alpha history steps times values last rows a b c,
  length times = length values -> In last times -> (forall t, In t times -> (t <= last)%Z) -> roll last = last ->
  predict m (fit m values) alpha history steps times = Some rows ->
  need m <= length values -> (forall i, i < length values -> nth i values 0%R = curve m a b c i) ->
  forall i, i < length rows -> l_fcst (nth i rows default) = curve m a b c (if history then i else length values + i).
Proof.
  intros m alpha history steps times values last rows a b c LT IL ML RL E NM HV i Hi.
  assert (HS : history = true \/ 2 <= steps).
  { destruct history; [left; reflexivity|right]. destruct steps as [|[|n]]; [exfalso; unfold RegModel.predict in E; cbn in E; destruct (fit m values); discriminate|exfalso|lia]. rewrite C169_one_step_refuted in E; [discriminate|destruct times; [destruct IL|discriminate]|exact LT]. }
  destruct (predict_rows m alpha history steps times values last LT IL ML RL HS) as (rows' & E' & L & A). rewrite E in E'. injection E' as <-. rewrite A by exact Hi. cbn [l_fcst forecast_line snd]. rewrite trained_params.
  set (p := fun i => match i with 0 => a | 1 => b | _ => c end). rewrite (dot_ext (need m) _ p).
  - rewrite dot_full. unfold index. rewrite LT. reflexivity.
  - apply beta_exact; [apply independent_full, NM|]. intros d Hd. apply trained_data in Hd as (x & Hx & ->). cbn [fst snd]. rewrite dot_full. apply HV, Hx.
Qed.
End Grid.

Print Assumptions C169_rows_partial.
Print Assumptions C169_one_step_refuted.
Print Assumptions C169_off_grid_refuted.
Print Assumptions C170_least.
Print Assumptions C171_exact.
