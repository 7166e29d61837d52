(** C289: what the LSTM forecaster is trained on and what it forecasts, for every network and optimizer. *)
From Coq Require Import Reals Lra.
From Coq Require Import List ZArith Bool Lia.
From Verif Require Import PySlice OutlierModel OutlierProps HeuristicModel HeuristicSpec HeuristicProps TsfShapeModel TsfHurstProps LstmModel.
Import ListNotations.
Open Scope R_scope.

(** ** Specification *)
Definition least (x : list R) (lo : R) : Prop := In lo x /\ forall v, In v x -> lo <= v.
Definition greatest (x : list R) (hi : R) : Prop := In hi x /\ forall v, In v x -> v <= hi.
(** the range of the values; 1 for a constant series *)
Definition width (lo hi : R) : R := if Req_EM_T lo hi then 1 else hi - lo.
(** values of [lo, hi] brought to [-1, 1] *)
Definition normal (lo hi v : R) : R := 2 * (v - lo) / width lo hi - 1.
Definition back (lo hi s : R) : R := lo + (s + 1) / 2 * width lo hi.
(** the training examples: each run of w values in order, with the value that follows it *)
Definition examples (w : nat) (x : list R) (E : list (list R * list R)) : Prop :=
  length E = (length x - w)%nat /\
  forall i, (i < length E)%nat -> exists s, nth i E ([], []) = (s, [nth (i + w) x 0]) /\ length s = w /\ forall j, (j < w)%nat -> nth j s 0 = nth (i + j) x 0.
(** the last w entries *)
Definition latest (w : nat) (l : list R) : list R := skipn (length l - w) l.
(** the last time of the series *)
Definition last_time (times : list Z) (last : Z) : Prop := In last times /\ forall t, In t times -> (t <= last)%Z.

(** ** Scaling *)
Lemma fit_scaler_some x : x <> [] -> exists lo hi, least x lo /\ greatest x hi /\
  fit_scaler x = Some (Scaler (2 / width lo hi) (-1 - lo * (2 / width lo hi))).
Proof.
  intros N. exists (rmin_list x), (rmax_list x). split; [apply (rmin_spec x N)|]. split; [apply (rmax_spec x N)|].
  unfold fit_scaler. destruct x as [|a x]; [congruence|]. replace (handle_zero _) with (width (rmin_list (a :: x)) (rmax_list (a :: x))).
  - replace (1 - -1) with 2 by lra. reflexivity.
  - unfold width, handle_zero. destruct (Req_EM_T _ _), (Req_EM_T _ _); lra.
Qed.
Lemma width_pos x lo hi : least x lo -> greatest x hi -> 0 < width lo hi.
Proof. intros [I _] [_ B]. unfold width. specialize (B _ I). destruct (Req_EM_T lo hi); lra. Qed.
Lemma least_unique x a b : least x a -> least x b -> a = b.
Proof. intros [I A] [J B]. specialize (A _ J). specialize (B _ I). lra. Qed.
Lemma greatest_unique x a b : greatest x a -> greatest x b -> a = b.
Proof. intros [I A] [J B]. specialize (A _ J). specialize (B _ I). lra. Qed.
Lemma transform_normal lo hi v : 0 < width lo hi -> transform (Scaler (2 / width lo hi) (-1 - lo * (2 / width lo hi))) v = normal lo hi v.
Proof. intros P. unfold transform, normal. cbn. field. lra. Qed.
Lemma inverse_back lo hi v : 0 < width lo hi -> inverse_transform (Scaler (2 / width lo hi) (-1 - lo * (2 / width lo hi))) v = back lo hi v.
Proof. intros P. unfold inverse_transform, back. cbn. field. lra. Qed.

(** ** Windows *)
Lemma nth_skipn0 (x : list R) a j : nth j (skipn a x) 0 = nth (a + j) x 0.
Proof. revert x j. induction a as [|a IH]; intros x j; [reflexivity|]. destruct x as [|v x]; cbn; [destruct j; reflexivity|apply IH]. Qed.
Lemma nth_firstn0 (x : list R) k j : (j < k)%nat -> nth j (firstn k x) 0 = nth j x 0.
Proof. revert x j. induction k as [|k IH]; intros x j Hj; [lia|]. destruct x as [|v x]; [destruct j; reflexivity|]. destruct j; cbn; [reflexivity|apply IH; lia]. Qed.
Lemma slice_between (x : list R) a b : (a <= b <= length x)%nat -> py_slice x (Some (Z.of_nat a)) (Some (Z.of_nat b)) = firstn (b - a) (skipn a x).
Proof. intros H. rewrite py_slice_in by lia. rewrite Nat2Z.id. f_equal. lia. Qed.
Lemma pairs_examples w x : examples w x (pairs w x).
Proof.
  unfold examples, pairs. rewrite map_length, seq_length. split; [reflexivity|]. intros i Hi.
  exists (firstn w (skipn i x)). 
  set (f := fun i0 : nat => (py_slice x (Some (Z.of_nat i0)) (Some (Z.of_nat (i0 + w))), py_slice x (Some (Z.of_nat (i0 + w))) (Some (Z.of_nat (i0 + w + 1))))).
  rewrite (nth_indep _ ([], []) (f 0%nat)) by (rewrite map_length, seq_length; exact Hi). rewrite map_nth, seq_nth by exact Hi. cbn [Nat.add]. unfold f.
  rewrite !slice_between by lia. split; [|split].
  - f_equal; [f_equal; lia|]. replace (i + w + 1 - (i + w))%nat with 1%nat by lia.
    assert (length (skipn (i + w) x) = length x - (i + w))%nat as L by apply skipn_length.
    rewrite <- (Nat.add_0_r (i + w)), <- nth_skipn0. rewrite Nat.add_0_r. destruct (skipn (i + w) x) as [|v t]; [cbn in L; lia|reflexivity].
  - rewrite firstn_length, skipn_length. lia.
  - intros j Hj. rewrite nth_firstn0 by exact Hj. apply nth_skipn0.
Qed.
Lemma slice_latest (x : list R) w : (0 < w)%nat -> py_slice x (Some (- Z.of_nat w)%Z) None = latest w x.
Proof.
  intros P. unfold py_slice, latest. set (n := length x).
  assert (Z.to_nat (norm_idx (Z.of_nat n) (- Z.of_nat w)) = n - w)%nat as E by (unfold norm_idx; destruct (Z.ltb_spec (- Z.of_nat w) 0); lia).
  rewrite E. apply firstn_all2. rewrite skipn_length. fold n.
  assert (norm_idx (Z.of_nat n) (- Z.of_nat w) = Z.of_nat (n - w)) as -> by (pose proof (norm_idx_bounds (Z.of_nat n) (- Z.of_nat w)); lia). lia.
Qed.
Lemma slice_from (x : list R) w : (w <= length x)%nat -> py_slice x (Some (Z.of_nat w)) None = skipn w x.
Proof.
  intros P. unfold py_slice. rewrite norm_idx_in by lia. rewrite Nat2Z.id. apply firstn_all2. rewrite skipn_length. lia.
Qed.
Lemma slice_from_short (x : list R) w : (length x <= w)%nat -> py_slice x (Some (Z.of_nat w)) None = [].
Proof. intros P. unfold py_slice. set (n := length x) in *. assert (norm_idx (Z.of_nat n) (Z.of_nat w) = Z.of_nat n) as -> by (unfold norm_idx; destruct (Z.ltb_spec (Z.of_nat w) 0); lia). rewrite Z.sub_diag. reflexivity. Qed.
Lemma latest_length w l : (w <= length l)%nat -> length (latest w l) = w.
Proof. intros H. unfold latest. rewrite skipn_length. lia. Qed.
Lemma skip_app_le (a b : list R) k : (k <= length a)%nat -> skipn k (a ++ b) = skipn k a ++ b.
Proof. intros H. rewrite skipn_app. replace (k - length a)%nat with 0%nat by lia. reflexivity. Qed.
Lemma skipn_add {A} (l : list A) a b : skipn a (skipn b l) = skipn (b + a) l.
Proof. revert l. induction b as [|b IH]; intros l; [reflexivity|]. destruct l; cbn; [apply skipn_nil|apply IH]. Qed.
Lemma latest_app w x g : (w <= length x)%nat -> latest w (latest w x ++ g) = latest w (x ++ g).
Proof.
  intros H. unfold latest at 1 3. rewrite !app_length, (latest_length w x H). unfold latest.
  replace (length x + length g - w)%nat with ((length x - w) + length g)%nat by lia. rewrite <- skipn_add, (skip_app_le x g) by lia.
  f_equal. lia.
Qed.

(** ** Training *)
Definition learn {W H : Type} (zero : H) (update : W -> H -> list R -> list R -> W * H) (w : W) (e : list R * list R) : W := fst (update w zero (fst e) (snd e)).
Lemma train_epoch_ok {W H : Type} (zero : H) (update : W -> H -> list R -> list R -> W * H) ps : (forall p, In p ps -> fst p <> []) -> forall n : net W H, exists h, train_epoch zero update ps n = Some (Net (fold_left (learn zero update) ps (weights n)) h).
Proof.
  induction ps as [|p ps IH]; intros A [w h]; [exists h; reflexivity|]. cbn [train_epoch]. unfold train_pair.
  pose proof (A p (or_introl eq_refl)) as N. destruct (fst p) as [|v s] eqn:E; [congruence|].
  cbn [weights fold_left]. unfold learn at 2. rewrite E. destruct (update w zero (v :: s) (snd p)) as [w' h'] eqn:U. cbn [fst].
  destruct (IH (fun q Hq => A q (or_intror Hq)) (Net w' h')) as [h'' ->]. exists h''. reflexivity.
Qed.
Lemma train_ok {W H : Type} (zero : H) (update : W -> H -> list R -> list R -> W * H) ps : ps <> [] -> (forall p, In p ps -> fst p <> []) -> forall epochs i (n : net W H),
  exists h, train zero update ps epochs i n = Some (Net (fold_left (learn zero update) (concat (repeat ps epochs)) (weights n)) h).
Proof.
  intros N A. induction epochs as [|e IH]; intros i [w h]; [exists h; reflexivity|]. cbn [train].
  destruct (train_epoch_ok zero update ps A (Net w h)) as [h' ->]. replace (bound ps) with true by (destruct ps; [congruence|reflexivity]). rewrite andb_false_r.
  cbn [weights repeat concat]. rewrite fold_left_app. destruct (IH (S i) (Net (fold_left (learn zero update) ps w) h')) as [h'' ->]. exists h''. reflexivity.
Qed.
Lemma train_none {W H : Type} (zero : H) (update : W -> H -> list R -> list R -> W * H) i epochs (n : net W H) : (2 <= i + epochs)%nat -> (i <= 1)%nat -> train zero update [] epochs i n = None.
Proof.
  revert i n. induction epochs as [|e IH]; intros i n He Hi; [lia|]. cbn [train train_epoch bound negb]. rewrite andb_true_r.
  destruct i as [|[|i]]; [|reflexivity|lia]. change (0 mod 25 =? 1)%nat with false. cbn. apply IH; lia.
Qed.
(** ** Rolling the network forward *)
Fixpoint gen {W H : Type} (zero : H) (fwd : W -> H -> list R -> R * H) (w : W) (window steps : nat) (inputs : list R) : list R :=
  match steps with
  | O => []
  | S k => let y := fst (fwd w zero (latest window inputs)) in y :: gen zero fwd w window k (inputs ++ [y])
  end.
Lemma gen_length {W H : Type} (zero : H) (fwd : W -> H -> list R -> R * H) w window steps : forall inputs, length (gen zero fwd w window steps inputs) = steps.
Proof. induction steps as [|k IH]; intros inputs; [reflexivity|]. cbn. rewrite IH. reflexivity. Qed.
Lemma gen_nth {W H : Type} (zero : H) (fwd : W -> H -> list R -> R * H) w window steps : forall inputs i, (i < steps)%nat ->
  nth i (gen zero fwd w window steps inputs) 0 = fst (fwd w zero (latest window (inputs ++ firstn i (gen zero fwd w window steps inputs)))).
Proof.
  induction steps as [|k IH]; intros inputs i Hi; [lia|]. cbn [gen]. destruct i as [|i].
  - cbn. rewrite app_nil_r. reflexivity.
  - cbn [nth firstn]. rewrite IH by lia. rewrite <- app_assoc. reflexivity.
Qed.
Lemma gen_prefix {W H : Type} (zero : H) (fwd : W -> H -> list R -> R * H) w window k j : forall inputs, firstn k (gen zero fwd w window (k + j) inputs) = gen zero fwd w window k inputs.
Proof. induction k as [|k IH]; intros inputs; [reflexivity|]. cbn. rewrite IH. reflexivity. Qed.
Lemma gen_latest {W H : Type} (zero : H) (fwd : W -> H -> list R -> R * H) w window steps : forall x g, (window <= length x)%nat -> gen zero fwd w window steps (latest window x ++ g) = gen zero fwd w window steps (x ++ g).
Proof.
  induction steps as [|k IH]; intros x g L; [reflexivity|]. cbn. rewrite latest_app by exact L. f_equal. rewrite <- !app_assoc. apply IH, L.
Qed.
Lemma roll_out_gen {W H : Type} (zero : H) (fwd : W -> H -> list R -> R * H) window steps : (0 < window)%nat -> forall (n : net W H) inputs, inputs <> [] ->
  exists h, roll_out zero fwd window steps n inputs = Some (inputs ++ gen zero fwd (weights n) window steps inputs, Net (weights n) h).
Proof.
  intros P. induction steps as [|k IH]; intros [w h] inputs N; [exists h; cbn; rewrite app_nil_r; reflexivity|].
  cbn [roll_out gen]. rewrite slice_latest by exact P.
  assert (latest window inputs <> []) as NL.
  { intros E. apply (f_equal (@length R)) in E. unfold latest in E. rewrite skipn_length in E. destruct inputs; [congruence|cbn [length] in E; lia]. }
  cbn [weights]. set (s := latest window inputs) in *. destruct s as [|v t] eqn:Es; [congruence|]. rewrite <- Es.
  destruct (fwd w zero s) as [y h'] eqn:F. cbn [fst].
  destruct (IH (Net w h') (inputs ++ [y]) ltac:(destruct inputs; discriminate)) as [h'' E]. rewrite E. exists h''. cbn [weights]. rewrite <- app_assoc. reflexivity.
Qed.

Lemma map_nth_in {A} (f : A -> R) (l : list A) i (d : A) : (i < length l)%nat -> nth i (map f l) 0 = f (nth i l d).
Proof. intros L. rewrite (nth_indep _ 0 (f d)) by (rewrite map_length; exact L). apply map_nth. Qed.

Lemma nth_seq_map {A} (f : nat -> A) k i d : (i < k)%nat -> nth i (map f (seq 0 k)) d = f i.
Proof. intros Hi. rewrite (nth_indep _ d (f 0%nat)) by (rewrite map_length, seq_length; exact Hi). rewrite map_nth, seq_nth by exact Hi. reflexivity. Qed.

(** ** C289 *)
(** C289: for a series longer than the window, fit succeeds.  The data are brought linearly to [-1, 1], the least value to -1
    and the greatest to 1 unless all are equal; a new network is trained on every run of [time_window] values with its
    successor, in order, num_epochs times, starting each time from the hidden state of zeros; nothing else matters, not even an
    earlier fit. *)
Theorem C289_training : forall W H (fresh : net W H) zero update p values m,
  (0 < time_window p < length values)%nat ->
  exists m' x n lo hi E, fit fresh zero update p values m = (true, m') /\
    l_normalized m' = Some x /\ l_net m' = Some n /\ least values lo /\ greatest values hi /\
    length x = length values /\ (forall i, (i < length values)%nat -> nth i x 0 = normal lo hi (nth i values 0) /\ -1 <= nth i x 0 <= 1) /\
    (lo < hi -> In (-1) x /\ In 1 x) /\ (lo = hi -> forall v, In v x -> v = -1) /\
    examples (time_window p) x E /\
    weights n = fold_left (fun w e => fst (update w zero (fst e) (snd e))) (concat (repeat E (num_epochs p))) (weights fresh).
Proof.
  intros W H fresh zero update p values m Hw. assert (values <> []) as N by (intros ->; cbn in Hw; lia).
  destruct (fit_scaler_some values N) as (lo & hi & Lo & Hi & E). pose proof (width_pos _ _ _ Lo Hi) as P.
  set (x := map (transform (Scaler (2 / width lo hi) (-1 - lo * (2 / width lo hi)))) values).
  assert (x = map (normal lo hi) values) as Ex by (apply map_ext; intros v; apply transform_normal, P).
  assert (length x = length values) as Lx by apply map_length.
  destruct (pairs_examples (time_window p) x) as [PL PE].
  assert (pairs (time_window p) x <> []) as PN by (intros Z; rewrite Z in PL; cbn in PL; lia).
  assert (forall q, In q (pairs (time_window p) x) -> fst q <> []) as PF.
  { intros q Hq. apply In_nth with (d := ([], [])) in Hq as (i & Hi' & <-). destruct (PE i Hi') as (s & -> & Ls & _). intros Z. cbn in Z. subst s. cbn in Ls. lia. }
  destruct (train_ok zero update _ PN PF (num_epochs p) 0 fresh) as [h T].
  assert (forall v, In v values -> -1 <= normal lo hi v <= 1) as B.
  { intros v Hv. destruct Lo as [Il Al], Hi as [Ih Ah]. specialize (Al v Hv). specialize (Ah v Hv). unfold normal. unfold width in *. destruct (Req_EM_T lo hi) as [e|ne].
    - replace (v - lo) with 0 by lra. lra.
    - assert (0 <= (v - lo) / (hi - lo) <= 1) as Q; [|unfold Rdiv in *; rewrite Rmult_assoc; lra].
      split; [apply Rmult_le_pos; [lra|left; apply Rinv_0_lt_compat; lra]|]. apply Rmult_le_reg_r with (hi - lo); [lra|]. unfold Rdiv. rewrite Rmult_assoc, Rinv_l by lra. lra. }
  match type of T with _ = Some ?n => exists (Lstm (Some x) (Some (Scaler (2 / width lo hi) (-1 - lo * (2 / width lo hi)))) (Some n)), x, n, lo, hi, (pairs (time_window p) x) end.
  split; [unfold fit; rewrite E; fold x; rewrite T; reflexivity|]. split; [reflexivity|]. split; [reflexivity|].
  refine (conj Lo (conj Hi (conj Lx (conj _ (conj _ (conj _ (conj (conj PL PE) eq_refl))))))).
  - intros i Hi'. rewrite Ex, (map_nth_in _ _ _ 0) by exact Hi'. split; [reflexivity|]. apply B. apply nth_In. exact Hi'.
  - intros LH. rewrite Ex. split; apply in_map_iff.
    + exists lo. split; [|apply Lo]. unfold normal. replace (lo - lo) with 0 by lra. lra.
    + exists hi. split; [|apply Hi]. unfold normal, width. destruct (Req_EM_T lo hi); [lra|]. field. lra.
  - intros LH v Hv. rewrite Ex in Hv. apply in_map_iff in Hv as (u & <- & Hu). unfold normal.
      destruct Lo as [_ Al], Hi as [_ Ah]. specialize (Al u Hu). specialize (Ah u Hu). replace (u - lo) with 0 by lra. lra.
Qed.

Lemma combine_seq_from {A B} (a : nat -> A) (f : R -> B) (g : list R) : forall s,
  combine (map a (seq s (length g))) (map f g) = map (fun i => (a i, f (nth (i - s) g 0))) (seq s (length g)).
Proof.
  induction g as [|y g IH]; intros s; [reflexivity|]. cbn [length seq map combine]. rewrite Nat.sub_diag. f_equal. rewrite IH. apply map_ext_in.
  intros i Hi. apply in_seq in Hi. replace (i - s)%nat with (S (i - S s)) by lia. reflexivity.
Qed.
Lemma combine_seq {A B} (a : nat -> A) (f : R -> B) (g : list R) :
  combine (map a (seq 0 (length g))) (map f g) = map (fun i => (a i, f (nth i g 0))) (seq 0 (length g)).
Proof. rewrite combine_seq_from. apply map_ext. intros i. rewrite Nat.sub_0_r. reflexivity. Qed.
Lemma predict_gen W H (roll next : Z -> Z) (zero : H) (fwd : W -> H -> list R -> R * H) p times last steps (m : lstm W H) x lo hi n :
  (forall t, (t < next t)%Z) -> last_time times last -> roll last = last ->
  l_normalized m = Some x -> l_scaler m = Some (Scaler (2 / width lo hi) (-1 - lo * (2 / width lo hi))) -> 0 < width lo hi -> l_net m = Some n ->
  (0 < time_window p <= length x)%nat ->
  exists h, predict roll next zero fwd p times steps m =
    Some (map (fun i => let f := back lo hi (nth i (gen zero fwd (weights n) (time_window p) steps x) 0) in
                        Row (after next (S i) last) f (f * (95 / 100)) (f * (105 / 100))) (seq 0 steps),
          Lstm (Some x) (l_scaler m) (Some (Net (weights n) h))).
Proof.
  intros NL [IL ML] RL EX ES WP EN Hw. unfold predict. rewrite EN, EX, ES. rewrite slice_latest by lia.
  assert (latest (time_window p) x <> []) as NE by (intros Z; apply (f_equal (@length R)) in Z; rewrite latest_length in Z by lia; cbn in Z; lia).
  destruct (roll_out_gen zero fwd (time_window p) steps ltac:(lia) n (latest (time_window p) x) NE) as [h ->].
  assert (zmax times = last) as ->.
  { assert (times <> []) as NT by (intros ->; destruct IL). destruct (zmax_spec times NT) as [A B]. specialize (B _ IL). specialize (ML _ A). lia. }
  rewrite (future_on roll next NL) by exact RL.
  rewrite slice_from by (rewrite app_length, latest_length; lia).
  rewrite skip_app_le, skipn_all2, app_nil_l by (rewrite latest_length; lia).
  rewrite <- (app_nil_r (latest _ x)), gen_latest, app_nil_r by lia.
  set (g := gen zero fwd (weights n) (time_window p) steps x).
  assert (length g = steps) as Lg by apply gen_length.
  rewrite !map_length, seq_length, Lg, Nat.eqb_refl. exists h. rewrite <- Lg at 1. rewrite combine_seq, Lg, map_map.
  apply (f_equal Some). apply f_equal2; [|reflexivity]. apply map_ext. intros i. cbn [fst snd]. rewrite inverse_back by exact WP. reflexivity.
Qed.

(** C289: after a successful fit of a series that is not shorter than the window, predict answers with [steps] rows at the
    times that follow the last one.  Each forecast is what the network, started from the hidden state of zeros, gives for the
    last [time_window] entries of the scaled data and the forecasts before it, brought back to the scale of the data. *)
Theorem C289_forecast : forall W H (fresh : net W H) zero update fwd roll next p values m0 m times last steps,
  (forall t, (t < next t)%Z) -> last_time times last -> roll last = last -> (0 < time_window p <= length values)%nat ->
  fit fresh zero update p values m0 = (true, m) ->
  exists rows m' n x lo hi s, predict roll next zero fwd p times steps m = Some (rows, m') /\
    l_net m = Some n /\ l_normalized m = Some x /\ least values lo /\ greatest values hi /\
    length rows = steps /\ length s = steps /\
    forall i d, (i < steps)%nat ->
      nth i s 0 = fst (fwd (weights n) zero (latest (time_window p) (x ++ firstn i s))) /\
      r_time (nth i rows d) = after next (S i) last /\ r_fcst (nth i rows d) = back lo hi (nth i s 0).
Proof.
  intros W H fresh zero update fwd roll next p values m0 m times last steps NL LT RL Hw F.
  assert (values <> []) as N by (intros ->; cbn in Hw; lia).
  destruct (fit_scaler_some values N) as (lo & hi & Lo & Hi & E). pose proof (width_pos _ _ _ Lo Hi) as P.
  unfold fit in F. rewrite E in F. set (x := map _ values) in F. destruct (train _ _ _ _ _ _) as [n|] eqn:T; [|discriminate].
  injection F as <-. assert (length x = length values) as Lx by apply map_length.
  destruct (predict_gen W H roll next zero fwd p times last steps (Lstm (Some x) (Some (Scaler (2 / width lo hi) (-1 - lo * (2 / width lo hi)))) (Some n)) x lo hi n NL LT RL eq_refl eq_refl P eq_refl ltac:(lia)) as [h Q].
  eexists _, _, n, x, lo, hi, (gen zero fwd (weights n) (time_window p) steps x). split; [exact Q|].
  split; [reflexivity|]. split; [reflexivity|]. split; [exact Lo|]. split; [exact Hi|]. rewrite map_length, seq_length, gen_length.
  split; [reflexivity|]. split; [reflexivity|]. intros i d Hi'. split; [apply gen_nth, Hi'|].
  rewrite (nth_seq_map _ steps i d Hi').
  split; reflexivity.
Qed.
(** C289: a later call gives the same forecasts, and a longer one continues them. *)
Theorem C289_again : forall W H (fresh : net W H) zero update fwd roll next p values m0 m times last steps more rows m',
  (forall t, (t < next t)%Z) -> last_time times last -> roll last = last -> (0 < time_window p <= length values)%nat ->
  fit fresh zero update p values m0 = (true, m) -> predict roll next zero fwd p times steps m = Some (rows, m') ->
  exists rows' m'', predict roll next zero fwd p times (steps + more) m' = Some (rows', m'') /\ firstn steps rows' = rows.
Proof.
  intros W H fresh zero update fwd roll next p values m0 m times last steps more rows m' NL LT RL Hw F Q.
  assert (values <> []) as N by (intros ->; cbn in Hw; lia).
  destruct (fit_scaler_some values N) as (lo & hi & Lo & Hi & E). pose proof (width_pos _ _ _ Lo Hi) as P.
  unfold fit in F. rewrite E in F. set (x := map _ values) in F. destruct (train _ _ _ _ _ _) as [n|] eqn:T; [|discriminate].
  injection F as <-. assert (length x = length values) as Lx by apply map_length.
  destruct (predict_gen W H roll next zero fwd p times last steps (Lstm (Some x) (Some (Scaler (2 / width lo hi) (-1 - lo * (2 / width lo hi)))) (Some n)) x lo hi n NL LT RL eq_refl eq_refl P eq_refl ltac:(lia)) as [h Q'].
  rewrite Q' in Q. injection Q as <- <-.
  match goal with |- context [predict _ _ _ _ _ _ _ ?m] => destruct (predict_gen W H roll next zero fwd p times last (steps + more) m x lo hi (Net (weights n) h) NL LT RL eq_refl eq_refl P eq_refl ltac:(lia)) as [h' ->] end.
  eexists _, _. split; [reflexivity|]. cbn [weights]. rewrite seq_app, map_app, firstn_app, map_length, seq_length, Nat.sub_diag. cbn [firstn]. rewrite app_nil_r.
  rewrite firstn_all2 by (rewrite map_length, seq_length; lia). apply map_ext_in. intros i Hi'. apply in_seq in Hi'. cbv zeta.
  rewrite <- (gen_prefix zero fwd (weights n) (time_window p) steps more x). rewrite nth_firstn0 by lia. reflexivity.
Qed.
(** C289 (partial): the bounds are 95 and 105 per cent of the forecast; they enclose it when it is not negative. *)
Theorem C289_band_partial : forall W H zero fwd roll next p (m : lstm W H) times steps rows m' r,
  predict roll next zero fwd p times steps m = Some (rows, m') -> In r rows ->
  r_lower r = 95 / 100 * r_fcst r /\ r_upper r = 105 / 100 * r_fcst r /\ (0 <= r_fcst r -> r_lower r <= r_fcst r <= r_upper r).
Proof.
  intros W H zero fwd roll next p m times steps rows m' r Q I. unfold predict in Q.
  destruct (l_net m) as [n|]; [|discriminate]. destruct (l_normalized m) as [x|]; [|discriminate]. destruct (l_scaler m) as [sc|]; [|discriminate].
  destruct (roll_out _ _ _ _ _ _) as [[inputs n']|]; [|discriminate]. destruct (Nat.eqb _ _); [|discriminate]. injection Q as <- <-.
  apply in_map_iff in I as (d & <- & _). cbn. lra.
Qed.
(** C289: refuted for negative forecasts: the lower bound lies above and the upper bound below the forecast. *)
Theorem C289_band_refuted : forall W H zero fwd roll next p (m : lstm W H) times steps rows m' r,
  predict roll next zero fwd p times steps m = Some (rows, m') -> In r rows -> r_fcst r < 0 -> r_upper r < r_fcst r < r_lower r.
Proof.
  intros W H zero fwd roll next p m times steps rows m' r Q I N. destruct (C289_band_partial _ _ _ _ _ _ _ _ _ _ _ _ _ Q I) as (A & B & _). lra.
Qed.
Lemma least_map x a b lo : 0 < a -> least x lo -> least (map (fun v => a * v + b) x) (a * lo + b).
Proof. intros P [I A]. split; [apply (in_map (fun v => a * v + b)); exact I|]. intros v Hv. apply in_map_iff in Hv as (u & <- & Hu). specialize (A u Hu). nra. Qed.
Lemma greatest_map x a b hi : 0 < a -> greatest x hi -> greatest (map (fun v => a * v + b) x) (a * hi + b).
Proof. intros P [I A]. split; [apply (in_map (fun v => a * v + b)); exact I|]. intros v Hv. apply in_map_iff in Hv as (u & <- & Hu). specialize (A u Hu). nra. Qed.
Lemma width_scale a b lo hi : 0 < a -> lo < hi -> width (a * lo + b) (a * hi + b) = a * width lo hi.
Proof. intros P L. unfold width. destruct (Req_EM_T lo hi); [lra|]. destruct (Req_EM_T _ _); [nra|]. ring. Qed.
(** C289: another unit or origin of a series that is not constant changes nothing in the training, and the forecasts change
    with it. *)
Theorem C289_units : forall W H (fresh : net W H) zero update fwd roll next p values m0 m times last steps a b rows m',
  (forall t, (t < next t)%Z) -> last_time times last -> roll last = last -> (0 < time_window p <= length values)%nat ->
  0 < a -> (exists u v, In u values /\ In v values /\ u <> v) ->
  fit fresh zero update p values m0 = (true, m) -> predict roll next zero fwd p times steps m = Some (rows, m') ->
  exists k k' rows', fit fresh zero update p (map (fun v => a * v + b) values) m0 = (true, k) /\
    l_normalized k = l_normalized m /\ l_net k = l_net m /\
    predict roll next zero fwd p times steps k = Some (rows', k') /\
    map r_time rows' = map r_time rows /\ map r_fcst rows' = map (fun r => a * r_fcst r + b) rows.
Proof.
  intros W H fresh zero update fwd roll next p values m0 m times last steps a b rows m' NL LT RL Hw Pa (u & v & Iu & Iv & NE) F Q.
  assert (values <> []) as N by (intros ->; cbn in Hw; lia).
  destruct (fit_scaler_some values N) as (lo & hi & Lo & Hi & E). pose proof (width_pos _ _ _ Lo Hi) as P.
  assert (lo < hi) as LH.
  { destruct Lo as [_ A], Hi as [_ B]. pose proof (A u Iu). pose proof (A v Iv). pose proof (B u Iu). pose proof (B v Iv). apply Rnot_le_lt. intros C. apply NE. lra. }
  assert (map (fun v => a * v + b) values <> []) as N' by (destruct values; discriminate).
  destruct (fit_scaler_some _ N') as (lo' & hi' & Lo' & Hi' & E').
  rewrite (least_unique _ _ _ Lo' (least_map _ a b _ Pa Lo)), (greatest_unique _ _ _ Hi' (greatest_map _ a b _ Pa Hi)) in *. clear lo' hi' Lo' Hi'.
  assert (0 < width (a * lo + b) (a * hi + b)) as P' by (rewrite width_scale by assumption; nra).
  unfold fit in F |- *. rewrite E in F. rewrite E'.
  set (x := map _ values) in F. set (x' := map _ (map _ values)).
  assert (x' = x) as ->.
  { unfold x', x. rewrite map_map. apply map_ext. intros z. rewrite !transform_normal by assumption. unfold normal. rewrite width_scale by assumption. field. lra. }
  destruct (train _ _ _ _ _ _) as [n|] eqn:T; [|discriminate].
  injection F as <-. assert (length x = length values) as Lx by apply map_length.
  destruct (predict_gen W H roll next zero fwd p times last steps (Lstm (Some x) (Some (Scaler (2 / width lo hi) (-1 - lo * (2 / width lo hi)))) (Some n)) x lo hi n NL LT RL eq_refl eq_refl P eq_refl ltac:(lia)) as [h Q'].
  rewrite Q' in Q. injection Q as <- <-.
  match type of E' with _ = Some ?sc => destruct (predict_gen W H roll next zero fwd p times last steps (Lstm (Some x) (Some sc) (Some n)) x (a * lo + b) (a * hi + b) n NL LT RL eq_refl eq_refl P' eq_refl ltac:(lia)) as [h' Q''] end.
  eexists _, _, _. split; [reflexivity|]. split; [reflexivity|]. split; [reflexivity|]. split; [exact Q''|].
  rewrite !map_map. split; [reflexivity|]. apply map_ext. intros i. cbn [r_fcst]. unfold back. rewrite width_scale by assumption. ring.
Qed.
(** C289: predict before fit raises. *)
Theorem C289_unfitted : forall W H zero fwd roll next p times steps, predict (W := W) (H := H) roll next zero fwd p times steps new = None.
Proof. reflexivity. Qed.
(** C289: refuted for a series that is not longer than the window: from two epochs on fit raises, because no loss was ever
    computed; with fewer it succeeds without training.  Either way the untrained network stays: for a series exactly as long
    as the window predict then answers with it, for a shorter one it raises. *)
Theorem C289_short_refuted : forall W H (fresh : net W H) zero update fwd roll next p values m0 times last steps,
  (forall t, (t < next t)%Z) -> last_time times last -> roll last = last -> values <> [] -> (length values <= time_window p)%nat ->
  let '(ok, m) := fit fresh zero update p values m0 in
  (ok = true <-> (num_epochs p < 2)%nat) /\ l_net m = Some fresh /\
  (length values = time_window p -> exists rows m', predict roll next zero fwd p times steps m = Some (rows, m') /\ length rows = steps) /\
  ((length values < time_window p)%nat -> (0 < steps)%nat -> predict roll next zero fwd p times steps m = None).
Proof.
  intros W H fresh zero update fwd roll next p values m0 times last steps NL LT RL N Hw.
  destruct (fit_scaler_some values N) as (lo & hi & Lo & Hi & E). pose proof (width_pos _ _ _ Lo Hi) as P.
  unfold fit. rewrite E. set (x := map _ values). assert (length x = length values) as Lx by apply map_length.
  assert (pairs (time_window p) x = []) as -> by (unfold pairs; replace (length x - time_window p)%nat with 0%nat by lia; reflexivity).
  assert (length values <> 0)%nat as LZ by (destruct values; [congruence|discriminate]).
  set (sc := Scaler _ _) in *.
  assert (forall m : lstm W H, m = Lstm (Some x) (Some sc) (Some fresh) ->
    (length values = time_window p -> exists rows m', predict roll next zero fwd p times steps m = Some (rows, m') /\ length rows = steps) /\
    ((length values < time_window p)%nat -> (0 < steps)%nat -> predict roll next zero fwd p times steps m = None)) as G.
  { intros m ->. split.
    - intros Eq. destruct (predict_gen W H roll next zero fwd p times last steps (Lstm (Some x) (Some sc) (Some fresh)) x lo hi fresh NL LT RL eq_refl eq_refl P eq_refl ltac:(lia)) as [h ->].
      eexists _, _. split; [reflexivity|]. rewrite map_length, seq_length. reflexivity.
    - intros Lt Ps. unfold predict. cbn [l_net l_normalized l_scaler]. rewrite slice_latest by lia.
      replace (latest (time_window p) x) with x by (unfold latest; replace (length x - time_window p)%nat with 0%nat by lia; reflexivity).
      assert (x <> []) as NX by (intros Z; rewrite Z in Lx; cbn in Lx; lia).
      destruct (roll_out_gen zero fwd (time_window p) steps ltac:(lia) fresh x NX) as [h ->].
      assert (zmax times = last) as ->.
      { destruct LT as [IL ML]. assert (times <> []) as NT by (intros ->; destruct IL). destruct (zmax_spec times NT) as [A B]. specialize (B _ IL). specialize (ML _ A). lia. }
      rewrite (future_on roll next NL) by exact RL. rewrite !map_length, seq_length.
      match goal with |- (if (steps =? ?k)%nat then _ else _) = None => assert (k < steps)%nat as K end.
      { set (l := x ++ _). assert (length l = length x + steps)%nat as Ll by (unfold l; rewrite app_length, gen_length; reflexivity).
        destruct (le_lt_dec (time_window p) (length l)) as [C|C]; [rewrite slice_from, skipn_length by exact C; lia|rewrite slice_from_short by lia; exact Ps]. }
      destruct (Nat.eqb_spec steps (length (py_slice (x ++ gen zero fwd (weights fresh) (time_window p) steps x) (Some (Z.of_nat (time_window p))) None))); [lia|reflexivity]. }
  destruct (num_epochs p) as [|[|e]].
  - cbn [train]. split; [split; [lia|reflexivity]|]. split; [reflexivity|]. apply G. reflexivity.
  - cbn [train train_epoch]. change (0 mod 25 =? 1)%nat with false. cbn [andb]. split; [split; [lia|reflexivity]|]. split; [reflexivity|]. apply G. reflexivity.
  - rewrite train_none by lia. split; [split; [discriminate|lia]|]. split; [reflexivity|]. apply G. reflexivity.
Qed.
(** C289: a window of length 0 cannot be used: predict raises after any fit. *)
Theorem C289_zero_window : forall W H (fresh : net W H) zero update fwd roll next p values m0 times last steps,
  (forall t, (t < next t)%Z) -> last_time times last -> roll last = last -> values <> [] -> time_window p = 0%nat ->
  (fst (fit fresh zero update p values m0) = true <-> num_epochs p = 0%nat) /\
  predict roll next zero fwd p times steps (snd (fit fresh zero update p values m0)) = None.
Proof.
  intros W H fresh zero update fwd roll next p values m0 times last steps NL LT RL N Hw.
  destruct (fit_scaler_some values N) as (lo & hi & Lo & Hi & E).
  unfold fit. rewrite E. set (x := map _ values). assert (length x = length values) as Lx by apply map_length.
  assert (length values <> 0)%nat as LZ by (destruct values; [congruence|discriminate]). rewrite Hw.
  assert (forall m : lstm W H, l_net m = Some fresh -> l_normalized m = Some x -> predict roll next zero fwd p times steps m = None) as G.
  { intros m E1 E2. unfold predict. rewrite E1, E2. destruct (l_scaler m) as [sc|]; [|reflexivity]. rewrite Hw. change (- Z.of_nat 0)%Z with (Z.of_nat 0).
    rewrite slice_from by lia. cbn [skipn].
    assert (forall steps n inputs, inputs <> [] -> match roll_out zero fwd 0 steps n inputs with Some (l, _) => length l = (length inputs + steps)%nat | None => True end) as RO.
    { clear. induction steps as [|k IH]; intros n inputs NE; cbn [roll_out]; [rewrite Nat.add_0_r; reflexivity|].
      destruct (py_slice inputs _ _) as [|y s]; [exact I|]. destruct (fwd _ _ _) as [o h]. specialize (IH (Net (weights n) h) (inputs ++ [o]) ltac:(destruct inputs; discriminate)).
      destruct (roll_out _ _ _ _ _ _) as [[l n']|]; [|exact I]. rewrite IH, app_length. cbn. lia. }
    assert (x <> []) as NX by (intros Z; rewrite Z in Lx; cbn in Lx; lia). specialize (RO steps fresh x NX).
    destruct (roll_out _ _ _ _ _ _) as [[l n']|]; [|reflexivity].
    assert (zmax times = last) as ->.
    { destruct LT as [IL ML]. assert (times <> []) as NT by (intros ->; destruct IL). destruct (zmax_spec times NT) as [A B]. specialize (B _ IL). specialize (ML _ A). lia. }
    rewrite (future_on roll next NL) by exact RL. rewrite slice_from by lia. rewrite !map_length, seq_length. cbn [skipn].
    destruct (Nat.eqb_spec steps (length l)); [lia|reflexivity]. }
  destruct (num_epochs p) as [|e].
  - cbn [train fst snd]. split; [split; reflexivity|]. apply G; reflexivity.
  - assert (train zero update (pairs 0 x) (S e) 0 fresh = None) as ->.
    { cbn [train]. destruct (pairs_examples 0 x) as [PL PE]. destruct (pairs 0 x) as [|q ps]; [cbn in PL; lia|].
      destruct (PE 0%nat ltac:(cbn; lia)) as (s & Es & Ls & _). cbn [nth] in Es. subst q. destruct s; [|discriminate]. reflexivity. }
    cbn [fst snd]. split; [split; discriminate|]. apply G; reflexivity.
Qed.

(** A network that adds its weight to the last value, trained by counting; a series of four values in a window of two. *)
Example C289_case :
  let fresh := Net (W := R) (H := unit) 0 tt in
  let update (w : R) (h : unit) (s l : list R) := (w + 1, tt) in
  let fwd (w : R) (h : unit) (s : list R) := (nth (length s - 1) s 0 + w, tt) in
  let p := Params 2 1 in
  exists m m' r1 r2, fit fresh tt update p [1; 3; 2; 1] new = (true, m) /\
    predict (fun t => t) (fun t => (t + 1)%Z) tt fwd p [1; 2; 3; 4]%Z 2 m = Some ([r1; r2], m') /\
    r_time r1 = 5%Z /\ r_fcst r1 = 3 /\ r_time r2 = 6%Z /\ r_fcst r2 = 5.
Proof.
  intros fresh update fwd p.
  destruct (C289_training R unit fresh tt update p [1; 3; 2; 1] new ltac:(cbn; lia)) as (m & x & n & lo & hi & E & F & EX & EN & Lo & Hi & LX & NX & _ & _ & [LE PE] & Wn).
  assert (lo = 1) as -> by (apply (least_unique [1; 3; 2; 1]); [exact Lo|split; [left; reflexivity|intros v Hv; cbn in Hv; intuition lra]]).
  assert (hi = 3) as -> by (apply (greatest_unique [1; 3; 2; 1]); [exact Hi|split; [right; left; reflexivity|intros v Hv; cbn in Hv; intuition lra]]).
  assert (length x = 4)%nat as L4 by exact LX. cbn [time_window p num_epochs] in *. rewrite L4 in LE. cbn in LE.
  assert (weights n = 2) as W2.
  { rewrite Wn. destruct E as [|e1 [|e2 [|e3 E]]]; try discriminate. cbn. lra. }
  assert (last_time [1; 2; 3; 4]%Z 4%Z) as LT by (split; [cbn; auto|intros t Ht; cbn in Ht; intuition lia]).
  destruct (C289_forecast R unit fresh tt update fwd (fun t => t) (fun t => (t + 1)%Z) p [1; 3; 2; 1] new m [1; 2; 3; 4]%Z 4%Z 2 (fun t => Z.lt_succ_diag_r t) LT eq_refl ltac:(cbn; lia) F)
    as (rows & m' & n' & x' & lo' & hi' & s & Q & EN' & EX' & Lo' & Hi' & LR & LS & A).
  rewrite (least_unique _ _ _ Lo' Lo), (greatest_unique _ _ _ Hi' Hi) in A. rewrite EN in EN'. injection EN' as <-. rewrite EX in EX'. injection EX' as <-.
  destruct rows as [|r1 [|r2 [|r3 rows]]]; try discriminate. destruct s as [|s1 [|s2 [|s3 s]]]; try discriminate.
  exists m, m', r1, r2. split; [exact F|]. split; [exact Q|].
  destruct (A 0%nat r1 ltac:(lia)) as (A1 & B1 & C1). destruct (A 1%nat r1 ltac:(lia)) as (A2 & B2 & C2). clear A.
  destruct (NX 3%nat ltac:(cbn; lia)) as [X3 _].
  destruct x as [|x0 [|x1 [|x2 [|x3 [|x4 x]]]]]; try discriminate. cbn in A1, A2, B1, B2, C1, C2, X3. unfold normal, back, width in *.
  destruct (Req_EM_T 1 3); [lra|]. rewrite C1, C2, A2, A1, W2, X3. split; [exact B1|]. split; [field|]. split; [exact B2|]. field.
Qed.

Print Assumptions C289_training.
Print Assumptions C289_forecast.
Print Assumptions C289_again.
Print Assumptions C289_band_partial.
Print Assumptions C289_band_refuted.
Print Assumptions C289_units.
Print Assumptions C289_unfitted.
Print Assumptions C289_short_refuted.
Print Assumptions C289_zero_window.
