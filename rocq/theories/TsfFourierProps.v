(** Theorems about TsFourierFeatures (C166). *)
From Coq Require Import List Arith Reals Bool ZArith Lia Lra.
From Verif Require Import TsfFourierModel.
Import ListNotations.
Open Scope nat_scope.

Definition wave_of (w : wave) : R -> R := match w with Sin => sin | Cos => cos end.
(** The value that belongs in the column (p, t, w) for a row s units after 1970. *)
Definition fourier_term (nm : name) (s : R) : R := let '(p, t, w) := nm in wave_of w (2 * PI * s / p * INR t).

Lemma aligned p s : p <> 0%R -> forall n j,
  map Some (map (fun nm => fourier_term nm s) (interleave (map (fun t => (p, t, Sin)) (seq j n)) (map (fun t => (p, t, Cos)) (seq j n))))
  = orders_from (divide (2 * PI * s) p) j n.
Proof.
  intros P. unfold divide. destruct (Req_EM_T p 0) as [E|_]; [contradiction|]. induction n as [|n IH]; intros j; [reflexivity|].
  cbn [seq map interleave orders_from option_map fourier_term wave_of]. rewrite IH. reflexivity.
Qed.
(** Each row has one value per column, and the value under a name is the wave the name says. *)
Theorem C166_columns : forall ps order off f ns, fourier_init ps order off = Some f -> off <> 0%R -> (forall p, In p ps -> p <> 0%R) ->
  exists names rows, get_features f (Nanoseconds ns) = Some (names, rows) /\ length rows = length ns /\
    forall i, i < length ns -> nth i rows [] = map (fun nm => Some (fourier_term nm (IZR (nth i ns 0%Z / 1000000000) / off))) names.
Proof.
  intros ps order off f ns F O P. unfold fourier_init in F. destruct (negb _); [discriminate|]. destruct (Rlt_dec off 0); [discriminate|]. injection F as <-.
  eexists. eexists. split; [reflexivity|]. split; [apply map_length|]. intros i I.
  match goal with |- nth i (map ?g ns) [] = _ => set (h := g) end. rewrite nth_indep with (d' := h 0%Z) by (rewrite map_length; exact I). rewrite map_nth.
  unfold h. unfold divide at 1. cbn [offset]. destruct (Req_EM_T off 0) as [E|_]; [contradiction|]. unfold compute_row, get_columns. cbn [periods orders].
  set (s := (IZR (nth i ns 0%Z / 1000000000) / off)%R). generalize (match order with One r => repeat r (length ps) | Many rs => rs end). intros rs.
  clear h I. revert rs. induction ps as [|p ps IH]; intros rs; [reflexivity|]. destruct rs as [|r rs]; [reflexivity|]. cbn [combine flat_map fst snd]. rewrite map_app.
  rewrite IH by (intros q Q; apply P; now right). f_equal. rewrite <- (map_map (fun nm => fourier_term nm s) Some). symmetry. apply aligned. apply P. now left.
Qed.
(** The names are exactly the orders 1 .. r of every period, each with sine and cosine. *)
Theorem C166_names : forall ps order off f ns names rows, fourier_init ps order off = Some f -> get_features f (Nanoseconds ns) = Some (names, rows) ->
  forall p t w, In (p, t, w) names <->
    exists i, i < length ps /\ nth i ps 0%R = p /\ 1 <= t <= match order with One r => r | Many rs => nth i rs 0 end.
Proof.
  intros ps order off f ns names rows F G p t w. unfold get_features in G. injection G as <- _. unfold fourier_init in F.
  set (rs := match order with One r => repeat r (length ps) | Many rs => rs end) in *. destruct (Nat.eqb_spec (length ps) (length rs)) as [L|]; [|discriminate]. cbn [negb] in F.
  destruct (Rlt_dec off 0) as [|NL]; [discriminate|]. injection F as <-. unfold get_columns. cbn [periods orders].
  assert (X : forall (q : R) n j, In (p, t, w) (interleave (map (fun t => (q, t, Sin)) (seq j n)) (map (fun t => (q, t, Cos)) (seq j n))) <-> q = p /\ j <= t < j + n).
  { intros q. induction n as [|n IH]; intros j; cbn [seq map interleave In]; [split; [intros []|intros [_ H]; lia]|]. rewrite IH. split.
    - intros [E|[E|[E H]]]; [injection E as E1 E2 _; split; [exact E1|lia]|injection E as E1 E2 _; split; [exact E1|lia]|]. split; [exact E|lia].
    - intros [-> H]. destruct (Nat.eq_dec t j) as [->|D]; [destruct w; auto|]. right. right. split; [reflexivity|lia]. }
  rewrite in_flat_map. transitivity (exists i, i < length ps /\ nth i ps 0%R = p /\ 1 <= t <= nth i rs 0).
  - split.
    + intros ((q & r) & I & J). cbn [fst snd] in J. apply X in J. destruct J as [-> J]. apply (In_nth _ _ (0%R, 0)) in I. destruct I as (i & I & E).
      rewrite combine_length in I. rewrite combine_nth in E by exact L. injection E as E1 E2. exists i. subst. repeat split; lia || reflexivity.
    + intros (i & I & E & T). exists (p, nth i rs 0). split; [|apply X; split; [reflexivity|cbn [snd]; lia]]. rewrite <- E.
      rewrite <- combine_nth by exact L. apply nth_In. rewrite combine_length. lia.
  - unfold rs. destruct order as [r|rs']; [|reflexivity]. split; intros (i & I & E & T); exists i; split; auto; split; auto;
      (rewrite nth_indep with (d' := r) in * by (rewrite repeat_length; exact I)); rewrite nth_repeat in *; exact T.
Qed.
Lemma term_period : forall p t w s k, p <> 0%R -> fourier_term (p, t, w) (s + IZR k * p) = fourier_term (p, t, w) s.
Proof.
  intros p t w s k P. unfold fourier_term.
  assert (E : (2 * PI * (s + IZR k * p) / p * INR t = 2 * PI * s / p * INR t + 2 * IZR (k * Z.of_nat t) * PI)%R).
  { rewrite mult_IZR, <- INR_IZR_INZ. field. exact P. }
  rewrite E. generalize (2 * PI * s / p * INR t)%R. intros y. generalize (k * Z.of_nat t)%Z. intros z.
  assert (S : forall n (y : R), sin (y + 2 * INR n * PI) = sin y /\ cos (y + 2 * INR n * PI) = cos y) by (intros; split; [apply sin_period|apply cos_period]).
  destruct (Z_le_gt_dec 0 z) as [H|H].
  - rewrite <- (Z2Nat.id z H), <- INR_IZR_INZ. destruct w; apply S.
  - pose (m := Z.to_nat (- z)). assert (M : (y = (y + 2 * IZR z * PI) + 2 * INR m * PI)%R).
    { unfold m. rewrite INR_IZR_INZ, Z2Nat.id by lia. rewrite opp_IZR. ring. }
    rewrite M at 2. destruct w; symmetry; apply S.
Qed.
(** In a column of period p, rows any whole number of periods apart have the same value. *)
Theorem C166_period : forall ps order off f ns names rows, fourier_init ps order off = Some f -> off <> 0%R -> (forall p, In p ps -> p <> 0%R) ->
  get_features f (Nanoseconds ns) = Some (names, rows) ->
  forall i j c p t w k, i < length ns -> j < length ns -> nth_error names c = Some (p, t, w) ->
  (IZR (nth j ns 0%Z / 1000000000) = IZR (nth i ns 0%Z / 1000000000) + IZR k * p * off)%R ->
  nth_error (nth i rows []) c = nth_error (nth j rows []) c.
Proof.
  intros ps order off f ns names rows F O P G i j c p t w k I J C E. destruct (C166_columns ps order off f ns F O P) as (names' & rows' & G' & _ & R).
  rewrite G in G'. injection G' as <- <-. rewrite (R i I), (R j J), !nth_error_map, C. cbn [option_map]. rewrite E.
  assert (NP : p <> 0%R).
  { apply P. apply nth_error_In in C. apply (C166_names ps order off f ns names rows F G) in C. destruct C as (q & Q & <- & _). now apply nth_In. }
  replace ((IZR (nth i ns 0%Z / 1000000000) + IZR k * p * off) / off)%R with (IZR (nth i ns 0%Z / 1000000000) / off + IZR k * p)%R by (field; exact O).
  rewrite term_period by exact NP. reflexivity.
Qed.
(** The documentation asks for a positive offset, and an offset of zero is accepted and gives no value at all. *)
Theorem C166_offset_refuted : forall ps order ns f, fourier_init ps order 0 = Some f ->
  exists names rows, get_features f (Nanoseconds ns) = Some (names, rows) /\ forall row v, In row rows -> In v row -> v = None.
Proof.
  intros ps order ns f F. unfold fourier_init in F. destruct (negb _); [discriminate|]. destruct (Rlt_dec 0 0); [discriminate|]. injection F as <-.
  eexists. eexists. split; [reflexivity|]. intros row v R V. apply in_map_iff in R. destruct R as (n0 & <- & _). unfold divide in V. cbn [offset] in V.
  destruct (Req_EM_T 0 0) as [_|X]; [|congruence]. unfold compute_row in V. apply in_flat_map in V. destruct V as ((p & r) & _ & V). cbn [snd] in V.
  revert V. generalize 1. induction r as [|r IH]; intros j V; [destruct V|]. cbn in V. destruct V as [<-|[<-|V]]; auto. eapply IH. exact V.
Qed.
Example C166_case : exists f, fourier_init [7%R; 365%R] (Many [1; 2]) 86400 = Some f /\
  get_columns f = [(7%R, 1, Sin); (7%R, 1, Cos); (365%R, 1, Sin); (365%R, 1, Cos); (365%R, 2, Sin); (365%R, 2, Cos)] /\ fourier_init [7%R] (Many [1; 2]) 86400 = None.
Proof.
  unfold fourier_init. cbn [length Nat.eqb negb]. destruct (Rlt_dec 86400 0) as [H|_]; [lra|]. eexists. split; [reflexivity|]. split; reflexivity.
Qed.

Print Assumptions C166_columns.
Print Assumptions C166_names.
Print Assumptions C166_period.
Print Assumptions C166_offset_refuted.
