(** C207 to C209: the pinball loss — specification, proofs and theorems. *)
From Coq Require Import List Bool Arith ZArith QArith Lia Lqa Psatz.
From Verif Require Import Common GmLossModel GmLossProofs.
Import ListNotations.
Open Scope nat_scope.

(** ** Specification *)
(** the pinball loss of forecasting x where y comes out: q per unit of underestimation, 1 - q per unit of overestimation *)
Definition tick (q y x : Q) : Q := if Qle_bool x y then (q * (y - x))%Q else ((1 - q) * (x - y))%Q.
Definition present {A} (l : list (option A)) : nat := length (filter (fun o => negb (is_nan o)) l).
Definition count_if (f : Q -> bool) (l : list Q) : Q := inject_Z (Z.of_nat (length (filter f l))).

(** ** Proofs *)
Open Scope Q_scope.
Lemma pin_tick q y x : 0 <= q -> q <= 1 -> qmax2 ((y - x) * q) ((y - x) * (q - 1)) == tick q y x.
Proof.
  intros H1 H2. pose proof (qmax2_spec ((y - x) * q) ((y - x) * (q - 1))) as [M1 [M2 M3]]. unfold tick.
  destruct (Qle_bool x y) eqn:E.
  - apply Qle_bool_iff in E. assert ((y - x) * (q - 1) <= (y - x) * q) by nra. destruct M3 as [M3|M3]; rewrite M3 in *; try nra.
  - assert (y < x) by (apply Qnot_le_lt; intros H; apply Qle_bool_iff in H; congruence).
    assert ((y - x) * q <= (y - x) * (q - 1)) by nra. destruct M3 as [M3|M3]; rewrite M3 in *; try nra.
Qed.
Lemma tick_nonneg q y x : 0 < q -> q < 1 -> 0 <= tick q y x.
Proof.
  intros H1 H2. unfold tick. destruct (Qle_bool x y) eqn:E.
  - apply Qle_bool_iff in E. nra.
  - assert (y < x) by (apply Qnot_le_lt; intros H; apply Qle_bool_iff in H; congruence). nra.
Qed.
Lemma tick_zero q y x : 0 < q -> q < 1 -> (tick q y x == 0 <-> x == y).
Proof.
  intros H1 H2. unfold tick. destruct (Qle_bool x y) eqn:E.
  - apply Qle_bool_iff in E. split; intros H; [| rewrite H; ring]. destruct (Qlt_le_dec x y); [exfalso; nra | lra].
  - assert (y < x) by (apply Qnot_le_lt; intros H; apply Qle_bool_iff in H; congruence). split; intros H'; [exfalso; nra | exfalso; lra].
Qed.
Close Scope Q_scope.

Section Row.
Variables (L : pinball) (input : list Q) (target : list (option Q)).
Hypothesis WL : length (weight L) = length (quantile L).
Hypothesis IL : length input = length target * length (quantile L).
Let m := length (quantile L).
Let H := length target.
Definition cell (j h : nat) : Q :=
  ((match nth h target None with
    | None => 0
    | Some y => qmax2 ((y - nth (j * length target + h) input 0) * nth j (quantile L) 0) ((y - nth (j * length target + h) input 0) * (nth j (quantile L) 0 - 1))
    end) * nth j (weight L) 0)%Q.
Lemma pin_row_nth j : j < m -> nth j (pin_row L input target) 0%Q = (qsum (map (cell j) (seq 0 H)) / inject_Z (Z.of_nat (num_not_nan target)))%Q.
Proof.
  intros Hj. unfold pin_row. fold m H.
  rewrite (map_nth_in _ _ []) by (rewrite chunks_len; exact Hj). rewrite chunks_nth by exact Hj.
  assert (B : forall h, h < H -> j * H + h < m * H) by (intros; nia).
  match goal with |- context [firstn H (skipn (j * H) ?l)] => rewrite (slice_map l 0%Q j H) end.
  - f_equal. f_equal. apply map_ext_seq. intros h Hh. specialize (B h Hh).
    assert (L1 : length (zip_with Qminus (repeat_row m (map (set_nan 1%Q) target)) input) = m * H)
      by (rewrite zip_len, row_len, map_length, IL; fold m H; lia).
    assert (L2 : length (zip_with (fun d q => qmax2 (d * q) (d * (q - 1)))%Q (zip_with Qminus (repeat_row m (map (set_nan 1%Q) target)) input) (spread H (quantile L))) = m * H)
      by (rewrite zip_len, L1, spread_len; fold m; lia).
    assert (L3 : length (zip_with (fun (b : bool) r => if b then 0%Q else r) (repeat_row m (map is_nan target)) (zip_with (fun d q => qmax2 (d * q) (d * (q - 1)))%Q (zip_with Qminus (repeat_row m (map (set_nan 1%Q) target)) input) (spread H (quantile L)))) = m * H)
      by (rewrite zip_len, L2, row_len, map_length; fold H; lia).
    rewrite (zip_nth _ _ _ _ 0%Q 0%Q) by (rewrite ?L3, ?spread_len, ?WL; fold m; lia).
    rewrite (zip_nth _ _ _ _ false 0%Q) by (rewrite ?L2, ?row_len, ?map_length; fold H; lia).
    rewrite (zip_nth _ _ _ _ 0%Q 0%Q) by (rewrite ?L1, ?spread_len; fold m; lia).
    rewrite (zip_nth _ _ _ _ 0%Q 0%Q) by (rewrite ?row_len, ?map_length, ?IL; fold m H; lia).
    rewrite !spread_nth by (rewrite ?WL; fold m; lia).
    pose proof (row_nth m (map is_nan target) false j h) as R1. rewrite map_length in R1. fold H in R1. rewrite R1 by lia.
    pose proof (row_nth m (map (set_nan 1%Q) target) 0%Q j h) as R2. rewrite map_length in R2. fold H in R2. rewrite R2 by lia.
    rewrite (map_nth_in is_nan target None false h) by (fold H; lia). rewrite (map_nth_in (set_nan 1%Q) target None 0%Q h) by (fold H; lia).
    unfold cell. fold H. destruct (nth h target None); reflexivity.
  - rewrite !zip_len, !row_len, !map_length, !spread_len, WL, IL. fold m H. nia.
Qed.
End Row.

Lemma num_pos {A} (l : list (option A)) : (0 < inject_Z (Z.of_nat (num_not_nan l)))%Q.
Proof.
  unfold num_not_nan. change 0%Q with (inject_Z 0). rewrite <- Zlt_Qlt. lia.
Qed.
Lemma make_ok q w L : make_pinball q w = Some L -> quantile L = q /\ length (weight L) = length q /\
  match w with Some w => weight L = w | None => forall x, In x (weight L) -> x = (1 / inject_Z (Z.of_nat (length q)))%Q end.
Proof.
  unfold make_pinball. destruct q as [|q0 q]; [discriminate |]. destruct w as [w|].
  - destruct (length w =? length (q0 :: q)) eqn:E; [| discriminate]. intros H. injection H as <-. apply Nat.eqb_eq in E. auto.
  - set (n := length (q0 :: q)). intros H. assert (E : L = {| quantile := q0 :: q; weight := repeat (1 / inject_Z (Z.of_nat n))%Q n |}) by congruence. subst L.
    cbn [quantile weight]. rewrite repeat_length. split; [reflexivity |]. split; [reflexivity |]. intros x Hx. apply repeat_spec in Hx. exact Hx.
Qed.

(** ** Theorems *)
(** C207: the loss of a row for quantile j is the weight times the average pinball loss over the steps whose target is present;
    the forecasts of quantile j are the j-th block of columns *)
Theorem C207_value q w L input target j :
  make_pinball q (Some w) = Some L -> (forall x, In x q -> 0 <= x /\ x <= 1)%Q -> length input = length target * length q -> j < length q ->
  (nth j (pin_row L input target) 0 ==
     nth j w 0 * qsum (map (fun h => match nth h target None with Some y => tick (nth j q 0) y (nth (j * length target + h) input 0) | None => 0 end) (seq 0 (length target)))
     / inject_Z (Z.of_nat (Nat.max 1 (present target))))%Q.
Proof.
  intros M HQ IL Hj. destruct (make_ok _ _ _ M) as [E1 [E2 E3]].
  rewrite pin_row_nth by (rewrite ?E1; auto). unfold num_not_nan, present, Qdiv. apply Qmult_comp; [| reflexivity].
  rewrite <- qsum_scale. apply qsum_ext. intros h Hh. unfold cell. rewrite E1, E3.
  destruct (nth h target None) as [y|]; [| ring].
  destruct (HQ (nth j q 0%Q) ltac:(apply nth_In; exact Hj)) as [Q1 Q2]. rewrite (pin_tick _ _ _ Q1 Q2). ring.
Qed.
(** as many losses as quantiles *)
Theorem C207_shape q w L input target : make_pinball q w = Some L -> length (pin_row L input target) = length q.
Proof. intros M. destruct (make_ok _ _ _ M) as [E1 _]. unfold pin_row. rewrite map_length, chunks_len, E1. reflexivity. Qed.
(** it is never negative, and 0 only if every target that is present is forecast exactly *)
Theorem C207_zero q w L input target j :
  make_pinball q (Some w) = Some L -> (forall x, In x q -> 0 < x /\ x < 1)%Q -> (forall x, In x w -> 0 < x)%Q -> length input = length target * length q -> j < length q ->
  (0 <= nth j (pin_row L input target) 0)%Q /\
  ((nth j (pin_row L input target) 0 == 0)%Q <-> forall h y, nth_error target h = Some (Some y) -> (nth (j * length target + h) input 0 == y)%Q).
Proof.
  intros M HQ HW IL Hj. destruct (make_ok _ _ _ M) as [E1 [E2 E3]].
  pose proof (C207_value q w L input target j M ltac:(intros x Hx; destruct (HQ x Hx); split; apply Qlt_le_weak; assumption) IL Hj) as V.
  assert (N := num_pos target). unfold num_not_nan in N. change (length (filter (fun o => negb (is_nan o)) target)) with (present target) in N.
  destruct (HQ (nth j q 0%Q) ltac:(apply nth_In; exact Hj)) as [Q1 Q2].
  assert (W : (0 < nth j w 0)%Q) by (apply HW; apply nth_In; rewrite <- E3, E2; exact Hj).
  set (f := fun h => match nth h target None with Some y => tick (nth j q 0%Q) y (nth (j * length target + h) input 0%Q) | None => 0%Q end) in V.
  assert (F0 : forall h, (0 <= f h)%Q) by (intros h; unfold f; destruct (nth h target None); [apply tick_nonneg; assumption | apply Qle_refl]).
  assert (S0 : (0 <= qsum (map f (seq 0 (length target))))%Q) by (apply qsum_nonneg; intros x Hx; apply in_map_iff in Hx; destruct Hx as [h [<- _]]; apply F0).
  set (s := qsum (map f (seq 0 (length target)))) in *. set (k := inject_Z (Z.of_nat (Nat.max 1 (present target)))) in *.
  assert (INV : (0 < / k)%Q) by (apply Qinv_lt_0_compat; exact N).
  assert (WS : (0 <= nth j w 0 * s)%Q) by (apply Qmult_le_0_compat; [apply Qlt_le_weak; exact W | exact S0]).
  assert (Z : (nth j (pin_row L input target) 0 == 0)%Q <-> (s == 0)%Q).
  { rewrite V. unfold Qdiv. split; intros E; [| rewrite E; ring].
    apply Qmult_integral in E. destruct E as [E|E]; [| rewrite E in INV; exfalso; apply (Qlt_irrefl 0); exact INV].
    apply Qmult_integral in E. destruct E as [E|E]; [rewrite E in W; exfalso; apply (Qlt_irrefl 0); exact W | exact E]. }
  split.
  - rewrite V. unfold Qdiv. apply Qmult_le_0_compat; [exact WS | apply Qlt_le_weak; exact INV].
  - rewrite Z. unfold s. clear - F0 Q1 Q2. split.
    + intros E h y Hy. assert (Hh : h < length target) by (apply nth_error_Some; congruence).
      assert (FZ : (f h == 0)%Q).
      { assert (G : forall l, (qsum (map f l) == 0)%Q -> forall i, In i l -> (f i == 0)%Q).
        { induction l as [|a l IH]; intros E' i Hi; [contradiction |]. cbn in E'.
          assert (T : (0 <= qsum (map f l))%Q) by (apply qsum_nonneg; intros x Hx; apply in_map_iff in Hx; destruct Hx as [b [<- _]]; apply F0).
          specialize (F0 a). destruct Hi as [<-|Hi]; [lra |]. apply IH; [lra | exact Hi]. }
        apply (G _ E). apply in_seq. lia. }
      unfold f in FZ. rewrite (nth_error_nth _ _ None Hy) in FZ. apply tick_zero in FZ; assumption.
    + intros A. assert (G : forall l, (forall i, In i l -> (f i == 0)%Q) -> (qsum (map f l) == 0)%Q).
      { induction l as [|a l IH]; intros B; cbn; [reflexivity |]. rewrite (B a) by (left; reflexivity). rewrite IH by (intros; apply B; right; assumption). reflexivity. }
      apply G. intros i Hi. apply in_seq in Hi. unfold f. destruct (nth i target None) as [y|] eqn:E; [| reflexivity].
      apply tick_zero; try assumption. apply A. rewrite <- E. apply nth_error_nth'. lia.
Qed.
(** without weights every quantile counts alike *)
Theorem C207_default q L j : make_pinball q None = Some L -> j < length q -> nth j (weight L) 0%Q = (1 / inject_Z (Z.of_nat (length q)))%Q.
Proof. intros M Hj. destruct (make_ok _ _ _ M) as [_ [E2 E3]]. apply E3. apply nth_In. rewrite E2. exact Hj. Qed.
Example C207_case : exists L, make_pinball [1#2; 9#10]%Q (Some [1; 2])%Q = Some L /\
  Forall2 Qeq (pin_row L [4; 4; 4; 4; 4; 4]%Q [Some 6; None; Some 3]%Q) [3#4; 19#10]%Q.
Proof. eexists. split; [reflexivity |]. repeat constructor. Qed.

(** ** C208: the loss asks for the quantile *)
Open Scope Q_scope.
Definition lt_bool (a b : Q) : bool := negb (Qle_bool b a).
Lemma tick_right q y x z : x <= z -> tick q y x + (z - x) * ((if Qle_bool y x then 1 else 0) - q) <= tick q y z.
Proof.
  intros H. unfold tick. destruct (Qle_bool y x) eqn:E1; destruct (Qle_bool x y) eqn:E2; destruct (Qle_bool z y) eqn:E3;
    repeat match goal with
           | H : Qle_bool _ _ = true |- _ => apply Qle_bool_iff in H
           | H : Qle_bool ?a ?b = false |- _ => assert (b < a) by (apply Qnot_le_lt; intros X; apply Qle_bool_iff in X; congruence); clear H
           end; nra.
Qed.
Lemma tick_left q y x z : z <= x -> tick q y x + (z - x) * ((if lt_bool y x then 1 else 0) - q) <= tick q y z.
Proof.
  intros H. unfold tick, lt_bool. destruct (Qle_bool x y) eqn:E2; destruct (Qle_bool z y) eqn:E3; cbn [negb];
    repeat match goal with
           | H : Qle_bool _ _ = true |- _ => apply Qle_bool_iff in H
           | H : Qle_bool ?a ?b = false |- _ => assert (b < a) by (apply Qnot_le_lt; intros X; apply Qle_bool_iff in X; congruence); clear H
           end; nra.
Qed.
Lemma sum_count (f : Q -> bool) (c q : Q) l : qsum (map (fun y => c * ((if f y then 1 else 0) - q)) l) == c * (count_if f l - q * inject_Z (Z.of_nat (length l))).
Proof.
  unfold count_if. induction l as [|y l IH]; [cbn; ring |]. cbn [map qsum filter]. rewrite IH. destruct (f y); cbn [length]; rewrite ?Nat2Z.inj_succ; unfold Z.succ; rewrite ?inject_Z_plus; ring.
Qed.
Lemma qsum_plus (f g : Q -> Q) l : qsum (map (fun y => f y + g y) l) == qsum (map f l) + qsum (map g l).
Proof. induction l as [|y l IH]; cbn; [ring |]. rewrite IH. ring. Qed.
Lemma quantile_best q ys x z : count_if (fun y => lt_bool y x) ys <= q * inject_Z (Z.of_nat (length ys)) -> q * inject_Z (Z.of_nat (length ys)) <= count_if (fun y => Qle_bool y x) ys ->
  qsum (map (fun y => tick q y x) ys) <= qsum (map (fun y => tick q y z) ys).
Proof.
  intros H1 H2. destruct (Qlt_le_dec z x) as [C|C].
  - apply Qle_trans with (qsum (map (fun y => tick q y x + (z - x) * ((if lt_bool y x then 1 else 0) - q)) ys)).
    + rewrite qsum_plus, sum_count. nra.
    + apply qsum_le. intros y _. apply tick_left. lra.
  - apply Qle_trans with (qsum (map (fun y => tick q y x + (z - x) * ((if Qle_bool y x then 1 else 0) - q)) ys)).
    + rewrite qsum_plus, sum_count. nra.
    + apply qsum_le. intros y _. apply tick_right. exact C.
Qed.
Close Scope Q_scope.
Lemma forward_const q w L ys x : make_pinball [q] (Some [w]) = Some L -> (0 <= q)%Q -> (q <= 1)%Q -> ys <> [] ->
  exists v, fst (pin_forward L RMean (map (fun _ => [x]) ys) (map (fun y => [Some y]) ys)) = Some [[v]] /\
    (v == w * qsum (map (fun y => tick q y x) ys) / inject_Z (Z.of_nat (length ys)))%Q.
Proof.
  intros M H0 H1 NE. destruct (make_ok _ _ _ M) as [E1 [E2 E3]].
  unfold pin_forward. rewrite E1. cbn [length].
  assert (SH : shapes_ok 1 (map (fun _ => [x]) ys) (map (fun y => [Some y]) ys) = true).
  { unfold shapes_ok. rewrite !map_length, Nat.eqb_refl. cbn [andb]. clear. induction ys as [|y ys IH]; [reflexivity |]. cbn. exact IH. }
  rewrite SH. rewrite map_length. destruct (length ys =? 0) eqn:E; [apply Nat.eqb_eq in E; destruct ys; [contradiction | discriminate] |].
  unfold col_sum. cbn [seq map fst]. eexists. split; [reflexivity |]. unfold Qdiv. apply Qmult_comp; [| reflexivity].
  rewrite <- qsum_scale.
  assert (Z : zip_with (pin_row L) (map (fun _ => [x]) ys) (map (fun y => [Some y]) ys) = map (fun y => pin_row L [x] [Some y]) ys)
    by (clear; induction ys as [|y ys IH]; cbn; [reflexivity | rewrite IH; reflexivity]).
  rewrite Z, map_map. apply qsum_ext. intros y _.
  rewrite (C207_value [q] [w] L [x] [Some y] 0 M) by (auto; intros a [<-|[]]; auto). cbn. field.
Qed.
(** among all constant forecasts of a batch the empirical q-quantile of the targets has the least loss *)
Theorem C208_quantile q w L ys x z vx vz :
  make_pinball [q] (Some [w]) = Some L -> (0 <= q)%Q -> (q <= 1)%Q -> (0 <= w)%Q -> ys <> [] ->
  (count_if (fun y => lt_bool y x) ys <= q * inject_Z (Z.of_nat (length ys)))%Q -> (q * inject_Z (Z.of_nat (length ys)) <= count_if (fun y => Qle_bool y x) ys)%Q ->
  fst (pin_forward L RMean (map (fun _ => [x]) ys) (map (fun y => [Some y]) ys)) = Some [[vx]] ->
  fst (pin_forward L RMean (map (fun _ => [z]) ys) (map (fun y => [Some y]) ys)) = Some [[vz]] -> (vx <= vz)%Q.
Proof.
  intros M H0 H1 HW NE C1 C2 EX EZ.
  destruct (forward_const q w L ys x M H0 H1 NE) as [v1 [A1 B1]]. destruct (forward_const q w L ys z M H0 H1 NE) as [v2 [A2 B2]].
  rewrite EX in A1. rewrite EZ in A2. assert (v1 = vx) by congruence. assert (v2 = vz) by congruence. subst v1 v2. rewrite B1, B2.
  pose proof (quantile_best q ys x z C1 C2) as B.
  assert (N : (0 < inject_Z (Z.of_nat (length ys)))%Q) by (change 0%Q with (inject_Z 0); rewrite <- Zlt_Qlt; destruct ys; [contradiction | cbn; lia]).
  unfold Qdiv. apply Qmult_le_compat_r; [| apply Qlt_le_weak; apply Qinv_lt_0_compat; exact N].
  rewrite !(Qmult_comm w). apply Qmult_le_compat_r; assumption.
Qed.
Example C208_case : exists L vx vz, make_pinball [3#4]%Q (Some [1])%Q = Some L /\
  fst (pin_forward L RMean (map (fun _ => [7]) [1; 3; 7; 8])%Q (map (fun y => [Some y]) [1; 3; 7; 8])%Q) = Some [[vx]] /\
  fst (pin_forward L RMean (map (fun _ => [9]) [1; 3; 7; 8])%Q (map (fun y => [Some y]) [1; 3; 7; 8])%Q) = Some [[vz]] /\
  (count_if (fun y => lt_bool y 7) [1; 3; 7; 8] <= (3#4) * 4)%Q /\ ((3#4) * 4 <= count_if (fun y => Qle_bool y 7) [1; 3; 7; 8])%Q /\ (vx < vz)%Q.
Proof. do 3 eexists. split; [reflexivity |]. split; [vm_compute; reflexivity |]. split; [vm_compute; reflexivity |]. repeat split; vm_compute; auto; discriminate. Qed.

(** ** C209: reductions, and the arguments *)
(** the reductions over the rows of a batch *)
Theorem C209_reduction L input target : shapes_ok (length (quantile L)) input target = true ->
  let rows := zip_with (pin_row L) input target in
  fst (pin_forward L RNone input target) = Some rows /\
  (exists s, fst (pin_forward L RSum input target) = Some [s] /\ length s = length (quantile L) /\ forall j, j < length (quantile L) -> nth j s 0%Q = qsum (map (fun r => nth j r 0%Q) rows)) /\
  (input <> [] -> exists a, fst (pin_forward L RMean input target) = Some [a] /\ length a = length (quantile L) /\
     forall j, j < length (quantile L) -> nth j a 0%Q = (qsum (map (fun r => nth j r 0%Q) rows) / inject_Z (Z.of_nat (length input)))%Q).
Proof.
  intros SH rows. unfold pin_forward. rewrite SH. split; [reflexivity |]. split.
  - eexists. split; [reflexivity |]. unfold col_sum. rewrite map_length, seq_length. split; [reflexivity |]. intros j Hj.
    rewrite (map_nth_in _ _ 0) by (rewrite seq_length; exact Hj). rewrite seq_nth by exact Hj. reflexivity.
  - intros NE. destruct (length input =? 0) eqn:E; [apply Nat.eqb_eq in E; destruct input; [contradiction | discriminate] |].
    eexists. split; [reflexivity |]. unfold col_sum. rewrite !map_length, seq_length. split; [reflexivity |]. intros j Hj.
    rewrite map_map. rewrite (map_nth_in _ _ 0) by (rewrite seq_length; exact Hj). rewrite seq_nth by exact Hj. reflexivity.
Qed.
(** rows of the wrong shape are refused *)
Theorem C209_shapes L red input target : length target <> length input -> fst (pin_forward L red input target) = None.
Proof. intros NE. unfold pin_forward, shapes_ok. apply Nat.eqb_neq in NE. rewrite NE. reflexivity. Qed.
(** the caller's target is left as it was only if it has no missing values *)
Theorem C209_target_partial L red input target : (forall row o, In row target -> In o row -> o <> None) -> snd (pin_forward L red input target) = target.
Proof.
  intros H. unfold pin_forward. destruct (shapes_ok _ _ _); [| reflexivity]. cbn [snd].
  rewrite <- (map_id target) at 2. apply map_ext_in. intros row Hr. rewrite <- (map_id row) at 2. apply map_ext_in. intros o Ho.
  specialize (H row o Hr Ho). destruct o; [reflexivity | contradiction].
Qed.
(** missing values of the caller's tensor are overwritten: the same call again gives another loss *)
Theorem C209_target_refuted : exists q w L input target r1 r2,
  make_pinball q (Some w) = Some L /\ fst (pin_forward L RMean input target) = Some r1 /\
  fst (pin_forward L RMean input (snd (pin_forward L RMean input target))) = Some r2 /\ ~ Forall2 (Forall2 Qeq) r1 r2.
Proof.
  exists [1#2]%Q, [1]%Q. eexists. exists [[3; 3]]%Q, [[Some 3; None]]%Q. do 2 eexists.
  split; [reflexivity |]. split; [vm_compute; reflexivity |]. split; [vm_compute; reflexivity |].
  intros H. inversion H as [|? ? ? ? H1 _]; subst. inversion H1 as [|? ? ? ? H2 _]; subst. vm_compute in H2. discriminate.
Qed.

Print Assumptions C207_value.
Print Assumptions C207_shape.
Print Assumptions C207_zero.
Print Assumptions C207_default.
Print Assumptions C208_quantile.
Print Assumptions C209_reduction.
Print Assumptions C209_shapes.
Print Assumptions C209_target_partial.
Print Assumptions C209_target_refuted.
