(** C298: what the network of the global model remembers from call to call. *)
From Coq Require Import ZArith Reals String List Bool Lia Lra.
From Verif Require Import RnnModel RnnProofs RnnShapeProofs RnnProps.
Import ListNotations.
Open Scope R_scope.

(** *** Specification *)

(** The last [k] of what was kept. *)
Definition recent (k : nat) (m : memory) : memory :=
  M (skipn (List.length (m_h m) - k) (m_h m)) (skipn (List.length (m_c m) - k) (m_c m)).

(** The outputs of a sequence of calls, if none of them raises. *)
Definition outputs (s : stack) (m : memory) (xs : list tensor) : option (list tensor) :=
  option_map snd (calls s m xs).

(** *** Proofs *)

Lemma look_skip (st : store) cur r q layer :
  (r <= List.length st)%nat -> (Z.of_nat r <= q)%Z ->
  look (skipn r st ++ [cur]) (q - Z.of_nat r) layer = look (st ++ [cur]) q layer.
Proof.
  intros L Q0. unfold look. rewrite (proj2 (Z.ltb_ge _ 0)) by lia. rewrite (proj2 (Z.ltb_ge q 0)) by lia.
  replace (skipn r st ++ [cur]) with (skipn r (st ++ [cur])).
  - rewrite nth_skipn_add. replace (r + Z.to_nat (q - Z.of_nat r))%nat with (Z.to_nat q) by lia. reflexivity.
  - rewrite skipn_app. replace (r - List.length st)%nat with O by lia. reflexivity.
Qed.

(** Dropping [r] old calls does not change a layer whose dilation fits. *)
Lemma layer_skip c m hc cc d layer x r :
  let t := List.length (m_h m) in
  List.length (m_c m) = t -> (r = 0%nat \/ ((r < t)%nat /\ (Z.of_nat r <= Z.of_nat t - d)%Z)) ->
  layer_call c (skipn r (m_h m) ++ [hc]) (skipn r (m_c m) ++ [cc]) (t - r) (Z.of_nat (t - r) - d) layer x =
  layer_call c (m_h m ++ [hc]) (m_c m ++ [cc]) t (Z.of_nat t - d) layer x.
Proof.
  intros t LC [->|[L D]]; [rewrite !Nat.sub_0_r; reflexivity|].
  unfold layer_call.
  assert (E1 : (Z.of_nat (t - r) - d = Z.of_nat t - d - Z.of_nat r)%Z) by lia.
  assert (E2 : (Z.of_nat (t - r - 1) = Z.of_nat (t - 1) - Z.of_nat r)%Z) by lia.
  rewrite E2. rewrite E1.
  rewrite !(look_skip (m_h m) hc r) by (fold t; lia).
  rewrite !(look_skip (m_c m) cc r) by lia.
  replace (Nat.ltb 0 (t - r)) with true by (symmetry; apply Nat.ltb_lt; lia).
  replace (Nat.ltb 0 t) with true by (symmetry; apply Nat.ltb_lt; lia).
  replace (0 <=? Z.of_nat t - d - Z.of_nat r)%Z with true by (symmetry; apply Z.leb_le; lia).
  replace (0 <=? Z.of_nat t - d)%Z with true by (symmetry; apply Z.leb_le; lia).
  reflexivity.
Qed.

Definition drop_m (r : nat) (m : memory) : memory := M (skipn r (m_h m)) (skipn r (m_c m)).

Lemma block_skip cs m r ds : forall layer x hc cc,
  List.length (m_c m) = List.length (m_h m) ->
  (r = 0%nat \/ ((r < List.length (m_h m))%nat /\
     forall d, In d ds -> (Z.of_nat r <= Z.of_nat (List.length (m_h m)) - d)%Z)) ->
  run_block cs (drop_m r m) (List.length (m_h m) - r) ds layer x hc cc =
  run_block cs m (List.length (m_h m)) ds layer x hc cc.
Proof.
  induction ds as [|d ds IH]; intros layer x hc cc LC H; [reflexivity|].
  cbn [run_block]. destruct (nth_error cs layer) as [c|]; [|reflexivity]. cbn [bind].
  cbn [drop_m m_h m_c]. rewrite layer_skip; [|exact LC|].
  - destruct (layer_call _ _ _ _ _ _ _) as [[o [h n]]|]; [|reflexivity].
    change (M (skipn r (m_h m)) (skipn r (m_c m))) with (drop_m r m).
    apply IH; [exact LC|]. destruct H as [H|[L H]]; [left; exact H|right].
    split; [exact L|]. intros d' I. apply H. right. exact I.
  - destruct H as [H|[L H]]; [left; exact H|right]. split; [exact L|]. apply H. left. reflexivity.
Qed.

Lemma blocks_skip cs m r bs : forall layer x prev hc cc,
  List.length (m_c m) = List.length (m_h m) ->
  (r = 0%nat \/ ((r < List.length (m_h m))%nat /\
     forall d, In d (List.concat bs) -> (Z.of_nat r <= Z.of_nat (List.length (m_h m)) - d)%Z)) ->
  run_blocks cs (drop_m r m) (List.length (m_h m) - r) bs layer x prev hc cc =
  run_blocks cs m (List.length (m_h m)) bs layer x prev hc cc.
Proof.
  induction bs as [|b bs IH]; intros layer x prev hc cc LC H; [reflexivity|].
  cbn [run_blocks]. rewrite block_skip; [|exact LC|].
  - destruct (run_block _ _ _ _ _ _ _ _) as [[h1 c1] [o|]]; [|reflexivity].
    destruct (tzip Rplus o prev); [|reflexivity]. apply IH; [exact LC|].
    destruct H as [H|[L H]]; [left; exact H|right]. split; [exact L|].
    intros d I. apply H. cbn [List.concat]. apply in_or_app. right. exact I.
  - destruct H as [H|[L H]]; [left; exact H|right]. split; [exact L|].
    intros d I. apply H. cbn [List.concat]. apply in_or_app. left. exact I.
Qed.

Lemma forward_skip s m x r :
  List.length (m_c m) = List.length (m_h m) ->
  (r = 0%nat \/ ((r < List.length (m_h m))%nat /\
     forall d, In d (List.concat (s_struct s)) -> (Z.of_nat r <= Z.of_nat (List.length (m_h m)) - d)%Z)) ->
  forward s (drop_m r m) x = (drop_m r (fst (forward s m x)), snd (forward s m x)).
Proof.
  intros LC H. unfold forward. destruct (zeros (t_n x) (Z.of_nat (s_out s))) as [z|]; [|reflexivity].
  cbv zeta. replace (List.length (m_h (drop_m r m))) with (List.length (m_h m) - r)%nat
    by (cbn [drop_m m_h]; rewrite skipn_length; reflexivity).
  rewrite (blocks_skip _ _ _ _ _ _ _ _ _ LC H).
  destruct (run_blocks _ _ _ _ _ _ _ _ _) as [[hc cc] o]. cbn [fst snd drop_m m_h m_c].
  apply f_equal2; [|reflexivity]. unfold drop_m. cbn [m_h m_c].
  assert (R0 : (r <= List.length (m_h m))%nat) by (destruct H as [->|[H _]]; lia).
  rewrite !skipn_app. rewrite LC. replace (r - List.length (m_h m))%nat with O by lia. reflexivity.
Qed.

Lemma forward_len s m x m' o :
  forward s m x = (m', Some o) -> List.length (m_c m) = List.length (m_h m) ->
  List.length (m_h m') = S (List.length (m_h m)) /\ List.length (m_c m') = S (List.length (m_h m)).
Proof.
  unfold forward. destruct (zeros _ _); [|discriminate]. cbv zeta.
  destruct (run_blocks _ _ _ _ _ _ _ _ _) as [[hc cc] q]. intros H LC.
  injection H as <- _. cbn [m_h m_c]. rewrite !app_length. cbn. lia.
Qed.

Lemma calls_skip s xs : forall m r,
  List.length (m_c m) = List.length (m_h m) ->
  (r = 0%nat \/ ((r < List.length (m_h m))%nat /\
     forall d, In d (List.concat (s_struct s)) -> (Z.of_nat r <= Z.of_nat (List.length (m_h m)) - d)%Z)) ->
  outputs s (drop_m r m) xs = outputs s m xs.
Proof.
  induction xs as [|x xs IH]; intros m r LC H; [reflexivity|].
  unfold outputs. cbn [calls]. rewrite (forward_skip s m x r LC H).
  destruct (forward s m x) as [m1 [y|]] eqn:E; [|reflexivity]. cbn [fst snd].
  destruct (forward_len _ _ _ _ _ E LC) as [L1 L2].
  specialize (IH m1 r ltac:(lia)). unfold outputs in IH.
  assert (Q0 : option_map snd (calls s (drop_m r m1) xs) = option_map snd (calls s m1 xs)).
  { apply IH. destruct H as [H|[L H]]; [left; exact H|right]. split; [lia|].
    intros d I. specialize (H d I). lia. }
  destruct (calls s (drop_m r m1) xs) as [[a b]|], (calls s m1 xs) as [[a' b']|]; cbn in Q0 |- *;
    congruence.
Qed.

(** How far back a call can look: a network goes on exactly as if everything
    but the last [k] calls had never been kept, for every [k] that is at least
    its largest dilation (and at least one). *)
Theorem C298_window s k m xs :
  List.length (m_c m) = List.length (m_h m) -> (1 <= k)%nat ->
  (forall d, In d (List.concat (s_struct s)) -> d <= Z.of_nat k)%Z ->
  outputs s (recent k m) xs = outputs s m xs.
Proof.
  intros LC K D. unfold recent. rewrite LC.
  apply (calls_skip s xs m (List.length (m_h m) - k) LC).
  destruct (Nat.le_gt_cases (List.length (m_h m)) k) as [L|L]; [left; lia|right].
  split; [lia|]. intros d I. specialize (D d I). lia.
Qed.

Lemma fold_max_ge r : forall a d, In d (a :: r) -> (d <= fold_left Z.max r a)%Z.
Proof.
  induction r as [|b r IH]; intros a d I; [destruct I as [->|[]]; cbn; lia|].
  cbn [fold_left]. destruct I as [->|[->|I]].
  - specialize (IH (Z.max d b) (Z.max d b) (or_introl eq_refl)). lia.
  - specialize (IH (Z.max a d) (Z.max a d) (or_introl eq_refl)). lia.
  - apply IH. right. exact I.
Qed.

Lemma fold_max_in r : forall a, In (fold_left Z.max r a) (a :: r).
Proof.
  induction r as [|b r IH]; intro a; [left; reflexivity|].
  cbn [fold_left]. destruct (IH (Z.max a b)) as [E|I].
  - rewrite <- E. destruct (Z.max_spec a b) as [[_ ->]|[_ ->]]; [right; left|left]; reflexivity.
  - right. right. exact I.
Qed.

Lemma max_list_spec l m : max_list l = Some m -> In m l /\ forall d, In d l -> (d <= m)%Z.
Proof.
  destruct l as [|a r]; [discriminate|]. cbn [max_list]. intro H. apply some_eq in H. subst m.
  split; [apply fold_max_in|]. intros d I. apply fold_max_ge, I.
Qed.

Lemma maxes_spec (bs : list (list Z)) ms :
  fold_right (fun b acc => do a <- acc; do m <- max_list b; Some (m :: a)) (Some []) bs = Some ms ->
  (forall d, In d (List.concat bs) -> exists m, In m ms /\ (d <= m)%Z) /\
  (forall m, In m ms -> In m (List.concat bs)).
Proof.
  revert ms. induction bs as [|b bs IH]; intros ms H.
  - cbn in H. apply some_eq in H. subst ms. split; intros d [].
  - cbn [fold_right] in H. destruct (fold_right _ _ bs) as [a|]; [|discriminate]. cbn [bind] in H.
    destruct (max_list b) as [m|] eqn:MB; [|discriminate]. cbn [bind] in H. apply some_eq in H. subst ms.
    destruct (IH a eq_refl) as [I1 I2]. destruct (max_list_spec _ _ MB) as [MI MG]. cbn [List.concat]. split.
    + intros d I. apply in_app_or in I. destruct I as [I|I].
      * exists m. split; [left; reflexivity|exact (MG d I)].
      * destruct (I1 d I) as [m' [J1 J2]]. exists m'. split; [right; exact J1|exact J2].
    + intros q [<-|I]; apply in_or_app; [left; exact MI|right; exact (I2 q I)].
Qed.

Lemma build_max struct name input state output h W W' A s :
  build struct name input state output h W W' A = Some s ->
  In (s_max s) (List.concat struct) /\ forall d, In d (List.concat struct) -> (d <= s_max s)%Z.
Proof.
  intro H. unfold build in H.
  destruct (fold_right _ _ struct) as [ms|] eqn:EM; [|discriminate]. cbn [bind] in H.
  destruct (max_list ms) as [mx|] eqn:EX; [|discriminate]. cbn [bind] in H.
  destruct (validate name state h) as [v|]; [|discriminate]. cbn [bind] in H. cbv zeta in H.
  destruct (new_cells _ _ _ _ _ _ _ _ _); [|discriminate]. cbn [bind] in H.
  destruct (match output with None => _ | Some o => _ end); [|discriminate]. cbn [bind] in H.
  apply some_eq in H. subst s. cbn [s_max].
  destruct (maxes_spec _ _ EM) as [M1 M2]. destruct (max_list_spec _ _ EX) as [X1 X2].
  split; [exact (M2 _ X1)|]. intros d I. destruct (M1 d I) as [m [J1 J2]]. specialize (X2 m J1). lia.
Qed.

(** Preparing a decoder hands over as much as it can ever look at, provided no
    dilation of the decoder is larger than the encoder's largest: it answers as
    if it had been given all the states of the encoder. *)
Theorem C298_decoder_partial struct name input state output h W W' A enc dec m xs :
  build struct name input state output h W W' A = Some enc ->
  (forall d, In d (List.concat struct) -> 1 <= d)%Z ->
  List.length (m_c m) = List.length (m_h m) ->
  (forall d, In d (List.concat (s_struct dec)) -> exists e, In e (List.concat struct) /\ d <= e)%Z ->
  outputs dec (prepare_decoder enc m) xs = outputs dec m xs.
Proof.
  intros B D1 LC DD. destruct (build_max _ _ _ _ _ _ _ _ _ _ B) as [MI MG].
  pose proof (D1 _ MI) as K1.
  assert (E : prepare_decoder enc m = recent (Z.to_nat (s_max enc)) m).
  { unfold prepare_decoder, last_k, recent.
    destruct (s_max enc <=? 0)%Z eqn:Q0; [apply Z.leb_le in Q0; lia|reflexivity]. }
  rewrite E. apply C298_window; [exact LC|lia|].
  intros d I. destruct (DD d I) as [e [J1 J2]]. specialize (MG e J1). lia.
Qed.

(** With a larger dilation in the decoder it is not so: here the encoder (the
    default structure [[1, 3]]) has been called four times with states of its
    own, and a decoder with structure [[1, 4]] is prepared.  With the states at
    hand it would look at the first call; it gets the last three and looks at
    the last instead. *)
Definition demo_cell (i : nat) : cell :=
  Cell K_LSTM (Lin i 4 (fun _ _ => 0) (fun _ => 0)) (Lin 1 4 (fun o _ => if Nat.eqb o 2 then 1 else 0) (fun _ => 0)) 0 1.
Definition demo (struct : list (list Z)) (mx : Z) : stack :=
  Stack struct [demo_cell 1; demo_cell 1] None 1 mx.

Definition one (v : R) : tensor := T 1 [[v]].
Definition four : memory :=
  M [[one 0; one 1]; [one 0; one 0]; [one 0; one 0]; [one 0; one 0]]
    [[one 0; one 0]; [one 0; one 0]; [one 0; one 0]; [one 0; one 0]].

Lemma sig0 : sigmoid 0 = / 2.
Proof. unfold sigmoid. rewrite Ropp_0, exp_0. lra. Qed.

Lemma tanh_pos v : 0 < v -> 0 < tanh v.
Proof.
  intro H. unfold tanh, sinh, cosh. pose proof (exp_pos v). pose proof (exp_pos (- v)).
  assert (exp (- v) < exp v) by (apply exp_increasing; lra).
  apply Rmult_lt_0_compat; [lra|]. apply Rinv_0_lt_compat. lra.
Qed.

Lemma demo_lstm q v w :
  lstm (demo_cell 1) (one q) (Some (one v, one w)) =
  Some (one (/ 2 * tanh (/ 2 * w + / 2 * tanh v)), one (/ 2 * w + / 2 * tanh v)).
Proof.
  unfold lstm, demo_cell, one. cbn [bind fst snd c_lin c_hh].
  assert (L1 : linear (Lin 1 4 (fun _ _ => 0) (fun _ => 0)) (T 1 [[q]]) = Some (T 4 [[0; 0; 0; 0]])).
  { unfold linear, affine, dot. cbn. do 3 f_equal. repeat (apply f_equal2; [lra|]). reflexivity. }
  assert (L2 : linear (Lin 1 4 (fun o _ => if Nat.eqb o 2 then 1 else 0) (fun _ => 0)) (T 1 [[v]])
               = Some (T 4 [[0; 0; v; 0]])).
  { unfold linear, affine, dot. cbn. do 3 f_equal. repeat (apply f_equal2; [lra|]). reflexivity. }
  rewrite L1, L2. cbn -[sigmoid tanh]. rewrite !Rplus_0_l, sig0. reflexivity.
Qed.

Ltac pn := change (Pos.to_nat 3) with 3%nat; change (Pos.to_nat 2) with 2%nat; change (Pos.to_nat 1) with 1%nat.

Theorem C298_decoder_refuted :
  List.length (m_c four) = List.length (m_h four) /\
  exists a b,
    outputs (demo [[1; 4]]%Z 4) four [one 0] = Some [one a] /\
    outputs (demo [[1; 4]]%Z 4) (prepare_decoder (demo [[1; 3]]%Z 3) four) [one 0] = Some [one b] /\
    a <> b.
Proof.
  split; [reflexivity|].
  assert (T0 : tanh 0 = 0) by (unfold tanh, sinh; rewrite Ropp_0; unfold Rdiv; lra).
  assert (L0 : forall q, lstm (demo_cell 1) (one q) (Some (one 0, one 0)) = Some (one 0, one 0)).
  { intro q. rewrite demo_lstm, T0. replace (/ 2 * 0 + / 2 * 0) with 0 by lra. rewrite T0.
    replace (/ 2 * 0) with 0 by lra. reflexivity. }
  assert (SUM : forall v, tzip Rplus (one v) (one 0) = Some (one v)).
  { intro v. unfold tzip, one. cbn. rewrite Rplus_0_r. reflexivity. }
  exists (/ 2 * tanh (/ 2 * 0 + / 2 * tanh 1)), 0.
  assert (Z1 : zeros (t_n (one 0)) 1 = Some (one 0)) by reflexivity.
  assert (DL : forall hst cst t ti layer x, layer_call (demo_cell 1) hst cst t ti layer x =
     do hn <- (if (0 <=? ti)%Z then
                  do h <- look hst ti layer; do n <- look cst ti layer; lstm (demo_cell 1) x (Some (h, n))
                else if Nat.ltb 0 t then
                  do h <- look hst (Z.of_nat (t - 1)) layer; do n <- look cst (Z.of_nat (t - 1)) layer;
                  lstm (demo_cell 1) x (Some (h, n))
                else lstm (demo_cell 1) x None);
      Some (fst hn, hn)) by reflexivity.
  split; [|split].
  - unfold outputs, calls, forward. cbn [s_out demo]. change (Z.of_nat 1) with 1%Z. rewrite Z1.
    cbn -[layer_call demo_cell one tzip tanh]. rewrite DL. pn. cbn -[lstm demo_cell one tzip tanh layer_call]. pn.
    cbn -[lstm demo_cell one tzip tanh layer_call]. rewrite L0. cbn -[lstm demo_cell one tzip tanh layer_call]. rewrite DL.
    cbn -[lstm demo_cell one tzip tanh]. pn. cbn -[lstm demo_cell one tzip tanh].
    rewrite demo_lstm. cbn -[lstm one tzip tanh]. rewrite SUM. reflexivity.
  - unfold outputs, calls, forward. cbn [s_out demo]. change (Z.of_nat 1) with 1%Z. rewrite Z1.
    cbn -[layer_call demo_cell one tzip tanh]. rewrite DL. pn. cbn -[lstm demo_cell one tzip tanh layer_call]. pn.
    cbn -[lstm demo_cell one tzip tanh layer_call]. rewrite L0. cbn -[lstm demo_cell one tzip tanh layer_call]. rewrite DL.
    cbn -[lstm demo_cell one tzip tanh]. pn. cbn -[lstm demo_cell one tzip tanh].
    rewrite L0. cbn -[lstm one tzip tanh]. rewrite SUM. reflexivity.
  - pose proof (tanh_pos 1 ltac:(lra)) as P1.
    pose proof (tanh_pos (/ 2 * 0 + / 2 * tanh 1) ltac:(lra)). lra.
Qed.

(** Clearing the states makes the network answer as if it were new, whatever it
    was asked before. *)
Theorem C298_reset s m xs : calls s (reset_state m) xs = calls s blank xs.
Proof. reflexivity. Qed.

(** After a call that raised because of an input of the wrong width, a network
    of S2 or LSTM2 cells refuses every further call, until its states are
    cleared. *)
Definition keep_trying (s : stack) (m : memory) (xs : list tensor) : memory :=
  fold_left (fun m x => fst (forward s m x)) xs m.

Lemma first_gone s m c d ds bs :
  s_struct s = (d :: ds) :: bs -> nth_error (s_cells s) 0 = Some c -> c_kind c <> K_LSTM ->
  List.length (m_c m) = List.length (m_h m) ->
  (exists h' e, m_h m = h' ++ [e] /\ e = []) ->
  forall x, snd (forward s m x) = None /\
    (exists h' e, m_h (fst (forward s m x)) = h' ++ [e] /\ e = []) /\
    List.length (m_c (fst (forward s m x))) = List.length (m_h (fst (forward s m x))).
Proof.
  intros ES EC K LC [h' [e [EH ->]]] x. unfold forward.
  destruct (zeros_ok (t_n x) (Z.of_nat (s_out s))) as [z [EZ _]]; [lia|]. rewrite EZ. cbv zeta.
  assert (LH : List.length (m_h m) = S (List.length h')) by (rewrite EH, app_length; cbn; lia).
  assert (LK : look (m_h m ++ [[]]) (Z.of_nat (List.length (m_h m) - 1)) 0 = None).
  { unfold look. rewrite (proj2 (Z.ltb_ge _ 0)) by lia. rewrite Nat2Z.id, LH, EH.
    rewrite <- app_assoc, nth_error_app2 by lia. replace (S (List.length h') - 1 - List.length h')%nat with O by lia.
    reflexivity. }
  assert (LY : layer_call c (m_h m ++ [[]]) (m_c m ++ [[]]) (List.length (m_h m))
                 (Z.of_nat (List.length (m_h m)) - d) 0 x = None).
  { unfold layer_call. cbv zeta. rewrite LK. replace (Nat.ltb 0 (List.length (m_h m))) with true
      by (symmetry; apply Nat.ltb_lt; lia).
    destruct (c_kind c); [congruence| |]; destruct (0 <=? _)%Z; reflexivity. }
  rewrite ES. cbn [run_blocks run_block]. rewrite EC. cbn [bind]. rewrite LY. cbn [fst snd bind m_h m_c].
  split; [reflexivity|]. split; [exists (m_h m), []; split; reflexivity|]. rewrite !app_length, LC. reflexivity.
Qed.

Lemma wrong_first_ok c x ph dh cs p d : l_in (c_lin c) <> (t_width x + 2 * Z.to_nat (c_h c))%nat ->
  (0 <= c_h c)%Z -> p = false -> d = false -> c_kind c <> K_LSTM ->
  lstm2 c x p d ph dh cs = None /\ forall dc, s2 c x p d ph dh cs dc = None.
Proof.
  intros NE H0 -> -> K.
  assert (G : (do xh <- gate_input c x false false ph dh; linear (c_lin c) xh) = None).
  { unfold gate_input. destruct (zeros_ok (t_n x) (2 * c_h c)) as [z [EZ [WZ [NZ _]]]]; [lia|].
    rewrite EZ. cbn [bind]. unfold cat2. unfold t_n at 2. rewrite NZ, Nat.eqb_refl. cbn [bind].
    unfold linear. cbn [t_width]. rewrite WZ.
    destruct (Nat.eqb (t_width x + Z.to_nat (2 * c_h c)) (l_in (c_lin c))) eqn:E; [|reflexivity].
    apply Nat.eqb_eq in E. lia. }
  unfold lstm2, s2. destruct (gate_input c x false false ph dh) as [xh|]; [|split; reflexivity].
  cbn [bind] in G |- *. rewrite G. split; reflexivity.
Qed.

Theorem C298_spoilt struct name input state output h W W' A s x xs m :
  build struct name input state output (Some h) W W' A = Some s -> (0 <= h)%Z ->
  name <> "LSTM"%string ->
  t_width x <> input ->
  fst (forward s blank x) = m ->
  snd (forward s blank x) = None /\
  (forall y, snd (forward s (keep_trying s m xs) y) = None) /\
  forall y, calls s (reset_state m) y = calls s blank y.
Proof.
  intros B H0 NL NX EM. destruct (build_made _ _ _ _ _ _ _ _ _ _ B) as [MD [ES [HN [EA HO]]]].
  assert (K : kind_of name <> K_LSTM).
  { unfold kind_of. destruct (String.eqb name "LSTM") eqn:E; [apply String.eqb_eq in E; congruence|].
    destruct (String.eqb name "S2Cell"); discriminate. }
  assert (HH : h_of name (Some h) = h).
  { unfold h_of. destruct (String.eqb name "LSTM") eqn:E; [apply String.eqb_eq in E; congruence|reflexivity]. }
  destruct (md_blocks _ _ _ _ _ MD) as [NE NS].
  destruct (s_struct s) as [|[|d ds] bs] eqn:SS; [congruence|exfalso; apply (NE []); [left; reflexivity|reflexivity]|].
  destruct (md_cells _ _ _ _ _ MD O) as [c [EC [CK [CH [CS [CO CI]]]]]].
  { rewrite (md_len _ _ _ _ _ MD), SS. cbn. lia. }
  rewrite HH in CH. cbn [Nat.eqb] in CI. rewrite HH in CI.
  assert (LI : Z.of_nat (l_in (c_lin c)) = (Z.of_nat input + 2 * h)%Z)
    by (destruct (kind_of name); [congruence|exact CI|exact CI]).
  assert (F : forward s blank x = (M [[]] [[]], None)).
  { unfold forward. destruct (zeros_ok (t_n x) (Z.of_nat (s_out s))) as [z [EZ _]]; [lia|]. rewrite EZ. cbv zeta.
    rewrite SS. cbn [blank m_h m_c List.length run_blocks run_block]. rewrite EC. cbn [bind].
    assert (LY : layer_call c [[]] [[]] 0 (Z.of_nat 0 - d) 0 x = None \/ (d <= 0)%Z) by
      (destruct (Z.le_gt_cases d 0) as [D|D]; [right; exact D|left;
       destruct (wrong_first_ok c x noneT noneT noneT false false) as [W1 W2];
        [rewrite CH; lia|rewrite CH; exact H0|reflexivity|reflexivity|rewrite CK; exact K|];
       unfold layer_call; cbv zeta; replace (0 <=? Z.of_nat 0 - d)%Z with false
         by (symmetry; apply Z.leb_gt; lia);
       destruct (c_kind c) eqn:Q0; [congruence|exact W1|exact (W2 noneT)]]).
    assert (LY' : layer_call c [[]] [[]] 0 (Z.of_nat 0 - d) 0 x = None).
    { destruct LY as [LY|D]; [exact LY|]. unfold layer_call. cbv zeta.
      replace (0 <=? Z.of_nat 0 - d)%Z with true by (symmetry; apply Z.leb_le; lia).
      destruct (c_kind c) eqn:Q0; [congruence|reflexivity|reflexivity]. }
    cbn [app]. rewrite LY'. reflexivity. }
  rewrite F in EM |- *. cbn [fst snd] in *. subst m.
  split; [reflexivity|]. split; [|reflexivity].
  assert (G : forall m, List.length (m_c m) = List.length (m_h m) ->
     (exists h' e, m_h m = h' ++ [e] /\ e = []) ->
     forall y, snd (forward s (keep_trying s m xs) y) = None).
  { clear -SS EC CK K. induction xs as [|x1 xs IH]; intros m LC G y.
    - apply (first_gone s m c d ds bs SS EC); [rewrite CK; exact K|exact LC|exact G].
    - destruct (first_gone s m c d ds bs SS EC) with (x := x1) as [_ [G1 L1]];
        [rewrite CK; exact K|exact LC|exact G|]. exact (IH _ L1 G1 y). }
  apply G; [reflexivity|]. exists [], []. split; reflexivity.
Qed.

(** A dilation of zero is accepted by the constructor, and every call raises. *)
Theorem C298_zero_dilation struct name input state output h W W' A s ds bs x m :
  build struct name input state output h W W' A = Some s -> struct = (0%Z :: ds) :: bs ->
  List.length (m_c m) = List.length (m_h m) ->
  snd (forward s m x) = None.
Proof.
  intros B ST LC. destruct (build_made _ _ _ _ _ _ _ _ _ _ B) as [MD [ES [HN [EA HO]]]].
  unfold forward. destruct (zeros_ok (t_n x) (Z.of_nat (s_out s))) as [z [EZ _]]; [lia|]. rewrite EZ. cbv zeta.
  destruct (md_cells _ _ _ _ _ MD O) as [c [EC _]].
  { rewrite (md_len _ _ _ _ _ MD), ES, ST. cbn. lia. }
  rewrite ES, ST. cbn [run_blocks run_block]. rewrite EC. cbn [bind].
  set (t := List.length (m_h m)) in *.
  assert (LK : forall st : store, List.length st = t -> look (st ++ [[]]) (Z.of_nat t) 0 = None).
  { intros st L. unfold look. rewrite (proj2 (Z.ltb_ge _ 0)) by lia. rewrite Nat2Z.id, nth_error_app2 by lia.
    rewrite L, Nat.sub_diag. reflexivity. }
  assert (LY : layer_call c (m_h m ++ [[]]) (m_c m ++ [[]]) t (Z.of_nat t - 0) 0 x = None).
  { unfold layer_call. cbv zeta. rewrite Z.sub_0_r, (LK (m_h m) eq_refl).
    replace (0 <=? Z.of_nat t)%Z with true by (symmetry; apply Z.leb_le; lia).
    destruct (c_kind c).
    - reflexivity.
    - destruct (look (m_h m ++ [[]]) (Z.of_nat (t - 1)) 0); reflexivity.
    - destruct (look (m_h m ++ [[]]) (Z.of_nat (t - 1)) 0); reflexivity. }
  rewrite LY. reflexivity.
Qed.

Example C298_case :
  exists s : stack,
    build [[1; 2]; [3]]%Z "S2Cell" 2 3 (Some 4%Z) (Some 1%Z)
      (fun _ => (fun _ _ => 1, fun _ => 0)) (fun _ => (fun _ _ => 0, fun _ => 0)) (fun _ _ => 1, fun _ => 1) = Some s /\
    s_max s = 3%Z /\
    (snd (forward s blank (T 1 [[1]])) = None /\
     snd (forward s (fst (forward s blank (T 1 [[1]]))) (T 2 [[1; 2]])) = None) /\
    exists m ys, calls s blank [T 2 [[1; 2]]; T 2 [[0; 5]]; T 2 [[1; 1]]; T 2 [[1; 1]]] = Some (m, ys) /\
      forall xs, outputs s (prepare_decoder s m) xs = outputs s m xs.
Proof.
  set (W := fun _ : nat => (fun _ _ : nat => 1, fun _ : nat => 0)).
  set (W' := fun _ : nat => (fun _ _ : nat => 0, fun _ : nat => 0)).
  set (A := (fun _ _ : nat => 1, fun _ : nat => 1)).
  assert (BD : exists s, build [[1; 2]; [3]]%Z "S2Cell" 2 3 (Some 4%Z) (Some 1%Z) W W' A = Some s /\
               s_max s = 3%Z /\ s_struct s = [[1; 2]; [3]]%Z).
  { eexists. split; [unfold build; cbn -[W W' A]; reflexivity|split; reflexivity]. }
  destruct BD as [s [BD [MX SS]]]. exists s. split; [exact BD|]. split; [exact MX|]. split.
  - destruct (C298_spoilt _ _ _ _ _ _ _ _ _ s (T 1 [[1]]) [] (fst (forward s blank (T 1 [[1]]))) BD)
      as [E1 [E2 _]]; [lia|discriminate|cbn; lia|reflexivity|].
    split; [exact E1|]. apply E2.
  - destruct (build_made _ _ _ _ _ _ _ _ _ _ BD) as [MD _].
    assert (D1 : forall d, In d (List.concat (s_struct s)) -> (1 <= d)%Z).
    { rewrite SS. cbn. intros d [<-|[<-|[<-|[]]]]; lia. }
    destruct (calls_ok 1 _ _ 3 2 s [T 2 [[1; 2]]; T 2 [[0; 5]]; T 2 [[1; 1]]; T 2 [[1; 1]]] blank MD)
      as [m [ys [E [SD _]]]].
    + intros _. cbn. lia.
    + exact D1.
    + apply blank_sound.
    + intros x I. assert (G : forall a b, is_batch 1 2 (T 2 [[a; b]])).
      { intros. split; [reflexivity|]. split; [reflexivity|]. intros r [<-|[]]; reflexivity. }
      cbn in I. destruct I as [<-|[<-|[<-|[<-|[]]]]]; apply G.
    + exists m, ys. split; [exact E|]. intro xs.
      apply (C298_decoder_partial _ _ _ _ _ _ _ _ _ s s m xs BD).
      * rewrite SS in D1. exact D1.
      * exact (proj2 (proj2 SD)).
      * rewrite SS. intros d I. exists d. split; [exact I|lia].
Qed.

Print Assumptions C298_window.
Print Assumptions C298_decoder_partial.
Print Assumptions C298_decoder_refuted.
Print Assumptions C298_reset.
Print Assumptions C298_spoilt.
Print Assumptions C298_zero_dilation.
