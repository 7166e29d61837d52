(** C297: what the network of the global model answers for a batch of series. *)
From Coq Require Import ZArith Reals String List Bool Lia Lra.
From Verif Require Import RnnModel RnnProofs RnnShapeProofs.
Import ListNotations.
Open Scope R_scope.

(** *** Specification: see [is_batch], [alone] and [entry] in RnnProofs. *)

(** The states nobody has written to yet. *)
Definition blank : memory := M [] [].

(** The width of what a stack returns. *)
Definition answer_width (name : string) (state : nat) (h output : option Z) : Z :=
  match output with
  | Some o => o
  | None => if String.eqb name "LSTM" then Z.of_nat state
            else match h with Some z => (Z.of_nat state - z)%Z | None => 0%Z end
  end.

Lemma calls_ok n k h state input s xs : forall m,
  made k h state input s -> (k <> K_LSTM -> 0 <= h)%Z ->
  (forall d, In d (List.concat (s_struct s)) -> 1 <= d)%Z ->
  sound n k h state (List.length (s_cells s)) m ->
  (forall x, In x xs -> is_batch n input x) ->
  exists m' ys, calls s m xs = Some (m', ys) /\
    sound n k h state (List.length (s_cells s)) m' /\
    List.length (m_h m') = (List.length (m_h m) + List.length xs)%nat /\
    List.length ys = List.length xs /\
    forall y, In y ys -> is_batch n (match s_adaptor s with Some a => l_out a | None => s_out s end) y.
Proof.
  induction xs as [|x xs IH]; intros m MD H0 DS SD XS.
  - exists m, []. split; [reflexivity|]. split; [exact SD|]. cbn. rewrite Nat.add_0_r.
    split; [reflexivity|]. split; [reflexivity|]. intros y [].
  - destruct (forward_ok n k h state input s m x MD H0 DS SD (XS x (or_introl eq_refl)))
      as [m1 [y [E [S1 [L1 Y]]]]].
    destruct (IH m1 MD H0 DS S1 (fun q I => XS q (or_intror I))) as [m2 [ys [E2 [S2' [L2 [L3 YS]]]]]].
    exists m2, (y :: ys). cbn [calls]. rewrite E, E2. cbn [bind fst snd List.length].
    split; [reflexivity|]. split; [exact S2'|]. split; [lia|]. split; [lia|].
    intros q [<-|I]; auto.
Qed.

Lemma blank_sound n k h state L : sound n k h state L blank.
Proof. split; [intros e []|]. split; [intros e []|reflexivity]. Qed.

(** Every network the constructor accepts, with dilations of at least one and a
    hidden state that is not of negative size, answers every sequence of batches
    of the declared width, whatever its weights, with a batch of as many series
    and of the declared width. *)
Theorem C297_shapes struct name input state output h W W' A s n xs :
  build struct name input state output h W W' A = Some s ->
  (forall d, In d (List.concat struct) -> 1 <= d)%Z ->
  (name <> "LSTM"%string -> exists z, h = Some z /\ 0 <= z)%Z ->
  (forall x, In x xs -> is_batch n input x) ->
  exists m ys, calls s blank xs = Some (m, ys) /\ List.length ys = List.length xs /\
    forall y, In y ys -> is_batch n (Z.to_nat (answer_width name state h output)) y.
Proof.
  intros B DS HH XS. destruct (build_made _ _ _ _ _ _ _ _ _ _ B) as [MD [ES [HN [EA HO]]]].
  assert (H0 : (kind_of name <> K_LSTM -> 0 <= h_of name h)%Z).
  { intro K. unfold kind_of in K. unfold h_of. destruct (String.eqb name "LSTM") eqn:E; [congruence|].
    apply String.eqb_neq in E. destruct (HH E) as [z [-> Z0]]. exact Z0. }
  rewrite <- ES in DS.
  destruct (calls_ok n _ _ state input s xs blank MD H0 DS (blank_sound n _ _ _ _) XS)
    as [m [ys [E [_ [_ [L Y]]]]]].
  exists m, ys. split; [exact E|]. split; [exact L|]. intros y I. specialize (Y y I).
  rewrite EA in Y. unfold answer_width. destruct output as [o|]; [exact Y|].
  rewrite (md_out _ _ _ _ _ MD) in Y. unfold out_width, kind_of, h_of in Y.
  destruct (String.eqb name "LSTM") eqn:E1; [rewrite Nat2Z.id; exact Y|].
  apply String.eqb_neq in E1. destruct (HN E1) as [z ->].
  destruct (String.eqb name "S2Cell"); exact Y.
Qed.

(** *** One series at a time *)

Definition alone_m (i : nat) (m : memory) : memory :=
  M (map (map (alone i)) (m_h m)) (map (map (alone i)) (m_c m)).

Ltac undo H :=
  repeat match type of H with
  | bind ?a _ = Some _ =>
      let E := fresh "E" in let v := fresh "v" in
      destruct a as [v|] eqn:E; [cbn [bind] in H|discriminate H]
  end.

Lemma gate_alone i c x p d ph dh xh :
  gate_input c x p d ph dh = Some xh ->
  gate_input c (alone i x) p d (alone i ph) (alone i dh) = Some (alone i xh).
Proof.
  intro H. unfold gate_input in *. destruct d; [|destruct p].
  - undo H. rewrite (alone_cat2 i _ _ _ E). cbn [bind]. apply alone_cat2, H.
  - undo H. rewrite (alone_cat2 i _ _ _ E). cbn [bind]. apply alone_cat2, H.
  - undo H. rewrite alone_n, (alone_zeros i _ _ _ E). cbn [bind]. apply alone_cat2, H.
Qed.

Lemma lstm2_alone i c x p d ph dh cs o hh nn :
  lstm2 c x p d ph dh cs = Some (o, (hh, nn)) ->
  lstm2 c (alone i x) p d (alone i ph) (alone i dh) (alone i cs) =
  Some (alone i o, (alone i hh, alone i nn)).
Proof.
  intro H. unfold lstm2 in *. undo H. rewrite (gate_alone i _ _ _ _ _ _ _ E). cbn [bind].
  rewrite (alone_linear i _ _ _ E0). cbn [bind]. rewrite !alone_chunk, !alone_tmap.
  destruct p.
  - undo E1. rewrite (alone_tzip i _ _ _ _ E4). cbn [bind].
    rewrite (alone_tzip i _ _ _ _ E5). cbn [bind]. rewrite (alone_tzip i _ _ _ _ E1). cbn [bind].
    rewrite alone_tmap, (alone_tzip i _ _ _ _ E2). cbn [bind].
    destruct v3 as [u w]. rewrite (alone_split2 i _ _ _ _ _ E3). cbn [bind fst snd] in *.
    apply some_eq in H. injection H as <- <- <-. reflexivity.
  - apply some_eq in E1. subst v1. cbn [bind].
    rewrite ?alone_tmap, (alone_tzip i _ _ _ _ E2). cbn [bind].
    destruct v3 as [u w]. rewrite (alone_split2 i _ _ _ _ _ E3). cbn [bind fst snd] in *.
    apply some_eq in H. injection H as <- <- <-. reflexivity.
Qed.

Lemma s2_alone i c x p d ph dh pc dc o hh nn :
  s2 c x p d ph dh pc dc = Some (o, (hh, nn)) ->
  s2 c (alone i x) p d (alone i ph) (alone i dh) (alone i pc) (alone i dc) =
  Some (alone i o, (alone i hh, alone i nn)).
Proof.
  intro H. unfold s2 in *. undo H. rewrite (gate_alone i _ _ _ _ _ _ _ E). cbn [bind].
  rewrite (alone_linear i _ _ _ E0). cbn [bind]. rewrite !alone_chunk, !alone_tmap.
  assert (F : forall q, (do whole <- tzip Rmult (alone i (tmap sigmoid (chunk v0 3))) q;
               do oh <- split2 whole (Z.of_nat (c_state c) - c_h c) (c_h c);
               Some (fst oh, (snd oh, q))) = Some (alone i o, (alone i hh, alone i nn)) ->
            (do new <- Some q; do whole <- tzip Rmult (alone i (tmap sigmoid (chunk v0 3))) new;
               do oh <- split2 whole (Z.of_nat (c_state c) - c_h c) (c_h c);
               Some (fst oh, (snd oh, new))) = Some (alone i o, (alone i hh, alone i nn)))
    by (intros q Q0; exact Q0).
  assert (G : (do whole <- tzip Rmult (alone i (tmap sigmoid (chunk v0 3))) (alone i v1);
               do oh <- split2 whole (Z.of_nat (c_state c) - c_h c) (c_h c);
               Some (fst oh, (snd oh, alone i v1))) = Some (alone i o, (alone i hh, alone i nn))).
  { rewrite (alone_tzip i _ _ _ _ E2). cbn [bind].
    destruct v3 as [u w]. rewrite (alone_split2 i _ _ _ _ _ E3). cbn [bind fst snd] in *.
    apply some_eq in H. injection H as <- <- <-. reflexivity. }
  destruct p; [destruct d|].
  - cbv zeta in E1. undo E1. undo E4.
    rewrite ?alone_tmap.
    rewrite (alone_tzip i _ _ _ _ E7). cbn [bind].
    rewrite (alone_tzip i _ _ _ _ E8). cbn [bind].
    rewrite (alone_tzip i _ _ _ _ E4). cbn [bind].
    rewrite (alone_tzip i _ _ _ _ E5). cbn [bind].
    rewrite (alone_tzip i _ _ _ _ E6). cbn [bind].
    rewrite (alone_tzip i _ _ _ _ E1). exact (F _ G).
  - cbn [bind] in E1 |- *. undo E1.
    rewrite (alone_tzip i _ _ _ _ E4). cbn [bind]. rewrite ?alone_tmap.
    rewrite (alone_tzip i _ _ _ _ E5). cbn [bind].
    rewrite (alone_tzip i _ _ _ _ E1). exact (F _ G).
  - apply some_eq in E1. subst v1. exact (F _ G).
Qed.

Lemma lstm_alone i c x st hh nn :
  lstm c x st = Some (hh, nn) ->
  lstm c (alone i x) (option_map (fun p => (alone i (fst p), alone i (snd p))) st) =
  Some (alone i hh, alone i nn).
Proof.
  intro H. unfold lstm in *. undo H.
  assert (S0 : (match option_map (fun p => (alone i (fst p), alone i (snd p))) st with
            | Some hc => Some hc
            | None => do z <- zeros (t_n (alone i x)) (Z.of_nat (c_state c)); Some (z, z)
            end) = Some (alone i (fst v), alone i (snd v))).
  { destruct st as [p|].
    - apply some_eq in E. subst p. reflexivity.
    - cbn [option_map]. destruct (zeros (t_n x) (Z.of_nat (c_state c))) as [z|] eqn:EZ; [|discriminate E].
      cbn [bind] in E. apply some_eq in E. subst v.
      rewrite alone_n, (alone_zeros i _ _ _ EZ). reflexivity. }
  rewrite S0. cbn [bind fst snd].
  rewrite (alone_linear i _ _ _ E0). cbn [bind]. rewrite (alone_linear i _ _ _ E1). cbn [bind].
  rewrite (alone_tzip i _ _ _ _ E2). cbn [bind]. rewrite !alone_chunk, !alone_tmap.
  rewrite (alone_tzip i _ _ _ _ E3). cbn [bind]. rewrite (alone_tzip i _ _ _ _ E4). cbn [bind].
  rewrite (alone_tzip i _ _ _ _ E5). cbn [bind]. rewrite alone_tmap.
  rewrite (alone_tzip i _ _ _ _ E6). cbn [bind].
  apply some_eq in H. injection H as <- <-. reflexivity.
Qed.

Lemma look_alone i st cur q layer x :
  look (st ++ [cur]) q layer = Some x ->
  look (map (map (alone i)) st ++ [map (alone i) cur]) q layer = Some (alone i x).
Proof.
  unfold look. destruct (q <? 0)%Z; [discriminate|].
  change [map (alone i) cur] with (map (map (alone i)) [cur]). rewrite <- map_app, nth_error_map.
  destruct (nth_error (st ++ [cur]) (Z.to_nat q)) as [e|]; [|discriminate]. cbn.
  intro H. rewrite nth_error_map, H. reflexivity.
Qed.

Lemma layer_alone i c m hc cc t ti layer x o hh nn :
  layer_call c (m_h m ++ [hc]) (m_c m ++ [cc]) t ti layer x = Some (o, (hh, nn)) ->
  layer_call c (m_h (alone_m i m) ++ [map (alone i) hc]) (m_c (alone_m i m) ++ [map (alone i) cc])
             t ti layer (alone i x) = Some (alone i o, (alone i hh, alone i nn)).
Proof.
  intro H. unfold layer_call in *. cbn [alone_m m_h m_c].
  destruct (c_kind c); destruct (0 <=? ti)%Z; try destruct (Nat.ltb 0 t).
  - undo H. undo E. rewrite (look_alone i _ _ _ _ _ E0), (look_alone i _ _ _ _ _ E1). cbn [bind].
    destruct v as [a b]. pose proof (lstm_alone i _ _ _ _ _ E) as Q0. cbn [option_map fst snd] in Q0. rewrite Q0.
    cbn [bind fst] in *. apply some_eq in H. injection H as <- <- <-. reflexivity.
  - undo H. undo E. rewrite (look_alone i _ _ _ _ _ E0), (look_alone i _ _ _ _ _ E1). cbn [bind].
    destruct v as [a b]. pose proof (lstm_alone i _ _ _ _ _ E) as Q0. cbn [option_map fst snd] in Q0. rewrite Q0.
    cbn [bind fst] in *. apply some_eq in H. injection H as <- <- <-. reflexivity.
  - undo H. undo E. rewrite (look_alone i _ _ _ _ _ E0), (look_alone i _ _ _ _ _ E1). cbn [bind].
    destruct v as [a b]. pose proof (lstm_alone i _ _ _ _ _ E) as Q0. cbn [option_map fst snd] in Q0. rewrite Q0.
    cbn [bind fst] in *. apply some_eq in H. injection H as <- <- <-. reflexivity.
  - undo H.
    destruct v as [a b]. pose proof (lstm_alone i _ _ _ _ _ E) as Q0. cbn [option_map fst snd] in Q0. rewrite Q0.
    cbn [bind fst] in *. apply some_eq in H. injection H as <- <- <-. reflexivity.
  - undo H. rewrite (look_alone i _ _ _ _ _ E), (look_alone i _ _ _ _ _ E0), (look_alone i _ _ _ _ _ E1).
    cbn [bind]. apply lstm2_alone, H.
  - undo H. rewrite (look_alone i _ _ _ _ _ E), (look_alone i _ _ _ _ _ E0), (look_alone i _ _ _ _ _ E1).
    cbn [bind]. apply lstm2_alone, H.
  - undo H. rewrite (look_alone i _ _ _ _ _ E), (look_alone i _ _ _ _ _ E0).
    cbn [bind]. apply (lstm2_alone i) in H. exact H.
  - apply (lstm2_alone i) in H. exact H.
  - undo H. rewrite (look_alone i _ _ _ _ _ E), (look_alone i _ _ _ _ _ E0), (look_alone i _ _ _ _ _ E1),
      (look_alone i _ _ _ _ _ E2). cbn [bind]. apply s2_alone, H.
  - undo H. rewrite (look_alone i _ _ _ _ _ E), (look_alone i _ _ _ _ _ E0), (look_alone i _ _ _ _ _ E1),
      (look_alone i _ _ _ _ _ E2). cbn [bind]. apply s2_alone, H.
  - undo H. rewrite (look_alone i _ _ _ _ _ E), (look_alone i _ _ _ _ _ E0).
    cbn [bind]. apply (s2_alone i) in H. exact H.
  - apply (s2_alone i) in H. exact H.
Qed.

Lemma block_alone i cs m t ds : forall layer x hc cc hc' cc' o,
  run_block cs m t ds layer x hc cc = ((hc', cc'), Some o) ->
  run_block cs (alone_m i m) t ds layer (alone i x) (map (alone i) hc) (map (alone i) cc) =
  ((map (alone i) hc', map (alone i) cc'), Some (alone i o)).
Proof.
  induction ds as [|d ds IH]; intros layer x hc cc hc' cc' o H.
  - cbn [run_block] in *. injection H as <- <- <-. reflexivity.
  - cbn [run_block] in *. destruct (nth_error cs layer) as [c|]; [|discriminate H]. cbn [bind] in *.
    destruct (layer_call c (m_h m ++ [hc]) (m_c m ++ [cc]) t (Z.of_nat t - d) layer x)
      as [[q [hh nn]]|] eqn:E; [|discriminate H].
    rewrite (layer_alone i _ _ _ _ _ _ _ _ _ _ _ E).
    apply IH in H. rewrite !map_app in H. exact H.
Qed.

Lemma blocks_alone i cs m t bs : forall layer x prev hc cc hc' cc' o,
  run_blocks cs m t bs layer x prev hc cc = ((hc', cc'), Some o) ->
  run_blocks cs (alone_m i m) t bs layer (alone i x) (alone i prev) (map (alone i) hc) (map (alone i) cc) =
  ((map (alone i) hc', map (alone i) cc'), Some (alone i o)).
Proof.
  induction bs as [|ds bs IH]; intros layer x prev hc cc hc' cc' o H.
  - cbn [run_blocks] in *. injection H as <- <- <-. reflexivity.
  - cbn [run_blocks] in *.
    destruct (run_block cs m t ds layer x hc cc) as [[h1 c1] [q|]] eqn:E; [|discriminate H].
    rewrite (block_alone i _ _ _ _ _ _ _ _ _ _ _ E).
    destruct (tzip Rplus q prev) as [s|] eqn:Z0; [|discriminate H].
    rewrite (alone_tzip i _ _ _ _ Z0). apply IH, H.
Qed.

Lemma forward_alone i s m x m' y :
  forward s m x = (m', Some y) ->
  forward s (alone_m i m) (alone i x) = (alone_m i m', Some (alone i y)).
Proof.
  unfold forward. intro H.
  destruct (zeros (t_n x) (Z.of_nat (s_out s))) as [z|] eqn:EZ; [|discriminate H].
  rewrite alone_n, (alone_zeros i _ _ _ EZ). cbv zeta in *.
  rewrite (map_length (map (alone i)) (m_h m) : List.length (m_h (alone_m i m)) = _).
  destruct (run_blocks (s_cells s) m (List.length (m_h m)) (s_struct s) 0 x z [] [])
    as [[hc cc] [q|]] eqn:E; [|discriminate H].
  pose proof (blocks_alone i _ _ _ _ _ _ _ _ _ _ _ _ E) as E'. cbn [map] in E'.
  rewrite E'. cbn [bind] in *.
  assert (AD : match s_adaptor s with Some a => linear a q | None => Some q end = Some y) by congruence.
  assert (MM : m' = M (m_h m ++ [hc]) (m_c m ++ [cc])) by congruence.
  subst m'. unfold alone_m. cbn [m_h m_c]. rewrite !map_app. cbn [map]. apply f_equal2; [reflexivity|].
  destruct (s_adaptor s) as [a|]; [apply alone_linear, AD|]. apply some_eq in AD. subst y. reflexivity.
Qed.

Lemma calls_alone i s xs : forall m m' ys,
  calls s m xs = Some (m', ys) ->
  calls s (alone_m i m) (map (alone i) xs) = Some (alone_m i m', map (alone i) ys).
Proof.
  induction xs as [|x xs IH]; intros m m' ys H.
  - cbn in H. apply some_eq in H. injection H as <- <-. reflexivity.
  - cbn [calls map] in *. destruct (forward s m x) as [m1 [y|]] eqn:E; [|discriminate H].
    rewrite (forward_alone i _ _ _ _ _ E).
    destruct (calls s m1 xs) as [[m2 zs]|] eqn:E2; [|discriminate H]. cbn [bind fst snd] in H.
    apply some_eq in H. injection H as <- <-. rewrite (IH _ _ _ E2). reflexivity.
Qed.

(** A series is answered as if it were in a batch by itself: the other series
    of the batch have no influence on its answers, at any step. *)
Theorem C297_alone s xs m ys i :
  calls s blank xs = Some (m, ys) ->
  exists m', calls s blank (map (alone i) xs) = Some (m', map (alone i) ys).
Proof. intro H. exists (alone_m i m). exact (calls_alone i s xs blank m ys H). Qed.

(** *** How large the numbers can get *)

Definition unit_v (v : R) : Prop := -1 < v < 1.

Definition cb (k : kind) (j : nat) (v : R) : Prop :=
  match k with K_S2 => unit_v v | _ => Rabs v < INR j + 1 end.

Lemma unit_mult a b : 0 < a < 1 -> unit_v b -> unit_v (a * b).
Proof. unfold unit_v. intros A B. split; nra. Qed.

Lemma unit_mix f a b : 0 < f < 1 -> unit_v a -> unit_v b -> unit_v (f * a + (1 - f) * b).
Proof. unfold unit_v. intros F A B. split; nra. Qed.

Lemma gate_mult a b B : 0 < a < 1 -> Rabs b < B -> Rabs (a * b) < B.
Proof.
  intros A H. rewrite Rabs_mult, (Rabs_right a) by lra. pose proof (Rabs_pos b). nra.
Qed.

Lemma step_bound f c i g B :
  0 < f < 1 -> 0 < i < 1 -> unit_v g -> Rabs c < B -> Rabs (f * c + i * g) < B + 1.
Proof.
  intros F I G C. pose proof (Rabs_triang (f * c) (i * g)) as T0.
  pose proof (gate_mult f c B F C). assert (G' : Rabs g < 1) by (apply Rabs_def1; unfold unit_v in G; lra).
  pose proof (gate_mult i g 1 I G'). lra.
Qed.

Lemma unit_out g new w :
  tzip Rmult (tmap sigmoid g) (tmap tanh new) = Some w -> every unit_v w.
Proof.
  intros E i j v V. destruct (entry_tzip _ _ _ _ _ _ _ E V) as [a [b [A [B ->]]]].
  destruct (entry_tmap _ _ _ _ _ A) as [a' [_ ->]]. destruct (entry_tmap _ _ _ _ _ B) as [b' [_ ->]].
  apply unit_mult; [apply sigmoid_range|apply tanh_range].
Qed.

Lemma fresh_unit g : every unit_v (tmap tanh g).
Proof. intros i j v V. destruct (entry_tmap _ _ _ _ _ V) as [a [_ ->]]. apply tanh_range. Qed.

Lemma lstm2_bound c x p d ph dh cs o hh nn j :
  lstm2 c x p d ph dh cs = Some (o, (hh, nn)) ->
  (p = true -> every (fun v => Rabs v < INR j) cs) ->
  every unit_v o /\ every unit_v hh /\ every (fun v => Rabs v < INR j + 1) nn.
Proof.
  intros H CS. unfold lstm2 in H. undo H. destruct v3 as [u w]. cbn [bind fst snd] in H.
  apply some_eq in H. injection H as <- <- <-.
  pose proof (unit_out _ _ _ E2) as WU. destruct (every_split2 _ _ _ _ _ _ E3 WU) as [U V].
  split; [exact U|]. split; [exact V|]. destruct p.
  - undo E1. intros i k vv VV.
    destruct (entry_tzip _ _ _ _ _ _ _ E1 VV) as [a [b [A [B ->]]]].
    destruct (entry_tzip _ _ _ _ _ _ _ E4 A) as [f [q [F [Q0 ->]]]].
    destruct (entry_tzip _ _ _ _ _ _ _ E5 B) as [g [r [G [R0 ->]]]].
    destruct (entry_tmap _ _ _ _ _ F) as [f' [_ ->]]. destruct (entry_tmap _ _ _ _ _ G) as [g' [_ ->]].
    apply step_bound; [apply sigmoid_range|apply sigmoid_range|exact (fresh_unit _ _ _ _ R0)|].
    exact (CS eq_refl _ _ _ Q0).
  - apply some_eq in E1. subst v1. intros i k vv VV. pose proof (fresh_unit _ _ _ _ VV) as Q0.
    pose proof (pos_INR j). apply Rabs_def1; unfold unit_v in Q0; lra.
Qed.

Lemma s2_bound c x p d ph dh pc dc o hh nn :
  s2 c x p d ph dh pc dc = Some (o, (hh, nn)) ->
  (p = true -> every unit_v pc) -> (d = true -> every unit_v dc) ->
  every unit_v o /\ every unit_v hh /\ every unit_v nn.
Proof.
  intros H PC DC. unfold s2 in H. undo H. destruct v3 as [u w]. cbn [bind fst snd] in H.
  apply some_eq in H. injection H as <- <- <-.
  assert (N : every unit_v v1).
  { destruct p.
    - assert (MIX : forall g a b z q,
        tzip Rmult (tmap g (chunk v0 a)) b = Some z ->
        (forall v, 0 < g v < 1) -> every unit_v b ->
        forall y z' r, tzip Rmult (tmap (fun v => 1 - v) (tmap g (chunk v0 a))) y = Some z' ->
        every unit_v y -> tzip Rplus z z' = Some r -> q = r -> every unit_v q).
      { intros g a b z q Z0 GR BU y z' r Z1 YU Z2 -> i k vv VV.
        destruct (entry_tzip _ _ _ _ _ _ _ Z2 VV) as [e1 [e2 [X1 [X2 ->]]]].
        destruct (entry_tzip _ _ _ _ _ _ _ Z0 X1) as [f1 [f2 [Y1 [Y2 ->]]]].
        destruct (entry_tzip _ _ _ _ _ _ _ Z1 X2) as [g1 [g2 [Y3 [Y4 ->]]]].
        destruct (entry_tmap _ _ _ _ _ Y3) as [g3 [Y5 ->]].
        rewrite Y1 in Y5. apply some_eq in Y5. subst g3.
        destruct (entry_tmap _ _ _ _ _ Y1) as [f3 [_ ->]].
        apply unit_mix; [apply GR|exact (BU _ _ _ Y2)|exact (YU _ _ _ Y4)]. }
      cbv zeta in E1. undo E1.
      apply (MIX (fun v => sigmoid (v + 1)) _ _ _ _ E5 (fun v => sigmoid_range _)) with (2 := E6) (4 := E1);
        [|apply fresh_unit|reflexivity].
      destruct d.
      + undo E4.
        exact (MIX sigmoid _ _ _ _ E7 sigmoid_range (PC eq_refl) _ _ _ E8 (DC eq_refl) E4 eq_refl).
      + apply some_eq in E4. subst v3. exact (PC eq_refl).
    - apply some_eq in E1. subst v1. apply fresh_unit. }
  assert (WU : every unit_v v2).
  { intros i k vv VV. destruct (entry_tzip _ _ _ _ _ _ _ E2 VV) as [a [b [A [B ->]]]].
    destruct (entry_tmap _ _ _ _ _ A) as [a' [_ ->]].
    apply unit_mult; [apply sigmoid_range|exact (N _ _ _ B)]. }
  destruct (every_split2 _ _ _ _ _ _ E3 WU) as [U V]. auto.
Qed.

Lemma lstm_bound c x st hh nn j :
  lstm c x st = Some (hh, nn) ->
  (forall a b, st = Some (a, b) -> every (fun v => Rabs v < INR j) b) ->
  every unit_v hh /\ every (fun v => Rabs v < INR j + 1) nn.
Proof.
  intros H ST. unfold lstm in H. undo H. apply some_eq in H. injection H as <- <-.
  split; [exact (unit_out _ _ _ E6)|]. intros i k v' VV.
  destruct (entry_tzip _ _ _ _ _ _ _ E5 VV) as [a [b [A [B ->]]]].
  destruct (entry_tzip _ _ _ _ _ _ _ E3 A) as [f [q [F [Q0 ->]]]].
  destruct (entry_tzip _ _ _ _ _ _ _ E4 B) as [g [r [G [R0 ->]]]].
  destruct (entry_tmap _ _ _ _ _ F) as [f' [_ ->]]. destruct (entry_tmap _ _ _ _ _ G) as [g' [_ ->]].
  pose proof (fresh_unit _ _ _ _ R0) as RU. destruct st as [[s1 s2']|].
  - apply some_eq in E. subst v. cbn [snd] in Q0.
    apply step_bound; [apply sigmoid_range|apply sigmoid_range|exact RU|].
    exact (ST _ _ eq_refl _ _ _ Q0).
  - destruct (zeros (t_n x) (Z.of_nat (c_state c))) as [z|] eqn:EZ; [|discriminate E].
    cbn [bind] in E. apply some_eq in E. subst v. cbn [snd] in Q0.
    pose proof (every_zeros (fun v => v = 0) _ _ _ eq_refl EZ _ _ _ Q0) as QZ. cbn beta in QZ. subst q.
    rewrite Rmult_0_r, Rplus_0_l. pose proof (pos_INR j).
    apply Rlt_le_trans with 1; [|lra]. apply gate_mult; [apply sigmoid_range|].
    unfold unit_v in RU. apply Rabs_def1; lra.
Qed.

(** What holds of the inner states after any number of calls. *)
Definition held (k : kind) (m : memory) : Prop :=
  List.length (m_c m) = List.length (m_h m) /\
  forall j e x, nth_error (m_c m) j = Some e -> In x e -> every (cb k j) x.

Lemma look_held k m cc ti layer x :
  held k m -> List.length cc = layer -> look (m_c m ++ [cc]) ti layer = Some x ->
  (0 <= ti < Z.of_nat (List.length (m_h m)))%Z /\ every (cb k (Z.to_nat ti)) x.
Proof.
  intros [LC H] LCC L. unfold look in L. destruct (ti <? 0)%Z eqn:E0; [discriminate L|].
  apply Z.ltb_ge in E0.
  destruct (Nat.lt_ge_cases (Z.to_nat ti) (List.length (m_c m))) as [I|I].
  - rewrite nth_error_app1 in L by exact I. split; [lia|].
    destruct (nth_error (m_c m) (Z.to_nat ti)) as [e|] eqn:E; [|discriminate L]. cbn [bind] in L.
    exact (H _ _ _ E (nth_error_In _ _ L)).
  - exfalso. rewrite nth_error_app2 in L by exact I.
    destruct (Z.to_nat ti - List.length (m_c m))%nat as [|q].
    + cbn [nth_error bind] in L. assert (layer < List.length cc)%nat by (apply nth_error_Some; congruence). lia.
    + cbn [nth_error] in L. destruct q; discriminate L.
Qed.

Lemma cb_step k i t x : k <> K_S2 -> (S i <= t)%nat -> every (cb k i) x -> every (fun v => Rabs v < INR t) x.
Proof.
  intros K L H a b v V. specialize (H a b v V). assert (Q0 : INR i + 1 <= INR t)
    by (rewrite <- S_INR; apply le_INR, L).
  destruct k; cbn [cb] in H; try lra. congruence.
Qed.

Lemma layer_bound c m hc cc d layer x o hh nn :
  held (c_kind c) m -> List.length cc = layer ->
  layer_call c (m_h m ++ [hc]) (m_c m ++ [cc]) (List.length (m_h m))
             (Z.of_nat (List.length (m_h m)) - d) layer x = Some (o, (hh, nn)) ->
  every unit_v o /\ every unit_v hh /\ every (cb (c_kind c) (List.length (m_h m))) nn.
Proof.
  intros HD LCC H. set (t := List.length (m_h m)) in *.
  assert (LK : forall q y, look (m_c m ++ [cc]) q layer = Some y ->
    (c_kind c <> K_S2 -> every (fun v => Rabs v < INR t) y) /\ (c_kind c = K_S2 -> every unit_v y)).
  { intros q y Q0. destruct (look_held _ _ _ _ _ _ HD LCC Q0) as [RI Y]. fold t in RI. split.
    - intro NK. apply (cb_step (c_kind c) (Z.to_nat q)); [exact NK|lia|exact Y].
    - intro EK. rewrite EK in Y. exact Y. }
  unfold layer_call in H. destruct (c_kind c) eqn:K.
  - assert (G : forall st a b, lstm c x st = Some (a, b) ->
       (forall s1 s2, st = Some (s1, s2) -> every (fun v => Rabs v < INR t) s2) ->
       Some (a, (a, b)) = Some (o, (hh, nn)) ->
       every unit_v o /\ every unit_v hh /\ every (cb K_LSTM t) nn).
    { intros st a b L ST Q0. apply some_eq in Q0. injection Q0 as <- <- <-.
      destruct (lstm_bound _ _ _ _ _ t L ST) as [U V]. auto. }
    destruct (0 <=? Z.of_nat t - d)%Z; [|destruct (Nat.ltb 0 t)].
    + undo H. undo E. destruct v as [a b]. cbn [bind fst] in H. apply (G _ _ _ E); [|exact H].
      intros s1 s2 Q0. apply some_eq in Q0. injection Q0 as <- <-.
      apply (proj1 (LK _ _ E1)). discriminate.
    + undo H. undo E. destruct v as [a b]. cbn [bind fst] in H. apply (G _ _ _ E); [|exact H].
      intros s1 s2 Q0. apply some_eq in Q0. injection Q0 as <- <-.
      apply (proj1 (LK _ _ E1)). discriminate.
    + undo H. destruct v as [a b]. cbn [bind fst] in H. apply (G _ _ _ E); [|exact H]. discriminate.
  - destruct (0 <=? Z.of_nat t - d)%Z; [|destruct (Nat.ltb 0 t)].
    + undo H. apply (lstm2_bound _ _ _ _ _ _ _ _ _ _ t H). intros _. apply (proj1 (LK _ _ E1)). discriminate.
    + undo H. apply (lstm2_bound _ _ _ _ _ _ _ _ _ _ t H). intros _. apply (proj1 (LK _ _ E0)). discriminate.
    + apply (lstm2_bound _ _ _ _ _ _ _ _ _ _ t H). discriminate.
  - destruct (0 <=? Z.of_nat t - d)%Z; [|destruct (Nat.ltb 0 t)].
    + undo H. apply (s2_bound _ _ _ _ _ _ _ _ _ _ _ H); intros _;
        [exact (proj2 (LK _ _ E1) eq_refl)|exact (proj2 (LK _ _ E2) eq_refl)].
    + undo H. apply (s2_bound _ _ _ _ _ _ _ _ _ _ _ H); [intros _; exact (proj2 (LK _ _ E0) eq_refl)|discriminate].
    + apply (s2_bound _ _ _ _ _ _ _ _ _ _ _ H); discriminate.
Qed.

Lemma block_bound k cs m ds : forall layer x hc cc hc' cc' o,
  (forall c, In c cs -> c_kind c = k) -> held k m -> List.length cc = layer ->
  (forall y, In y cc -> every (cb k (List.length (m_h m))) y) ->
  run_block cs m (List.length (m_h m)) ds layer x hc cc = ((hc', cc'), Some o) ->
  (ds <> [] -> every unit_v o) /\ List.length cc' = (layer + List.length ds)%nat /\
  (forall y, In y cc' -> every (cb k (List.length (m_h m))) y).
Proof.
  induction ds as [|d ds IH]; intros layer x hc cc hc' cc' o CK HD LC HC H.
  - cbn [run_block] in H. injection H as <- <- <-. split; [congruence|]. cbn [List.length].
    rewrite Nat.add_0_r. auto.
  - cbn [run_block] in H. destruct (nth_error cs layer) as [c|] eqn:EC; [|discriminate H]. cbn [bind] in H.
    assert (KC : c_kind c = k) by (apply CK; eapply nth_error_In, EC).
    destruct (layer_call c (m_h m ++ [hc]) (m_c m ++ [cc]) (List.length (m_h m))
       (Z.of_nat (List.length (m_h m)) - d) layer x) as [[q [hh nn]]|] eqn:E; [|discriminate H].
    rewrite <- KC in HD. destruct (layer_bound _ _ _ _ _ _ _ _ _ _ HD LC E) as [U [_ NN]].
    rewrite KC in HD, NN.
    destruct (IH (S layer) q (hc ++ [hh]) (cc ++ [nn]) hc' cc' o CK HD) as [A [B C]];
      [rewrite app_length; cbn; lia| |exact H|].
    + intros y I. apply in_app_or in I. destruct I as [I|[<-|[]]]; auto.
    + split; [|split; [rewrite B; cbn; lia|exact C]].
      intros _. destruct ds as [|d' ds]; [|apply A; discriminate].
      cbn [run_block] in H. injection H as <- <- <-. exact U.
Qed.

Lemma blocks_bound k cs m bs : forall layer x prev hc cc hc' cc' o B,
  (forall c, In c cs -> c_kind c = k) -> held k m -> List.length cc = layer ->
  (forall b, In b bs -> b <> []) ->
  (forall y, In y cc -> every (cb k (List.length (m_h m))) y) ->
  every (fun v => Rabs v <= B) prev ->
  run_blocks cs m (List.length (m_h m)) bs layer x prev hc cc = ((hc', cc'), Some o) ->
  every (fun v => Rabs v <= B + INR (List.length bs) /\ (bs <> [] -> Rabs v < B + INR (List.length bs))) o /\
  (forall y, In y cc' -> every (cb k (List.length (m_h m))) y).
Proof.
  induction bs as [|ds bs IH]; intros layer x prev hc cc hc' cc' o B CK HD LC NE HC PV H.
  - cbn [run_blocks] in H. injection H as <- <- <-. split; [|exact HC].
    intros i j v V. cbn. split; [|congruence]. specialize (PV i j v V). cbn beta in PV. lra.
  - cbn [run_blocks] in H.
    destruct (run_block cs m (List.length (m_h m)) ds layer x hc cc) as [[h1 c1] [q|]] eqn:E; [|discriminate H].
    destruct (tzip Rplus q prev) as [s|] eqn:Z0; [|discriminate H].
    destruct (block_bound k _ _ _ _ _ _ _ _ _ _ CK HD LC HC E) as [U [LC1 HC1]].
    assert (UQ : every unit_v q) by (apply U, NE; left; reflexivity).
    assert (SB : every (fun v => Rabs v < B + 1) s).
    { intros i j v V. destruct (entry_tzip _ _ _ _ _ _ _ Z0 V) as [a [b [A0 [B0 ->]]]].
      specialize (UQ _ _ _ A0). specialize (PV _ _ _ B0). cbn beta in PV. unfold unit_v in UQ.
      pose proof (Rabs_triang a b). assert (Rabs a < 1) by (apply Rabs_def1; lra). lra. }
    destruct bs as [|d2 bs2].
    + cbn [run_blocks] in H. injection H as <- <- <-. split; [|exact HC1].
      intros i j v V. specialize (SB i j v V). cbn beta in SB. cbn. split; [lra|intros _; lra].
    + destruct (IH _ _ _ _ _ _ _ _ (B + 1) CK HD LC1 (fun b I => NE b (or_intror I)) HC1
         (every_weaken _ _ s (fun v Q0 => Rlt_le _ _ Q0) SB) H) as [A C].
      split; [|exact C]. apply (every_weaken _ _ o) with (2 := A). intros v [_ V2].
      specialize (V2 ltac:(discriminate)). change (List.length (ds :: d2 :: bs2)) with (S (List.length (d2 :: bs2))).
      rewrite S_INR. split; [lra|intros _; lra].
Qed.

Lemma made_kind k h state input s c : made k h state input s -> In c (s_cells s) -> c_kind c = k.
Proof.
  intros MD I. apply In_nth_error in I. destruct I as [l E].
  assert (L : (l < List.length (s_cells s))%nat) by (apply nth_error_Some; congruence).
  destruct (md_cells _ _ _ _ _ MD l L) as [c' [E' [CK _]]]. congruence.
Qed.

Lemma forward_bound k h state input s m x m' y :
  made k h state input s -> held k m -> forward s m x = (m', Some y) ->
  held k m' /\
  exists q, every (fun v => Rabs v < INR (List.length (s_struct s))) q /\
    match s_adaptor s with Some a => linear a q = Some y | None => q = y end.
Proof.
  intros MD HD H. unfold forward in H.
  destruct (zeros (t_n x) (Z.of_nat (s_out s))) as [z|] eqn:EZ; [|discriminate H]. cbv zeta in H.
  destruct (run_blocks (s_cells s) m (List.length (m_h m)) (s_struct s) 0 x z [] [])
    as [[hc cc] [q|]] eqn:E; [|discriminate H].
  cbn [bind] in H.
  assert (AD : match s_adaptor s with Some a => linear a q | None => Some q end = Some y) by congruence.
  assert (MM : m' = M (m_h m ++ [hc]) (m_c m ++ [cc])) by congruence. subst m'.
  assert (Z0 : every (fun v => Rabs v <= 0) z).
  { assert (P0 : Rabs 0 <= 0) by (rewrite Rabs_R0; lra).
    exact (every_zeros (fun v => Rabs v <= 0) _ _ _ P0 EZ). }
  assert (NI : forall u : tensor, In u [] -> every (cb k (List.length (m_h m))) u) by (intros u []).
  destruct (blocks_bound k _ _ _ _ _ _ _ _ _ _ _ 0 (fun c => made_kind k h state input s c MD) HD eq_refl
     (proj1 (md_blocks _ _ _ _ _ MD)) NI Z0 E) as [O C].
  split.
  - destruct HD as [LC HD]. split; [cbn [m_h m_c]; rewrite !app_length, LC; reflexivity|].
    intros j e u J I. cbn [m_c] in J.
    destruct (Nat.lt_ge_cases j (List.length (m_c m))) as [L|L].
    + rewrite nth_error_app1 in J by exact L. exact (HD j e u J I).
    + rewrite nth_error_app2 in J by exact L.
      destruct (j - List.length (m_c m))%nat as [|w] eqn:EJ.
      * cbn in J. apply some_eq in J. subst e. replace j with (List.length (m_h m)) by lia. exact (C u I).
      * cbn in J. destruct w; discriminate J.
  - exists q. split.
    + apply (every_weaken _ _ q) with (2 := O). intros v [_ V].
      specialize (V (proj2 (md_blocks _ _ _ _ _ MD))). rewrite Rplus_0_l in V. exact V.
    + destruct (s_adaptor s); [exact AD|]. apply some_eq in AD. exact AD.
Qed.

Lemma calls_bound k h state input s xs : forall m m' ys,
  made k h state input s -> held k m -> calls s m xs = Some (m', ys) ->
  held k m' /\
  forall y, In y ys -> exists q, every (fun v => Rabs v < INR (List.length (s_struct s))) q /\
    match s_adaptor s with Some a => linear a q = Some y | None => q = y end.
Proof.
  induction xs as [|x xs IH]; intros m m' ys MD HD H.
  - cbn in H. apply some_eq in H. injection H as <- <-. split; [exact HD|]. intros y [].
  - cbn [calls] in H. destruct (forward s m x) as [m1 [y|]] eqn:E; [|discriminate H].
    destruct (calls s m1 xs) as [[m2 zs]|] eqn:E2; [|discriminate H]. cbn [bind fst snd] in H.
    apply some_eq in H. injection H as <- <-.
    destruct (forward_bound _ _ _ _ _ _ _ _ _ MD HD E) as [H1 Y].
    destruct (IH _ _ _ MD H1 E2) as [H2 YS]. split; [exact H2|].
    intros u [<-|I]; auto.
Qed.

Lemma blank_held k : held k blank.
Proof. split; [reflexivity|]. intros j e x J. destruct j; discriminate J. Qed.

(** However large the inputs, whatever the weights and however many calls: what
    an encoder returns lies strictly between minus and plus the number of its
    blocks. *)
Theorem C297_bounded struct name input state h W W' A s xs m ys :
  build struct name input state None h W W' A = Some s ->
  calls s blank xs = Some (m, ys) ->
  forall y i j v, In y ys -> entry y i j = Some v -> Rabs v < INR (List.length struct).
Proof.
  intros B C y i j v I V. destruct (build_made _ _ _ _ _ _ _ _ _ _ B) as [MD [ES [HN [EA HO]]]].
  destruct (calls_bound _ _ _ _ _ _ _ _ _ MD (blank_held _) C) as [_ Y].
  destruct (Y y I) as [q [Q0 E]]. rewrite EA in E. subst q. rewrite ES in Q0. exact (Q0 i j v V).
Qed.

Fixpoint abs_sum (w : nat -> R) (n : nat) : R :=
  match n with O => 0 | S n' => abs_sum w n' + Rabs (w n') end.

Lemma abs_sum_nonneg w n : 0 <= abs_sum w n.
Proof. induction n as [|n IH]; cbn; [lra|]. pose proof (Rabs_pos (w n)). lra. Qed.

Lemma abs_sum_cons w n : abs_sum w (S n) = Rabs (w O) + abs_sum (fun i => w (S i)) n.
Proof.
  induction n as [|n IH]; [cbn; lra|].
  change (abs_sum w (S (S n))) with (abs_sum w (S n) + Rabs (w (S n))). rewrite IH. cbn. lra.
Qed.

Lemma dot_bound w r B : 0 <= B -> (forall v, In v r -> Rabs v <= B) -> forall n a,
  Rabs (dot (map w (seq a n)) r) <= B * abs_sum (fun i => w (a + i)%nat) n.
Proof.
  intros B0. induction r as [|v r IH]; intros RB n a.
  - assert (Q0 : dot (map w (seq a n)) [] = 0) by (unfold dot; rewrite combine_nil; reflexivity).
    rewrite Q0, Rabs_R0. pose proof (abs_sum_nonneg (fun i => w (a + i)%nat) n). nra.
  - destruct n as [|n].
    + change (dot (map w (seq a 0)) (v :: r)) with 0. rewrite Rabs_R0. cbn. lra.
    + change (dot (map w (seq a (S n))) (v :: r)) with (w a * v + dot (map w (seq (S a) n)) r).
      rewrite abs_sum_cons, Nat.add_0_r.
      specialize (IH (fun u I => RB u (or_intror I)) n (S a)).
      assert (EQ : abs_sum (fun i => w (S a + i)%nat) n = abs_sum (fun i => w (a + S i)%nat) n).
      { clear. induction n as [|n IH]; [reflexivity|]. cbn [abs_sum]. rewrite IH.
        replace (a + S n)%nat with (S a + n)%nat by lia. reflexivity. }
      rewrite EQ in IH. pose proof (Rabs_triang (w a * v) (dot (map w (seq (S a) n)) r)) as T0.
      rewrite Rabs_mult in T0. pose proof (RB v (or_introl eq_refl)) as RV.
      pose proof (Rabs_pos (w a)). pose proof (Rabs_pos v). nra.
Qed.

(** So the answers of a network with an output layer never leave a range that
    its last weights and the number of blocks fix in advance. *)
Theorem C297_range struct name input state o h W W' A s xs m ys :
  build struct name input state (Some o) h W W' A = Some s ->
  calls s blank xs = Some (m, ys) ->
  forall y i j v, In y ys -> entry y i j = Some v ->
  Rabs v <= INR (List.length struct) * abs_sum (fst A j) (s_out s) + Rabs (snd A j).
Proof.
  intros B C y i j v I V. destruct (build_made _ _ _ _ _ _ _ _ _ _ B) as [MD [ES [HN [EA HO]]]].
  destruct (calls_bound _ _ _ _ _ _ _ _ _ MD (blank_held _) C) as [_ Y].
  destruct (Y y I) as [q [Q0 E]]. rewrite EA in E. unfold linear in E. cbn [l_in l_out] in E.
  destruct (Nat.eqb (t_width q) (s_out s)); [|discriminate E]. apply some_eq in E. subst y.
  unfold entry in V. cbn [t_rows] in V. rewrite nth_error_map in V.
  destruct (nth_error (t_rows q) i) as [r|] eqn:ER; [|discriminate V]. cbn [option_map] in V.
  unfold affine in V. cbn [l_out l_in l_w l_b] in V. rewrite nth_error_map in V.
  destruct (nth_error (seq 0 (Z.to_nat o)) j) as [j'|] eqn:EJ; [|discriminate V]. cbn [option_map] in V.
  assert (JJ : j' = j).
  { assert (LJ : (j < Z.to_nat o)%nat).
    { rewrite <- (seq_length (Z.to_nat o) 0). apply nth_error_Some. congruence. }
    assert (N : nth_error (seq 0 (Z.to_nat o)) j = Some (0 + j)%nat).
    { rewrite (nth_error_nth' _ O) by (rewrite seq_length; exact LJ). rewrite seq_nth by exact LJ. reflexivity. }
    rewrite N in EJ. apply some_eq in EJ. subst j'. reflexivity. }
  subst j'. apply some_eq in V. subst v. rewrite ES in Q0.
  assert (RB : forall u, In u r -> Rabs u <= INR (List.length struct)).
  { intros u IU. apply In_nth_error in IU. destruct IU as [k EK]. apply Rlt_le, (Q0 i k u).
    unfold entry. rewrite ER. exact EK. }
  pose proof (dot_bound (fst A j) r _ (pos_INR _) RB (s_out s) 0) as D.
  pose proof (Rabs_triang (dot (map (fst A j) (seq 0 (s_out s))) r) (snd A j)) as T0.
  cbn [Nat.add] in D. change (fun i0 : nat => fst A j i0) with (fst A j) in D. lra.
Qed.

(** The inner states: those of an S2 network stay strictly between minus one
    and one for ever; those of the two LSTM networks grow by less than one per
    call. *)
Theorem C297_states struct name input state output h W W' A s xs m ys :
  build struct name input state output h W W' A = Some s ->
  calls s blank xs = Some (m, ys) ->
  forall j e x a b v, nth_error (m_c m) j = Some e -> In x e -> entry x a b = Some v ->
  Rabs v < INR j + 1 /\ (name = "S2Cell"%string -> Rabs v < 1).
Proof.
  intros B C j e x a b v J I V. destruct (build_made _ _ _ _ _ _ _ _ _ _ B) as [MD [ES [HN [EA HO]]]].
  destruct (calls_bound _ _ _ _ _ _ _ _ _ MD (blank_held _) C) as [[_ HD] _].
  specialize (HD j e x J I a b v V). pose proof (pos_INR j). unfold kind_of in HD.
  destruct (String.eqb name "LSTM") eqn:E1.
  - apply String.eqb_eq in E1. subst name. split; [exact HD|discriminate].
  - destruct (String.eqb name "S2Cell") eqn:E2; cbn [cb] in HD.
    + assert (Rabs v < 1) by (apply Rabs_def1; unfold unit_v in HD; lra). split; [lra|auto].
    + split; [exact HD|]. intros ->. discriminate E2.
Qed.

(** A concrete network meets the hypotheses: two blocks with dilations 1, 2 and
    3, S2 cells, three calls on a batch of two series. *)
Example C297_case :
  exists s m ys,
    build [[1; 2]; [3]]%Z "S2Cell" 2 3 (Some 4%Z) (Some 1%Z)
      (fun l => (fun i j => INR (l + i) - INR j, fun i => INR i / 2))
      (fun _ => (fun _ _ => 0, fun _ => 0)) (fun i j => INR i + INR j, fun _ => 1) = Some s /\
    calls s blank [T 2 [[1; 2]; [100; -100]]; T 2 [[0; 5]; [7; 7]]; T 2 [[1; 1]; [3; 2]]] = Some (m, ys) /\
    List.length ys = 3%nat /\ (forall y, In y ys -> is_batch 2 4 y) /\
    forall y i j v, In y ys -> entry y i j = Some v -> Rabs v <= 2 * abs_sum (fun k => INR j + INR k) 2 + 1.
Proof.
  set (W := fun l : nat => (fun i j : nat => INR (l + i) - INR j, fun i : nat => INR i / 2)).
  set (W' := fun _ : nat => (fun _ _ : nat => 0, fun _ : nat => 0)).
  set (A := (fun i j : nat => INR i + INR j, fun _ : nat => 1)).
  assert (BD : exists s, build [[1; 2]; [3]]%Z "S2Cell" 2 3 (Some 4%Z) (Some 1%Z) W W' A = Some s /\ s_out s = 2%nat).
  { eexists. split; [unfold build; cbn -[W W' A]; reflexivity|reflexivity]. }
  destruct BD as [s [BD SO]].
  destruct (C297_shapes _ _ _ _ _ _ _ _ _ s 2
     [T 2 [[1; 2]; [100; -100]]; T 2 [[0; 5]; [7; 7]]; T 2 [[1; 1]; [3; 2]]] BD) as [m [ys [C [L Y]]]].
  - cbn. intros d [<-|[<-|[<-|[]]]]; lia.
  - intros _. exists 1%Z. split; [reflexivity|lia].
  - intros x I. cbn in I.
    assert (G : forall a b c d, is_batch 2 2 (T 2 [[a; b]; [c; d]])).
    { intros. split; [reflexivity|]. split; [reflexivity|]. intros r [<-|[<-|[]]]; reflexivity. }
    destruct I as [<-|[<-|[<-|[]]]]; apply G.
  - exists s, m, ys. split; [exact BD|]. split; [exact C|]. split; [exact L|]. split; [exact Y|].
    intros y i j v I V. pose proof (C297_range _ _ _ _ _ _ _ _ _ _ _ _ _ BD C y i j v I V) as R0.
    rewrite SO in R0. cbn [A fst snd List.length] in R0.
    rewrite (Rabs_right 1) in R0 by lra. replace (INR 2) with 2 in R0 by (cbn; lra). exact R0.
Qed.

Print Assumptions C297_shapes.
Print Assumptions C297_alone.
Print Assumptions C297_bounded.
Print Assumptions C297_range.
Print Assumptions C297_states.
