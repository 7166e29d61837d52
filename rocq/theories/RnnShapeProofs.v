(** Calls of the recurrent network: which succeed, and with which shapes. *)
From Coq Require Import ZArith Reals String List Bool Lia Lra.
From Verif Require Import RnnModel RnnProofs.
Import ListNotations.
Open Scope R_scope.

(** A cell as the constructor makes it, for inputs of width [i]. *)
Definition cell_ok (k : kind) (h : Z) (state i : nat) (c : cell) : Prop :=
  c_kind c = k /\ c_h c = h /\ c_state c = state /\ l_out (c_lin c) = (4 * state)%nat /\
  match k with
  | K_LSTM => l_in (c_lin c) = i /\ l_in (c_hh c) = state /\ l_out (c_hh c) = (4 * state)%nat
  | _ => Z.of_nat (l_in (c_lin c)) = (Z.of_nat i + 2 * h)%Z
  end.

Definition h_width (k : kind) (h : Z) (state : nat) : nat :=
  match k with K_LSTM => state | _ => Z.to_nat h end.
Definition out_width (k : kind) (h : Z) (state : nat) : nat :=
  match k with K_LSTM => state | _ => Z.to_nat (Z.of_nat state - h) end.

Lemma gate_input_ok n i h c x p d ph dh :
  c_h c = h -> (0 <= h)%Z -> Z.of_nat (l_in (c_lin c)) = (Z.of_nat i + 2 * h)%Z ->
  is_batch n i x ->
  ((p || d)%bool = true -> is_batch n (Z.to_nat h) ph) ->
  (d = true -> is_batch n (Z.to_nat h) dh) ->
  exists xh, gate_input c x p d ph dh = Some xh /\ is_batch n (l_in (c_lin c)) xh.
Proof.
  intros EH H0 LI X PH DH. unfold gate_input.
  assert (W : l_in (c_lin c) = (i + Z.to_nat h + Z.to_nat h)%nat) by lia.
  destruct d.
  - rewrite orb_true_r in PH.
    destruct (cat2_ok n i (Z.to_nat h) x ph X (PH eq_refl)) as [a [E A]]. rewrite E. cbn [bind].
    destruct (cat2_ok n _ (Z.to_nat h) a dh A (DH eq_refl)) as [b [E2 B]]. rewrite E2.
    exists b. rewrite W. split; [reflexivity|exact B].
  - destruct p.
    + cbn [orb] in PH. specialize (PH eq_refl).
      destruct (cat2_ok n i (Z.to_nat h) x ph X PH) as [a [E A]]. rewrite E. cbn [bind].
      destruct (cat2_ok n _ (Z.to_nat h) a ph A PH) as [b [E2 B]]. rewrite E2.
      exists b. rewrite W. split; [reflexivity|exact B].
    + assert (TN : t_n x = n) by (destruct X as [_ [X _]]; exact X).
      rewrite TN, EH. destruct (zeros_ok n (2 * h)) as [z [E Z0]]; [lia|]. rewrite E. cbn [bind].
      destruct (cat2_ok n i _ x z X Z0) as [b [E2 B]]. rewrite E2.
      exists b. split; [reflexivity|]. replace (l_in (c_lin c)) with (i + Z.to_nat (2 * h))%nat by lia.
      exact B.
Qed.

Lemma lstm2_ok n i h state c x p d ph dh cs :
  cell_ok K_LSTM2 h state i c -> (0 <= h)%Z -> (h < Z.of_nat state)%Z ->
  is_batch n i x ->
  ((p || d)%bool = true -> is_batch n (Z.to_nat h) ph) ->
  (d = true -> is_batch n (Z.to_nat h) dh) ->
  (p = true -> is_batch n state cs) ->
  exists o hh nn, lstm2 c x p d ph dh cs = Some (o, (hh, nn)) /\
    is_batch n (Z.to_nat (Z.of_nat state - h)) o /\ is_batch n (Z.to_nat h) hh /\ is_batch n state nn.
Proof.
  intros [K [EH [ES [LO LI]]]] H0 HS X PH DH CS. unfold lstm2.
  destruct (gate_input_ok n i h c x p d ph dh EH H0 LI X PH DH) as [xh [E XH]].
  rewrite E. cbn [bind]. destruct (linear_ok n _ xh XH) as [g [E2 G]]. rewrite E2. cbn [bind].
  rewrite LO in G.
  assert (C0 := chunk_ok n state g 0 G ltac:(lia)). assert (C1 := chunk_ok n state g 1 G ltac:(lia)).
  assert (C2 := chunk_ok n state g 2 G ltac:(lia)). assert (C3 := chunk_ok n state g 3 G ltac:(lia)).
  apply (tmap_ok _ _ (fun v => sigmoid (v + 1))) in C0. apply (tmap_ok _ _ sigmoid) in C1.
  apply (tmap_ok _ _ sigmoid) in C2. apply (tmap_ok _ _ tanh) in C3.
  assert (N : exists new, (if p
     then do a <- tzip Rmult (tmap (fun v => sigmoid (v + 1)) (chunk g 0)) cs;
          do b <- tzip Rmult (tmap sigmoid (chunk g 1)) (tmap tanh (chunk g 3)); tzip Rplus a b
     else Some (tmap tanh (chunk g 3))) = Some new /\ is_batch n state new).
  { destruct p; [|eexists; split; [reflexivity|exact C3]].
    destruct (tzip_ok n state Rmult _ cs C0 (CS eq_refl)) as [a [Ea A]]. rewrite Ea. cbn [bind].
    destruct (tzip_ok n state Rmult _ _ C1 C3) as [b [Eb B]]. rewrite Eb. cbn [bind].
    exact (tzip_ok n state Rplus a b A B). }
  destruct N as [new [En N]]. rewrite En. cbn [bind].
  destruct (tzip_ok n state Rmult _ _ C2 (tmap_ok n state tanh new N)) as [w [Ew W]].
  rewrite Ew. cbn [bind].
  destruct (split2_ok n state w (Z.of_nat (c_state c) - c_h c) (c_h c) W) as [u [v [Es [U V]]]];
    [rewrite ?ES, ?EH; lia..|].
  rewrite Es. cbn [bind fst snd]. exists u, v, new. rewrite ES, EH in U. rewrite EH in V. auto.
Qed.

Lemma s2_ok n i h state c x p d ph dh pc dc :
  cell_ok K_S2 h state i c -> (0 <= h)%Z -> (h < Z.of_nat state)%Z ->
  is_batch n i x ->
  ((p || d)%bool = true -> is_batch n (Z.to_nat h) ph) ->
  (d = true -> is_batch n (Z.to_nat h) dh) ->
  (p = true -> is_batch n state pc) ->
  (d = true -> is_batch n state dc) ->
  exists o hh nn, s2 c x p d ph dh pc dc = Some (o, (hh, nn)) /\
    is_batch n (Z.to_nat (Z.of_nat state - h)) o /\ is_batch n (Z.to_nat h) hh /\ is_batch n state nn.
Proof.
  intros [K [EH [ES [LO LI]]]] H0 HS X PH DH PC DC. unfold s2.
  destruct (gate_input_ok n i h c x p d ph dh EH H0 LI X PH DH) as [xh [E XH]].
  rewrite E. cbn [bind]. destruct (linear_ok n _ xh XH) as [g [E2 G]]. rewrite E2. cbn [bind].
  rewrite LO in G.
  assert (C0 := chunk_ok n state g 0 G ltac:(lia)). assert (C1 := chunk_ok n state g 1 G ltac:(lia)).
  assert (C2 := chunk_ok n state g 2 G ltac:(lia)). assert (C3 := chunk_ok n state g 3 G ltac:(lia)).
  apply (tmap_ok _ _ (fun v => sigmoid (v + 1))) in C0. apply (tmap_ok _ _ tanh) in C1.
  apply (tmap_ok _ _ sigmoid) in C2. apply (tmap_ok _ _ sigmoid) in C3.
  assert (N : exists new, (if p
     then do w <- (if d
                   then do a <- tzip Rmult (tmap sigmoid (chunk g 2)) pc;
                        do b <- tzip Rmult (tmap (fun v => 1 - v) (tmap sigmoid (chunk g 2))) dc;
                        tzip Rplus a b
                   else Some pc);
          do a <- tzip Rmult (tmap (fun v => sigmoid (v + 1)) (chunk g 0)) w;
          do b <- tzip Rmult (tmap (fun v => 1 - v) (tmap (fun v => sigmoid (v + 1)) (chunk g 0))) (tmap tanh (chunk g 1));
          tzip Rplus a b
     else Some (tmap tanh (chunk g 1))) = Some new /\ is_batch n state new).
  { destruct p; [|eexists; split; [reflexivity|exact C1]].
    assert (Wt : exists w, (if d
                   then do a <- tzip Rmult (tmap sigmoid (chunk g 2)) pc;
                        do b <- tzip Rmult (tmap (fun v => 1 - v) (tmap sigmoid (chunk g 2))) dc;
                        tzip Rplus a b
                   else Some pc) = Some w /\ is_batch n state w).
    { destruct d; [|exists pc; split; [reflexivity|exact (PC eq_refl)]].
      destruct (tzip_ok n state Rmult _ pc C2 (PC eq_refl)) as [a [Ea A]]. rewrite Ea. cbn [bind].
      destruct (tzip_ok n state Rmult _ dc (tmap_ok n state (fun v => 1 - v) _ C2) (DC eq_refl)) as [b [Eb B]].
      rewrite Eb. cbn [bind]. exact (tzip_ok n state Rplus a b A B). }
    destruct Wt as [w [Ew Wt]]. rewrite Ew. cbn [bind].
    destruct (tzip_ok n state Rmult _ w C0 Wt) as [a [Ea A]]. rewrite Ea. cbn [bind].
    destruct (tzip_ok n state Rmult _ _ (tmap_ok n state (fun v => 1 - v) _ C0) C1) as [b [Eb B]].
    rewrite Eb. cbn [bind]. exact (tzip_ok n state Rplus a b A B). }
  destruct N as [new [En N]]. rewrite En. cbn [bind].
  destruct (tzip_ok n state Rmult _ _ C3 N) as [w [Ew W]].
  rewrite Ew. cbn [bind].
  destruct (split2_ok n state w (Z.of_nat (c_state c) - c_h c) (c_h c) W) as [u [v [Es [U V]]]];
    [rewrite ?ES, ?EH; lia..|].
  rewrite Es. cbn [bind fst snd]. exists u, v, new. rewrite ES, EH in U. rewrite EH in V. auto.
Qed.

Lemma lstm_ok n i h state c x st :
  cell_ok K_LSTM h state i c -> is_batch n i x ->
  (forall hh nn, st = Some (hh, nn) -> is_batch n state hh /\ is_batch n state nn) ->
  exists hh nn, lstm c x st = Some (hh, nn) /\ is_batch n state hh /\ is_batch n state nn.
Proof.
  intros [K [EH [ES [LO [LI [HI HO]]]]]] X ST. unfold lstm.
  assert (TN : t_n x = n) by (destruct X as [_ [X _]]; exact X).
  assert (S0 : exists hc, (match st with
            | Some hc => Some hc
            | None => do z <- zeros (t_n x) (Z.of_nat (c_state c)); Some (z, z)
            end) = Some hc /\ is_batch n state (fst hc) /\ is_batch n state (snd hc)).
  { destruct st as [[a b]|].
    - exists (a, b). split; [reflexivity|]. exact (ST a b eq_refl).
    - rewrite TN, ES. destruct (zeros_ok n (Z.of_nat state)) as [z [E Z0]]; [lia|].
      rewrite E. cbn [bind]. exists (z, z). rewrite Nat2Z.id in Z0. auto. }
  destruct S0 as [hc [E0 [H0 N0]]]. rewrite E0. cbn [bind].
  destruct (linear_ok n (c_lin c) x) as [a [Ea A]]; [rewrite LI; exact X|]. rewrite Ea. cbn [bind].
  destruct (linear_ok n (c_hh c) (fst hc)) as [b [Eb B]]; [rewrite HI; exact H0|]. rewrite Eb. cbn [bind].
  rewrite LO in A. rewrite HO in B.
  destruct (tzip_ok n _ Rplus a b A B) as [g [Eg G]]. rewrite Eg. cbn [bind].
  assert (C0 := chunk_ok n state g 0 G ltac:(lia)). assert (C1 := chunk_ok n state g 1 G ltac:(lia)).
  assert (C2 := chunk_ok n state g 2 G ltac:(lia)). assert (C3 := chunk_ok n state g 3 G ltac:(lia)).
  apply (tmap_ok _ _ sigmoid) in C0, C1, C3. apply (tmap_ok _ _ tanh) in C2.
  destruct (tzip_ok n _ Rmult _ _ C1 N0) as [u [Eu U]]. rewrite Eu. cbn [bind].
  destruct (tzip_ok n _ Rmult _ _ C0 C2) as [v [Ev V]]. rewrite Ev. cbn [bind].
  destruct (tzip_ok n _ Rplus _ _ U V) as [w [Ew W]]. rewrite Ew. cbn [bind].
  destruct (tzip_ok n _ Rmult _ _ C3 (tmap_ok n state tanh w W)) as [q [Eq Q0]]. rewrite Eq. cbn [bind].
  exists q, w. auto.
Qed.

(** Everything kept so far, for [L] layers. *)
Definition kept (n w L : nat) (s : store) : Prop :=
  forall e, In e s -> List.length e = L /\ forall x, In x e -> is_batch n w x.

Lemma look_kept n w L s cur t i layer :
  kept n w L s -> List.length s = t -> (0 <= i < Z.of_nat t)%Z -> (layer < L)%nat ->
  exists x, look (s ++ [cur]) i layer = Some x /\ is_batch n w x.
Proof.
  intros KP LS RI LL. unfold look. rewrite (proj2 (Z.ltb_ge i 0)) by lia.
  rewrite nth_error_app1 by lia.
  destruct (nth_error s (Z.to_nat i)) as [e|] eqn:E;
    [|apply nth_error_None in E; lia].
  cbn [bind]. apply nth_error_In in E. destruct (KP e E) as [LE SE].
  destruct (nth_error e layer) as [x|] eqn:EX; [|apply nth_error_None in EX; lia].
  exists x. split; [reflexivity|]. apply SE. eapply nth_error_In, EX.
Qed.

Lemma layer_ok n i k h state L c m hc cc d layer x :
  cell_ok k h state i c -> (k <> K_LSTM -> 0 <= h < Z.of_nat state)%Z ->
  kept n (h_width k h state) L (m_h m) -> kept n state L (m_c m) ->
  List.length (m_c m) = List.length (m_h m) -> (1 <= d)%Z -> (layer < L)%nat ->
  is_batch n i x ->
  exists o hh nn,
    layer_call c (m_h m ++ [hc]) (m_c m ++ [cc]) (List.length (m_h m))
               (Z.of_nat (List.length (m_h m)) - d) layer x = Some (o, (hh, nn)) /\
    is_batch n (out_width k h state) o /\ is_batch n (h_width k h state) hh /\ is_batch n state nn.
Proof.
  intros CO HB KH KC LC D1 LL X. set (t := List.length (m_h m)) in *.
  assert (PV : forall w s cur, kept n w L s -> List.length s = t -> (0 < t)%nat ->
               exists y, look (s ++ [cur]) (Z.of_nat (t - 1)) layer = Some y /\ is_batch n w y)
    by (intros w s cur Ks Ls T; apply (look_kept n w L s cur t); [exact Ks|exact Ls|lia|exact LL]).
  assert (DV : forall w s cur, kept n w L s -> List.length s = t -> (0 <= Z.of_nat t - d)%Z ->
               exists y, look (s ++ [cur]) (Z.of_nat t - d) layer = Some y /\ is_batch n w y)
    by (intros w s cur Ks Ls T; apply (look_kept n w L s cur t); [exact Ks|exact Ls|lia|exact LL]).
  unfold layer_call. pose proof (proj1 CO) as CK. rewrite CK.
  destruct (0 <=? Z.of_nat t - d)%Z eqn:HD.
  - apply Z.leb_le in HD. assert (T : (0 < t)%nat) by lia.
    destruct (PV _ _ hc KH eq_refl T) as [ph [Eph PH]]. destruct (DV _ _ hc KH eq_refl HD) as [dh [Edh DH]].
    destruct (PV _ _ cc KC LC T) as [pc [Epc PC]]. destruct (DV _ _ cc KC LC HD) as [dc [Edc DC]].
    rewrite (proj2 (Nat.ltb_lt 0 t) T).
    destruct k; cbn [h_width out_width] in *.
    + rewrite Edh, Edc. cbn [bind].
      destruct (lstm_ok n i h state c x (Some (dh, dc)) CO X) as [a [b [E [A B]]]].
      { intros hh nn Q0. apply some_eq in Q0. injection Q0 as <- <-. auto. }
      rewrite E. cbn [bind fst]. exists a, a, b. auto.
    + rewrite Eph, Edh, Edc. cbn [bind].
      apply (lstm2_ok n i h state c x true true ph dh dc CO); auto; apply HB; discriminate.
    + rewrite Eph, Edh, Epc, Edc. cbn [bind].
      apply (s2_ok n i h state c x true true ph dh pc dc CO); auto; apply HB; discriminate.
  - destruct (Nat.ltb 0 t) eqn:HT.
    + apply Nat.ltb_lt in HT.
      destruct (PV _ _ hc KH eq_refl HT) as [ph [Eph PH]].
      destruct (PV _ _ cc KC LC HT) as [pc [Epc PC]].
      destruct k; cbn [h_width out_width] in *.
      * rewrite Eph, Epc. cbn [bind].
        destruct (lstm_ok n i h state c x (Some (ph, pc)) CO X) as [a [b [E [A B]]]].
        { intros hh nn Q0. apply some_eq in Q0. injection Q0 as <- <-. auto. }
        rewrite E. cbn [bind fst]. exists a, a, b. auto.
      * rewrite Eph, Epc. cbn [bind].
        apply (lstm2_ok n i h state c x true false ph noneT pc CO); auto; try discriminate; apply HB; discriminate.
      * rewrite Eph, Epc. cbn [bind].
        apply (s2_ok n i h state c x true false ph noneT pc noneT CO); auto; try discriminate; apply HB; discriminate.
    + destruct k; cbn [h_width out_width] in *.
      * destruct (lstm_ok n i h state c x None CO X) as [a [b [E [A B]]]]; [discriminate|].
        rewrite E. cbn [bind fst]. exists a, a, b. auto.
      * apply (lstm2_ok n i h state c x false false noneT noneT noneT CO); auto; try discriminate; apply HB; discriminate.
      * apply (s2_ok n i h state c x false false noneT noneT noneT noneT CO); auto; try discriminate; apply HB; discriminate.
Qed.

(** The cells of a stack, layer by layer. *)
Definition cells_ok (k : kind) (h : Z) (state out input : nat) (cs : list cell) : Prop :=
  forall l, (l < List.length cs)%nat ->
  exists c, nth_error cs l = Some c /\
            cell_ok k h state (if Nat.eqb l 0 then input else out) c.

Lemma block_ok n k h state input cs m ds : forall layer x hc cc,
  cells_ok k h state (out_width k h state) input cs ->
  (k <> K_LSTM -> 0 <= h < Z.of_nat state)%Z ->
  kept n (h_width k h state) (List.length cs) (m_h m) -> kept n state (List.length cs) (m_c m) ->
  List.length (m_c m) = List.length (m_h m) ->
  (forall d, In d ds -> 1 <= d)%Z ->
  (layer + List.length ds <= List.length cs)%nat ->
  is_batch n (if Nat.eqb layer 0 then input else out_width k h state) x ->
  List.length hc = layer -> List.length cc = layer ->
  (forall y, In y hc -> is_batch n (h_width k h state) y) -> (forall y, In y cc -> is_batch n state y) ->
  exists hc' cc' o,
    run_block cs m (List.length (m_h m)) ds layer x hc cc = ((hc', cc'), Some o) /\
    (is_batch n (if Nat.eqb (layer + List.length ds) 0 then input else out_width k h state) o) /\
    List.length hc' = (layer + List.length ds)%nat /\ List.length cc' = (layer + List.length ds)%nat /\
    (forall y, In y hc' -> is_batch n (h_width k h state) y) /\ (forall y, In y cc' -> is_batch n state y).
Proof.
  induction ds as [|d ds IH]; intros layer x hc cc CO HB KH KC LC DS LL X LH LCC HH HC.
  - exists hc, cc, x. cbn [run_block List.length]. rewrite Nat.add_0_r.
    split; [reflexivity|]. split; [exact X|]. auto.
  - cbn [run_block]. cbn [List.length] in LL.
    destruct (CO layer) as [c [Ec CC]]; [lia|]. rewrite Ec. cbn [bind].
    destruct (layer_ok n _ k h state (List.length cs) c m hc cc d layer x CC HB KH KC LC)
      as [o [hh [nn [E [O [H1 N1]]]]]]; [apply DS; left; reflexivity|lia|exact X|].
    rewrite E.
    destruct (IH (S layer) o (hc ++ [hh]) (cc ++ [nn]) CO HB KH KC LC) as [hc' [cc' [o' R0]]].
    + intros d' I. apply DS. right. exact I.
    + lia.
    + exact O.
    + rewrite app_length. cbn. lia.
    + rewrite app_length. cbn. lia.
    + intros y I. apply in_app_or in I. destruct I as [I|[<-|[]]]; auto.
    + intros y I. apply in_app_or in I. destruct I as [I|[<-|[]]]; auto.
    + exists hc', cc', o'. cbn [List.length]. rewrite <- Nat.add_succ_comm. exact R0.
Qed.

Lemma blocks_ok n k h state input cs m bs : forall layer x prev hc cc,
  cells_ok k h state (out_width k h state) input cs ->
  (k <> K_LSTM -> 0 <= h < Z.of_nat state)%Z ->
  kept n (h_width k h state) (List.length cs) (m_h m) -> kept n state (List.length cs) (m_c m) ->
  List.length (m_c m) = List.length (m_h m) ->
  (forall d, In d (List.concat bs) -> 1 <= d)%Z -> (forall b, In b bs -> b <> []) ->
  (layer + List.length (List.concat bs) <= List.length cs)%nat ->
  is_batch n (if Nat.eqb layer 0 then input else out_width k h state) x ->
  is_batch n (out_width k h state) prev ->
  List.length hc = layer -> List.length cc = layer ->
  (forall y, In y hc -> is_batch n (h_width k h state) y) -> (forall y, In y cc -> is_batch n state y) ->
  exists hc' cc' o,
    run_blocks cs m (List.length (m_h m)) bs layer x prev hc cc = ((hc', cc'), Some o) /\
    is_batch n (out_width k h state) o /\
    List.length hc' = (layer + List.length (List.concat bs))%nat /\
    List.length cc' = (layer + List.length (List.concat bs))%nat /\
    (forall y, In y hc' -> is_batch n (h_width k h state) y) /\ (forall y, In y cc' -> is_batch n state y).
Proof.
  induction bs as [|ds bs IH]; intros layer x prev hc cc CO HB KH KC LC DS NE LL X PV LH LCC HH HC.
  - exists hc, cc, prev. cbn [run_blocks List.concat List.length]. rewrite Nat.add_0_r.
    split; [reflexivity|]. split; [exact PV|]. auto.
  - cbn [run_blocks]. cbn [List.concat] in LL, DS. rewrite app_length in LL.
    destruct (block_ok n k h state input cs m ds layer x hc cc CO HB KH KC LC)
      as [hc' [cc' [o [E [O [L1 [L2 [H1 C1]]]]]]]]; auto; [intros d I; apply DS, in_or_app; auto|lia|].
    rewrite E.
    assert (NZ : Nat.eqb (layer + List.length ds) 0 = false).
    { apply Nat.eqb_neq. assert (ds <> []) by (apply NE; left; reflexivity).
      destruct ds; [congruence|]. cbn. lia. }
    rewrite NZ in O.
    destruct (tzip_ok n _ Rplus o prev O PV) as [s [Es S0]]. rewrite Es.
    destruct (IH (layer + List.length ds)%nat s s hc' cc' CO HB KH KC LC) as [h2 [c2 [o2 R0]]]; auto.
    + intros d I. apply DS, in_or_app. auto.
    + intros b I. apply NE. right. exact I.
    + lia.
    + rewrite NZ. exact S0.
    + exists h2, c2, o2. cbn [List.concat]. rewrite app_length, Nat.add_assoc. exact R0.
Qed.

(** What the constructor guarantees. *)
Lemma new_cells_ok k h state out input W W' n : forall layer cs,
  new_cells k h state out input W W' layer n = Some cs ->
  List.length cs = n /\
  forall l, (l < n)%nat -> exists c, nth_error cs l = Some c /\
    cell_ok k h state (if Nat.eqb (layer + l) 0 then input else out) c.
Proof.
  induction n as [|n IH]; intros layer cs H.
  - cbn in H. apply some_eq in H. subst cs. split; [reflexivity|]. intros l L. lia.
  - cbn [new_cells] in H.
    destruct (new_cell k h state (if Nat.eqb layer 0 then input else out) (W layer) (W' layer))
      as [c|] eqn:EC; [|discriminate]. cbn [bind] in H.
    destruct (new_cells k h state out input W W' (S layer) n) as [r|] eqn:ER; [|discriminate].
    cbn [bind] in H. apply some_eq in H. subst cs.
    destruct (IH (S layer) r ER) as [LR HR]. split; [cbn; rewrite LR; reflexivity|].
    intros [|l] L.
    + exists c. split; [reflexivity|]. rewrite Nat.add_0_r.
      set (i := if Nat.eqb layer 0 then input else out) in *. clearbody i.
      unfold new_cell in EC. destruct k.
      * apply some_eq in EC. subst c. repeat split.
      * unfold new_lin in EC. destruct (Z.of_nat i + 2 * h <? 0)%Z eqn:EZ; [discriminate|].
        cbn [bind] in EC. apply some_eq in EC. subst c. apply Z.ltb_ge in EZ.
        split; [reflexivity|]. split; [reflexivity|]. split; [reflexivity|]. split; [reflexivity|].
        cbn [c_lin l_in]. lia.
      * unfold new_lin in EC. destruct (Z.of_nat i + 2 * h <? 0)%Z eqn:EZ; [discriminate|].
        cbn [bind] in EC. apply some_eq in EC. subst c. apply Z.ltb_ge in EZ.
        split; [reflexivity|]. split; [reflexivity|]. split; [reflexivity|]. split; [reflexivity|].
        cbn [c_lin l_in]. lia.
    + destruct (HR l) as [c' [E' C']]; [lia|]. exists c'. split; [exact E'|].
      rewrite Nat.add_succ_r. exact C'.
Qed.

Lemma maxes_nonempty (bs : list (list Z)) ms :
  fold_right (fun b acc => do a <- acc; do m <- max_list b; Some (m :: a)) (Some []) bs = Some ms ->
  (forall b, In b bs -> b <> []) /\ List.length ms = List.length bs.
Proof.
  revert ms. induction bs as [|b bs IH]; intros ms H.
  - cbn in H. apply some_eq in H. subst ms. split; [intros b []|reflexivity].
  - cbn [fold_right] in H.
    destruct (fold_right _ _ bs) as [a|]; [|discriminate]. cbn [bind] in H.
    destruct (max_list b) as [m|] eqn:MB; [|discriminate]. cbn [bind] in H.
    apply some_eq in H. subst ms. destruct (IH a eq_refl) as [I1 I2]. split.
    + intros b' [<-|I]; [|exact (I1 b' I)]. intro Q0. subst b. discriminate.
    + cbn. rewrite I2. reflexivity.
Qed.

(** A stack as [build] makes it. *)
Record made (k : kind) (h : Z) (state input : nat) (s : stack) : Prop := {
  md_cells : cells_ok k h state (s_out s) input (s_cells s);
  md_len : List.length (s_cells s) = List.length (List.concat (s_struct s));
  md_out : s_out s = out_width k h state;
  md_h : (k <> K_LSTM -> h < Z.of_nat state)%Z;
  md_blocks : (forall b, In b (s_struct s) -> b <> []) /\ s_struct s <> [];
  md_adaptor : forall a, s_adaptor s = Some a -> l_in a = s_out s }.

Definition kind_of (name : string) : kind :=
  if String.eqb name "LSTM" then K_LSTM else if String.eqb name "S2Cell" then K_S2 else K_LSTM2.
Definition h_of (name : string) (h : option Z) : Z :=
  if String.eqb name "LSTM" then 0%Z else match h with Some z => z | None => 0%Z end.

Lemma build_made struct name input state output h W W' A s :
  build struct name input state output h W W' A = Some s ->
  made (kind_of name) (h_of name h) state input s /\ s_struct s = struct /\
  (name <> "LSTM"%string -> exists z, h = Some z) /\
  (s_adaptor s = match output with
                 | Some o => Some (Lin (s_out s) (Z.to_nat o) (fst A) (snd A)) | None => None end) /\
  (forall o, output = Some o -> (0 < o)%Z).
Proof.
  intro H. unfold build in H.
  destruct (fold_right _ _ struct) as [ms|] eqn:EM; [|discriminate]. cbn [bind] in H.
  destruct (max_list ms) as [mx|] eqn:EX; [|discriminate]. cbn [bind] in H.
  destruct (validate name state h) as [[[k hz] out]|] eqn:EV; [|discriminate]. cbn [bind fst snd] in H.
  destruct (new_cells k hz state out input W W' 0 (List.length (List.concat struct))) as [cs|] eqn:EC;
    [|discriminate]. cbn [bind] in H.
  destruct (maxes_nonempty struct ms EM) as [NE LM].
  destruct (new_cells_ok k hz state out input W W' _ 0 cs EC) as [LC HC].
  assert (V : k = kind_of name /\ hz = h_of name h /\ out = out_width k hz state /\
              (k <> K_LSTM -> hz < Z.of_nat state)%Z /\
              (name <> "LSTM"%string -> exists z, h = Some z)).
  { unfold validate in EV. unfold kind_of, h_of. destruct (String.eqb name "LSTM") eqn:E1.
    - apply some_eq in EV. injection EV as <- <- <-. apply String.eqb_eq in E1.
      split; [reflexivity|]. split; [reflexivity|]. split; [reflexivity|].
      split; [congruence|]. intro Q0. congruence.
    - destruct (String.eqb name "LSTM2Cell" || String.eqb name "S2Cell"); [|discriminate].
      destruct h as [z|]; [|discriminate].
      destruct (Z.of_nat state <=? z)%Z eqn:EZ; [discriminate|].
      apply some_eq in EV. injection EV as <- <- <-. apply Z.leb_gt in EZ.
      split; [reflexivity|]. split; [reflexivity|].
      split; [destruct (String.eqb name "S2Cell"); reflexivity|].
      split; [intros _; exact EZ|]. intros _. exists z. reflexivity. }
  destruct V as [Vk [Vh [Vo [Vs Vn]]]].
  assert (AD : exists ad, (match output with
            | None => Some None
            | Some o => if (0 <? o)%Z then Some (Some (Lin out (Z.to_nat o) (fst A) (snd A))) else None
            end) = Some ad /\ ad = (match output with
                 | Some o => Some (Lin out (Z.to_nat o) (fst A) (snd A)) | None => None end) /\
            (forall o, output = Some o -> (0 < o)%Z)).
  { destruct output as [o|].
    - destruct (0 <? o)%Z eqn:EO; [|discriminate]. apply Z.ltb_lt in EO.
      eexists. split; [reflexivity|]. split; [reflexivity|]. intros o' Q0. congruence.
    - eexists. split; [reflexivity|]. split; [reflexivity|]. discriminate. }
  destruct AD as [ad [EA [Ad Ao]]]. rewrite EA in H. cbn [bind] in H. apply some_eq in H. subst s.
  split; [|split; [reflexivity|split; [exact Vn|split; [exact Ad|exact Ao]]]].
  rewrite <- Vk, <- Vh. constructor; cbn [s_cells s_struct s_out s_adaptor].
  - intros l L. rewrite LC in L. exact (HC l L).
  - exact LC.
  - exact Vo.
  - exact Vs.
  - split; [exact NE|]. intro Q0. rewrite Q0 in LM. destruct ms; [discriminate EX|discriminate LM].
  - intros a Q0. rewrite Ad in Q0. destruct output; [|discriminate]. apply some_eq in Q0. subst a. reflexivity.
Qed.

(** The states kept by earlier calls on batches of [n] series. *)
Definition sound (n : nat) (k : kind) (h : Z) (state L : nat) (m : memory) : Prop :=
  kept n (h_width k h state) L (m_h m) /\ kept n state L (m_c m) /\
  List.length (m_c m) = List.length (m_h m).

Lemma forward_ok n k h state input s m x :
  made k h state input s -> (k <> K_LSTM -> 0 <= h)%Z ->
  (forall d, In d (List.concat (s_struct s)) -> 1 <= d)%Z ->
  sound n k h state (List.length (s_cells s)) m -> is_batch n input x ->
  exists m' y, forward s m x = (m', Some y) /\
    sound n k h state (List.length (s_cells s)) m' /\
    List.length (m_h m') = S (List.length (m_h m)) /\
    is_batch n (match s_adaptor s with Some a => l_out a | None => s_out s end) y.
Proof.
  intros MD H0 DS [KH [KC LC]] X. unfold forward.
  assert (TN : t_n x = n) by (destruct X as [_ [X0 _]]; exact X0). rewrite TN.
  destruct (zeros_ok n (Z.of_nat (s_out s))) as [z [EZ Z0]]; [lia|]. rewrite EZ.
  rewrite Nat2Z.id in Z0. cbv zeta. pose proof (md_cells _ _ _ _ _ MD) as CO.
  rewrite (md_out _ _ _ _ _ MD) in CO, Z0.
  assert (HB : (k <> K_LSTM -> 0 <= h < Z.of_nat state)%Z)
    by (intro Q0; split; [exact (H0 Q0)|exact (md_h _ _ _ _ _ MD Q0)]).
  destruct (blocks_ok n k h state input (s_cells s) m (s_struct s) 0 x z [] [] CO HB KH KC LC)
    as [hc [cc [o [E [O [L1 [L2 [H1 C1]]]]]]]]; auto;
    [exact (proj1 (md_blocks _ _ _ _ _ MD))|rewrite (md_len _ _ _ _ _ MD); lia|intros y []|intros y []|].
  rewrite E. cbn [bind].
  assert (Y : exists y, (match s_adaptor s with Some a => linear a o | None => Some o end) = Some y /\
     is_batch n (match s_adaptor s with Some a => l_out a | None => s_out s end) y).
  { destruct (s_adaptor s) as [a|] eqn:EA.
    - apply linear_ok. rewrite (md_adaptor _ _ _ _ _ MD a EA), (md_out _ _ _ _ _ MD). exact O.
    - exists o. split; [reflexivity|]. rewrite (md_out _ _ _ _ _ MD). exact O. }
  destruct Y as [y [EY Y]]. rewrite EY. eexists. exists y. split; [reflexivity|].
  rewrite (md_len _ _ _ _ _ MD) in *. unfold sound. cbn [m_h m_c]. rewrite !app_length. cbn [List.length].
  split; [|split; [lia|exact Y]]. split; [|split; [|rewrite LC; reflexivity]].
  - intros e I. apply in_app_or in I. destruct I as [I|[<-|[]]]; [exact (KH e I)|].
    split; [exact L1|exact H1].
  - intros e I. apply in_app_or in I. destruct I as [I|[<-|[]]]; [exact (KC e I)|].
    split; [exact L2|exact C1].
Qed.
