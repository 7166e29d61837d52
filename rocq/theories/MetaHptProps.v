(** C237 (categorical parameters), C238 (layers and default models), C239 (training) of the hyper-parameter meta-learner —
    specification, proofs and theorems. *)
From Coq Require Import List Bool Arith ZArith QArith String Lia Lqa Sorted.
From Verif Require Import Common MetaHptModel.
Import ListNotations.
Open Scope nat_scope.
Local Notation length := List.length.

(** ** Specification *)
(** layers that fit together, from [a] inputs to [b] outputs *)
Inductive connects : nat -> list (nat * nat) -> nat -> Prop :=
| Done a : connects a [] a
| Step a b c ls : connects b ls c -> connects a ((a, b) :: ls) c.

(** ** C237 *)
Lemma insert_new_in v l x : In x (insert_new v l) <-> x = v \/ In x l.
Proof.
  induction l as [|y l IH]; cbn [insert_new]; [cbn; intuition |]. destruct (v <? y)%Z; [cbn; intuition |]. destruct (Z.eqb_spec v y) as [->|]; [cbn; intuition |]. cbn [In]. rewrite IH. intuition.
Qed.
Lemma insert_new_sorted v l : StronglySorted Z.lt l -> StronglySorted Z.lt (insert_new v l).
Proof.
  induction l as [|y l IH]; intros H; cbn [insert_new]; [repeat constructor |]. inversion H as [|? ? H1 H2]; subst.
  destruct (Z.ltb_spec v y).
  - constructor; [exact H |]. constructor; [assumption |]. rewrite Forall_forall in *. intros x I. specialize (H2 x I). lia.
  - destruct (Z.eqb_spec v y); [exact H |]. constructor; [apply IH; exact H1 |]. rewrite Forall_forall in *. intros x I. apply insert_new_in in I as [->|I]; [lia | apply H2; exact I].
Qed.
Lemma categories_in column v : In v (categories column) <-> In (Some v) column.
Proof.
  induction column as [|[x|] column IH]; cbn [categories fold_right]; [cbn; tauto | |]; fold (categories column).
  - rewrite insert_new_in, IH. cbn. split; intros [A|A]; auto; [left; congruence | left; congruence].
  - rewrite IH. cbn. split; [tauto | intros [A|A]; [discriminate | exact A]].
Qed.
Lemma categories_sorted column : StronglySorted Z.lt (categories column).
Proof. induction column as [|[x|] column IH]; cbn [categories fold_right]; [constructor | apply insert_new_sorted; exact IH | exact IH]. Qed.
Lemma place_spec v l : In v l -> exists c, place v l = Z.of_nat c /\ nth_error l c = Some v /\ c < length l.
Proof.
  induction l as [|x l IH]; intros I; [destruct I |]. cbn [place]. destruct (Z.eqb_spec v x) as [->|D]; [exists 0; split; [reflexivity | split; [reflexivity | cbn; lia]] |].
  destruct I as [->|I]; [congruence |]. destruct (IH I) as (c & E & N & L). cbv zeta. rewrite E. destruct (Z.ltb_spec (Z.of_nat c) 0); [lia |]. exists (S c). split; [lia |]. split; [exact N | cbn; lia].
Qed.
(** C237: the classes of a parameter are its different values; the class of every value of the column is one of the network's
    outputs, and is decoded to the value *)
Theorem C237_codes column v : In (Some v) column ->
  NoDup (categories column) /\ (forall u, In u (categories column) <-> In (Some u) column) /\
  exists c, code column (Some v) = Z.of_nat c /\ c < length (categories column) /\ decode column c = Some v /\ target_ok (length (categories column)) (code column (Some v)) = true.
Proof.
  intros I. split; [| split; [apply categories_in |]].
  - pose proof (categories_sorted column) as S. induction S as [|x l S IH F]; constructor; [| exact IH]. intros J. rewrite Forall_forall in F. specialize (F x J). lia.
  - destruct (place_spec v (categories column)) as (c & E & N & L); [apply categories_in; exact I |]. exists c. split; [exact E |]. split; [exact L |]. split; [exact N |].
    cbn [code]. rewrite E. unfold target_ok. apply andb_true_iff. split; [apply Z.leb_le; lia | apply Z.ltb_lt; lia].
Qed.
Lemma argmax_from_spec l : forall best bv i pre, nth_error (pre ++ l) best = Some bv -> best < i -> i = length pre -> (forall x, In x pre -> (x <= bv)%Q) ->
  exists bv', nth_error (pre ++ l) (argmax_from best bv i l) = Some bv' /\ forall x, In x (pre ++ l) -> (x <= bv')%Q.
Proof.
  induction l as [|y l IH]; intros best bv i pre E B I U.
  - exists bv. cbn [argmax_from]. split; [exact E |]. rewrite app_nil_r. exact U.
  - cbn [argmax_from]. assert (A : pre ++ y :: l = (pre ++ [y]) ++ l) by (rewrite <- app_assoc; reflexivity). destruct (Qle_bool y bv) eqn:L.
    + apply Qle_bool_iff in L. rewrite A. apply (IH best bv (S i)); [rewrite <- A; exact E | lia | rewrite app_length; cbn; lia |]. intros x J. apply in_app_iff in J as [J|[<-|[]]]; [apply U; exact J | exact L].
    + assert (L' : (bv < y)%Q) by (apply Qnot_le_lt; intros L'; apply Qle_bool_iff in L'; congruence). rewrite A. apply (IH i y (S i)); [| lia | rewrite app_length; cbn; lia |].
      * rewrite <- A, nth_error_app2 by lia. subst i. rewrite Nat.sub_diag. reflexivity.
      * intros x J. apply in_app_iff in J as [J|[<-|[]]]; [pose proof (U x J); lra | lra].
Qed.
(** the value recommended for a parameter is one of the values of the training data, that of a largest output *)
Theorem C237_recommended column outputs : List.length outputs = length (categories column) -> outputs <> [] ->
  exists v b, decode column (argmax outputs) = Some v /\ In (Some v) column /\ nth_error outputs (argmax outputs) = Some b /\ forall x, In x outputs -> (x <= b)%Q.
Proof.
  intros L N. destruct outputs as [|y l]; [congruence |]. destruct (argmax_from_spec l 0 y 1 [y] eq_refl ltac:(lia) eq_refl) as (b & E & U); [intros x [<-|[]]; lra |].
  change (argmax (y :: l)) with (argmax_from 0 y 1 l). change ([y] ++ l) with (y :: l) in *.
  assert (K : argmax_from 0 y 1 l < length (categories column)) by (rewrite <- L; apply nth_error_Some; congruence).
  unfold decode. destruct (nth_error (categories column) (argmax_from 0 y 1 l)) as [v|] eqn:D; [| apply nth_error_None in D; lia].
  exists v, b. split; [reflexivity |]. split; [apply categories_in; apply nth_error_In in D; exact D |]. split; [exact E | exact U].
Qed.
(** the dictionary given for a series: the names in order, each categorical parameter with a value of its own column of the
    training data, that of a largest output of its own task, each numerical one with its own output *)
Theorem C237_parameters h cat num columns cats nums : h_cat h = Some cat -> h_num h = Some num ->
  length columns = length cat -> length cats = length cat -> length nums = length num ->
  (forall j column outputs, nth_error columns j = Some column -> nth_error cats j = Some outputs ->
     length outputs = length (categories column) /\ outputs <> []) ->
  exists rc rn, recommended h columns cats nums = Some (rc, rn) /\ map fst rc = cat /\ map fst rn = num /\ map snd rn = nums /\
    forall j name column outputs, nth_error cat j = Some name -> nth_error columns j = Some column -> nth_error cats j = Some outputs ->
      exists v k b, nth_error rc j = Some (name, Some v) /\ In (Some v) column /\ nth_error (categories column) k = Some v /\
        nth_error outputs k = Some b /\ forall x, In x outputs -> (x <= b)%Q.
Proof.
  intros HC HN L1 L2 L3 OK. unfold recommended. rewrite HC, HN. eexists _, _. split; [reflexivity |].
  assert (CF : forall (A B : Type) (l : list A) (m : list B), length m = length l -> map fst (combine l m) = l /\ map snd (combine l m) = m).
  { clear. induction l as [|x l IH]; intros [|y m] L; try discriminate; [split; reflexivity |]. cbn [combine map fst snd].
    destruct (IH m) as [E1 E2]; [cbn in L; lia |]. rewrite E1, E2. split; reflexivity. }
  split; [| split; [apply (CF _ _ num nums L3) | split; [apply (CF _ _ num nums L3) |]]].
  - rewrite map_map. cbn [fst]. clear. induction cat as [|c cat IH]; [reflexivity |]. cbn [length seq map nth]. f_equal.
    rewrite <- seq_shift, map_map. rewrite <- IH at 2. apply map_ext. reflexivity.
  - intros j name column outputs E1 E2 E3. destruct (OK j column outputs E2 E3) as [LO NE].
    destruct (C237_recommended column outputs LO NE) as (v & b & D & I & NB & U).
    exists v, (argmax outputs), b. split; [| split; [exact I | split; [exact D | split; [exact NB | exact U]]]].
    assert (J : j < length cat) by (apply nth_error_Some; congruence).
    rewrite nth_error_map, (nth_error_nth' _ 0) by (rewrite seq_length; exact J). rewrite seq_nth by exact J. cbn [option_map]. rewrite Nat.add_0_l.
    rewrite (nth_error_nth _ _ _ E1), (nth_error_nth _ _ _ E2), (nth_error_nth _ _ _ E3), D. reflexivity.
Qed.
(** a missing value gets a class that no network has: the loss raises *)
Theorem C237_missing_refuted column n : code column None = (-1)%Z /\ target_ok n (code column None) = false.
Proof. split; reflexivity. Qed.
Example C237_case : let column := [Some 30; Some 7; None; Some 30; Some 12]%Z in
  categories column = [7; 12; 30]%Z /\ code column (Some 12%Z) = 1%Z /\ decode column (argmax [1#10; 2#10; 7#10]) = Some 30%Z.
Proof. split; [| split]; reflexivity. Qed.

Example C237_parameters_case : forall h, h_cat h = Some ["trend"; "lag"]%string -> h_num h = Some ["alpha"]%string ->
  recommended h [[Some 1; Some 0]%Z; [Some 7; Some 30; Some 7]%Z] [[3#10; 7#10]; [9#10; 1#10]] [1#2]
  = Some ([("trend", Some 1%Z); ("lag", Some 7%Z)], [("alpha", 1#2)])%string.
Proof. intros h HC HN. unfold recommended. rewrite HC, HN. reflexivity. Qed.

(** ** C238 *)
Lemma chain_connects a sizes : connects a (chain a sizes) (last (a :: sizes) 0).
Proof.
  revert a. induction sizes as [|s r IH]; intros a; [constructor |]. cbn [chain]. constructor. change (last (a :: s :: r) 0) with (last (s :: r) 0). apply IH.
Qed.
Lemma last_snoc_any {A} (x : A) l y d : last (x :: l ++ [y]) d = y.
Proof. rewrite app_comm_cons. apply last_last. Qed.
(** C238: the layers of the network fit together: from the features to a common layer, from there to one output for each value of
    each categorical parameter, and one output for each numerical parameter *)
Theorem C238_layers cat num ncats dim rows nfeat h shared combo numeric n :
  construct (Some cat) (Some num) ncats dim rows nfeat = Some h -> build h shared combo numeric = Some n ->
  exists top, connects nfeat (n_shared n) top /\ length (n_cats n) = length cat /\
  (forall j c k, nth_error cat j = Some c -> ncats c = Some k -> exists ls, nth_error (n_cats n) j = Some ls /\ ls <> [] /\ connects top ls k) /\
  (num <> [] -> n_num n <> [] /\ connects top (n_num n) (length num)) /\ (num = [] -> n_num n = []).
Proof.
  unfold construct. destruct (empty (Some num) && empty (Some cat)); [discriminate |]. cbv zeta. destruct (forallb _ _); [| discriminate]. destruct (negb _); [discriminate |]. destruct (existsb _ _); [discriminate |]. destruct (rows <=? 30); [discriminate |].
  intros E. injection E as <-. unfold build. cbn [h_out h_in h_num]. destruct (Nat.eqb_spec (length combo) (length (map (fun c => match ncats c with Some n0 => n0 | None => 0 end) cat))) as [L|]; [| discriminate]. cbn [negb]. cbv zeta.
  intros E. injection E as <-. cbn [n_shared n_cats n_num count]. rewrite map_length in L. set (outs := map (fun c => match ncats c with Some n0 => n0 | None => 0 end) cat) in *.
  exists (last (nfeat :: shared) 0). split; [apply chain_connects |].
  assert (Z : zip_sizes combo outs = map (fun i => (nth i combo [] ++ [nth i outs 0])%list) (seq 0 (length combo))).
  { unfold zip_sizes. destruct outs eqn:Eo; [| reflexivity]. unfold outs in Eo. apply map_eq_nil in Eo. subst cat. cbn in L. rewrite L. reflexivity. }
  rewrite Z, map_map. split; [rewrite map_length, seq_length; exact L |]. split; [| split].
  - intros j c k Ej Ek. assert (Lj : j < length cat) by (apply nth_error_Some; congruence). eexists. split; [| split].
    + rewrite nth_error_map, (nth_error_nth' (seq 0 (length combo)) 0) by (rewrite seq_length; lia). rewrite seq_nth by lia. reflexivity.
    + cbn [plus]. destruct (nth j combo []); discriminate.
    + cbn [plus]. assert (Eo : nth j outs 0 = k).
      { unfold outs. rewrite (nth_error_nth _ _ 0 (map_nth_error (fun c => match ncats c with Some n0 => n0 | None => 0 end) j cat Ej)), Ek. reflexivity. }
      rewrite Eo. rewrite <- (last_snoc_any (last (nfeat :: shared) 0) (nth j combo []) k 0) at 2. apply chain_connects.
  - intros N. destruct num as [|x num]; [congruence |]. cbn [length]. split; [destruct numeric; discriminate |].
    rewrite <- (last_snoc_any (last (nfeat :: shared) 0) numeric (S (length num)) 0) at 2. apply chain_connects.
  - intros ->. reflexivity.
Qed.
(** every default model has a network that its data fit, and gives recommendations *)
Theorem C238_defaults name cat num : In (name, (cat, num)) defaults -> exists shared combo numeric, In (name, (shared, combo, numeric)) networks /\
  forall ncats dim rows nfeat h, construct (Some cat) (Some num) ncats dim rows nfeat = Some h ->
    build h shared combo numeric <> None /\ forall decoders cats nums, recommended h decoders cats nums <> None.
Proof.
  intros I.
  assert (G : exists shared combo numeric, In (name, (shared, combo, numeric)) networks /\ length combo = length cat).
  { unfold defaults in I. cbn [In] in I. repeat (destruct I as [I|I]; [injection I as <- <- <-; eexists _, _, _; split; [unfold networks; cbn [In]; repeat (first [left; reflexivity | right]) | reflexivity] |]). destruct I. }
  destruct G as (s & c & n & J & L). exists s, c, n. split; [exact J |]. intros ncats dim rows nfeat h E. unfold construct in E. destruct (empty (Some num) && empty (Some cat)); [discriminate |]. cbv zeta in E. destruct (forallb _ _); [| discriminate]. destruct (negb _); [discriminate |]. destruct (existsb _ _); [discriminate |]. destruct (rows <=? 30); [discriminate |].
  injection E as <-. split; [| intros; discriminate]. unfold build. cbn [h_out]. rewrite map_length, L, Nat.eqb_refl. discriminate.
Qed.
(** only numerical parameters, categorical_idx left out: the constructor always raises; only categorical ones, numerical_idx left
    out: no recommendation can be made *)
Theorem C238_numerical_only_refuted num ncats dim rows nfeat : construct None num ncats dim rows nfeat = None.
Proof. unfold construct. destruct (empty num && empty None); [reflexivity |]. destruct (forallb _ _); [| reflexivity]. cbv zeta. destruct (negb _); reflexivity. Qed.
Theorem C238_categorical_only_refuted : exists cat ncats h, construct (Some cat) None ncats 1 40 3 = Some h /\ build h [5] [[2]] [] <> None /\ forall decoders cats nums, recommended h decoders cats nums = None.
Proof.
  exists ["trend"%string], (fun _ => Some 3). eexists. split; [vm_compute; reflexivity |]. split; [discriminate | reflexivity].
Qed.
Example C238_case : exists h n, construct (Some ["score_func"]%string) (Some ["delta_std_ratio"; "scan_window"; "historical_window"]%string) (fun _ => Some 4) 4 31 40 = Some h /\
  build h [20] [[3]] [5;5;5] = Some n /\ n_shared n = [(40,20)] /\ n_cats n = [[(20,3); (3,4)]] /\ n_num n = [(20,5); (5,5); (5,5); (5,3)].
Proof. eexists _, _. split; [reflexivity |]. split; [vm_compute; reflexivity |]. split; [reflexivity | split; reflexivity]. Qed.

(** ** C239 *)
Lemma batches_from bs (perm : list nat) : 1 <= bs -> forall m k, length perm <= (k + m) * bs -> concat (map (fun i => firstn bs (skipn (i * bs) perm)) (seq k m)) = skipn (k * bs) perm.
Proof.
  intros B. induction m as [|m IH]; intros k L; [cbn [seq map concat]; rewrite skipn_all2; [reflexivity | lia] |].
  cbn [seq map concat]. rewrite (IH (S k)) by lia. rewrite <- (firstn_skipn bs (skipn (k * bs) perm)) at 2. f_equal.
  rewrite skipn_skipn_add. f_equal. lia.
Qed.
(** C239: every epoch uses every training row once *)
Theorem C239_batches bs perm : 1 <= bs -> concat (batches bs perm) = perm /\ forall b, In b (batches bs perm) -> 1 <= length b <= bs.
Proof.
  intros B. unfold batches. set (m := (length perm + (bs - 1)) / bs).
  assert (M : length perm <= m * bs /\ (m - 1) * bs < length perm \/ m = 0 /\ length perm = 0).
  { unfold m. pose proof (Nat.div_mod (length perm + (bs - 1)) bs ltac:(lia)) as D. pose proof (Nat.mod_upper_bound (length perm + (bs - 1)) bs ltac:(lia)). fold m in D |- *.
    destruct (Nat.eq_dec m 0) as [E|E]; [right; split; [exact E | nia] | left]. split; [nia |]. destruct m as [|m']; [congruence |]. cbn [Nat.sub]. rewrite Nat.sub_0_r. nia. }
  split.
  - rewrite (batches_from bs perm B m 0); [reflexivity |]. cbn [plus]. destruct M as [[M _]|[M1 M2]]; [exact M | lia].
  - intros b I. apply in_map_iff in I as (i & <- & I). apply in_seq in I. rewrite firstn_length, skipn_length. destruct M as [[_ M]|[M1 M2]]; [| lia]. assert (i * bs < length perm) by nia. lia.
Qed.

(** the best epoch so far *)
Definition best_epoch (val : nat -> Q) (e e0 : nat) : Prop := e0 < e /\ (forall i, i < e -> (val e0 <= val i)%Q) /\ forall i, i < e0 -> (val e0 < val i)%Q.
Lemma epochs_spec val stop : forall fuel e best idle,
  (e = 0 /\ best = None /\ idle = 0 \/ exists e0, best_epoch val e e0 /\ best = Some (val e0) /\ idle = e - 1 - e0) ->
  let E := epochs val stop fuel e best idle in
  e <= E <= e + fuel /\
  (E < e + fuel -> 22 <= E /\ exists e0, best_epoch val E e0 /\ e0 + stop < E) /\
  (forall k, e <= k -> 21 <= k -> S k < E -> exists e0, best_epoch val (S k) e0 /\ k < e0 + stop).
Proof.
  induction fuel as [|fuel IH]; intros e best idle INV; cbv zeta; cbn [epochs]; [split; [lia |]; split; [lia | intros; lia] |].
  set (improved := match best with None => true | Some b => negb (Qle_bool b (val e)) end).
  set (best' := if improved then Some (val e) else best). set (idle' := if improved then 0 else S idle).
  assert (INV' : exists e0, best_epoch val (S e) e0 /\ best' = Some (val e0) /\ idle' = S e - 1 - e0).
  { unfold best', idle', improved. destruct INV as [(-> & -> & ->)|(e0 & (B1 & B2 & B3) & -> & ->)].
    - exists 0. split; [split; [lia |]; split; [intros i I; assert (i = 0) by lia; subst; lra | intros; lia] | split; reflexivity].
    - destruct (Qle_bool (val e0) (val e)) eqn:Q0; cbn [negb].
      + apply Qle_bool_iff in Q0. exists e0. split; [| split; [reflexivity | lia]]. split; [lia |]. split; [| exact B3]. intros i I. destruct (Nat.eq_dec i e) as [->|]; [exact Q0 | apply B2; lia].
      + assert (Q1 : (val e < val e0)%Q) by (apply Qnot_le_lt; intros G; apply Qle_bool_iff in G; congruence).
        exists e. split; [| split; [reflexivity | lia]]. split; [lia |]. split.
        * intros i I. destruct (Nat.eq_dec i e) as [->|]; [lra |]. pose proof (B2 i ltac:(lia)). lra.
        * intros i I. pose proof (B2 i I). lra. }
  destruct INV' as (e0 & B & Eb & Ei). fold improved best' idle'. destruct (Nat.ltb_spec 20 e) as [L|L]; cbn [andb].
  - destruct (Nat.leb_spec stop idle') as [G|G].
    + split; [lia |]. split; [| intros; lia]. intros _. split; [lia |]. exists e0. split; [exact B |]. destruct B as [B _]. lia.
    + destruct (IH (S e) best' idle' (or_intror (ex_intro _ e0 (conj B (conj Eb Ei))))) as (A1 & A2 & A3). split; [lia |]. split; [intros H; apply A2; lia |].
      intros k K1 K2 K3. destruct (Nat.eq_dec k e) as [->|]; [exists e0; split; [exact B |]; destruct B as [B _]; lia | apply A3; lia].
  - destruct (IH (S e) best' idle' (or_intror (ex_intro _ e0 (conj B (conj Eb Ei))))) as (A1 & A2 & A3). split; [lia |]. split; [intros H; apply A2; lia |].
    intros k K1 K2 K3. apply A3; lia.
Qed.
(** C239: training ends before the last epoch only after 22 epochs and if the [stop] last ones brought no improvement; and after
    epoch 22 it does end then *)
Theorem C239_stopping val stop n : let E := trained val stop n in E <= n /\
  (E < n -> 22 <= E /\ exists e0, e0 + stop < E /\ forall e, e < E -> (val e0 <= val e)%Q) /\
  (forall k, 21 <= k -> S k < E -> exists e0, e0 <= k < e0 + stop /\ forall e, e < e0 -> (val e0 < val e)%Q).
Proof.
  cbv zeta. destruct (epochs_spec val stop n 0 None 0 (or_introl (conj eq_refl (conj eq_refl eq_refl)))) as (A1 & A2 & A3). unfold trained. split; [lia |]. split.
  - intros H. destruct (A2 H) as (B1 & e0 & (B2 & B3 & _) & B4). split; [exact B1 |]. exists e0. split; [exact B4 | exact B3].
  - intros k K1 K2. destruct (A3 k ltac:(lia) K1 K2) as (e0 & (C1 & _ & C3) & C4). exists e0. split; [lia | exact C3].
Qed.
(** losses that only grow: with any patience below 21 the network is trained for 22 epochs all the same, and is left as it is after
    the last of them, the worst *)
Theorem C239_patience_refuted stop n : stop <= 21 -> 22 <= n -> let val := fun e => inject_Z (Z.of_nat e) in
  trained val stop n = 22 /\ forall e, e < 22 -> (val e <= val 21%nat)%Q.
Proof.
  intros S N. cbv zeta. destruct (C239_stopping (fun e => inject_Z (Z.of_nat e)) stop n) as (A & B & C). set (E := trained (fun e => inject_Z (Z.of_nat e)) stop n) in *. split.
  - destruct (Nat.lt_trichotomy E 22) as [G|[G|G]]; [| exact G |].
    + destruct (Nat.eq_dec E n) as [->|]; [lia |]. destruct (B ltac:(lia)) as [B' _]. lia.
    + destruct (C 21 ltac:(lia) G) as (e0 & H1 & H2). destruct e0 as [|e0]; [lia |]. specialize (H2 0 ltac:(lia)). cbv beta in H2. rewrite <- Zlt_Qlt in H2. lia.
  - intros e H. rewrite <- Zle_Qle. lia.
Qed.
Example C239_case : trained (fun e => if e <? 30 then inject_Z (100 - Z.of_nat e) else 80)%Q 5 1000 = 35 /\ batches 3 [4;2;0;1;3;6;5] = [[4;2;0]; [1;3;6]; [5]].
Proof. split; vm_compute; reflexivity. Qed.

Print Assumptions C237_codes.
Print Assumptions C237_recommended.
Print Assumptions C237_missing_refuted.
Print Assumptions C238_layers.
Print Assumptions C238_defaults.
Print Assumptions C238_numerical_only_refuted.
Print Assumptions C238_categorical_only_refuted.
Print Assumptions C239_batches.
Print Assumptions C239_stopping.
Print Assumptions C239_patience_refuted.

Print Assumptions C237_parameters.
