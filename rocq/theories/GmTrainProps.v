(** C314: training a global model *)
From Coq Require Import String.
From Coq Require Import List ZArith QArith Bool Lia.
From Verif Require Import GmParamModel GmTrainModel.
Import ListNotations.
Open Scope nat_scope.

(** ** Specification *)
(** the value of a schedule at an epoch: that of its last key that is not after the epoch *)
Definition in_force (d : list (Z * num)) (e : nat) (v : num) : Prop :=
  exists k, In (k, v) d /\ (k <= Z.of_nat e)%Z /\ forall k' v', In (k', v') d -> (k' <= Z.of_nat e)%Z -> (k' <= k)%Z.
Definition is_mean (l : list Q) (m : Q) : Prop := l <> [] /\ (m * inject_Z (Z.of_nat (List.length l)) == fold_right Qplus 0 l)%Q.

(** ** Lemmas *)
Lemma get_in {V} k (d : list (Z * V)) v : get k d = Some v -> In (k, v) d.
Proof.
  induction d as [|[k' v'] d IH]; cbn [get]; [discriminate|]. destruct (Z.eqb_spec k' k) as [->|N].
  - intro E. injection E as ->. left. reflexivity.
  - intro E. right. apply IH, E.
Qed.
Lemma get_none {V} k (d : list (Z * V)) v : get k d = None -> ~ In (k, v) d.
Proof.
  induction d as [|[k' v'] d IH]; cbn [get]; [intros _ []|]. destruct (Z.eqb_spec k' k) as [->|N]; [discriminate|].
  intros E [A|A]; [injection A as -> ->; congruence | exact (IH E A)].
Qed.
Lemma in_get {V} k (d : list (Z * V)) v : NoDup (map fst d) -> In (k, v) d -> get k d = Some v.
Proof.
  induction d as [|[k' v'] d IH]; [intros _ []|]. cbn [map fst get]. intros N I. inversion N as [|? ? A B]; subst.
  destruct I as [E|I]; [injection E as -> ->; rewrite Z.eqb_refl; reflexivity|].
  destruct (Z.eqb_spec k' k) as [->|NE]; [|apply IH; assumption]. exfalso. apply A. exact (in_map fst _ _ I).
Qed.
Lemma force_next d e v : (e = 0 -> get 0 d = Some v) -> (forall e', e = S e' -> in_force d e' v) ->
  in_force d e (match get (Z.of_nat e) d with Some w => w | None => v end).
Proof.
  intros Z0 PS. destruct (get (Z.of_nat e) d) as [w|] eqn:G.
  - exists (Z.of_nat e). split; [apply get_in, G|]. split; [lia|]. intros; assumption.
  - destruct e as [|e]; [cbn in G; rewrite Z0 in G by reflexivity; discriminate|].
    destruct (PS e eq_refl) as (k & I & L & M). exists k. split; [exact I|]. split; [lia|]. intros k' v' I' L'.
    assert (k' <> Z.of_nat (S e)) by (intros ->; exact (get_none _ _ v' G I')). apply (M k' v' I'). lia.
Qed.
Lemma average_mean l m : average l = Some m -> is_mean l m.
Proof.
  destruct l as [|x l]; [discriminate|]. cbn [average]. intro E. injection E as <-. split; [discriminate|].
  assert (N : ~ (inject_Z (Z.of_nat (List.length (x :: l))) == 0)%Q) by (unfold Qeq; cbn; lia).
  rewrite Qmult_comm. unfold total. apply Qmult_div_r. exact N.
Qed.
Lemma average_none l : average l = None <-> l = [].
Proof. destruct l; cbn; split; congruence. Qed.

Section S.
Context {Weights Gradient Optimizer Loader Batch Forecast Rng Evaluation : Type}.
Variables (init : Rng -> Weights * Rng) (new_optimizer : Optimizer) (new_loader : Loader)
  (take : Loader -> num -> Rng -> Rng * option (Batch * Loader))
  (pass : Weights -> bool -> Batch -> Rng -> Rng * option (list Q * Gradient * list Q * list row * Forecast))
  (update : num -> Optimizer -> Weights -> Gradient -> Optimizer * Weights)
  (assess : Weights -> Rng -> Rng * option Evaluation).
Notation steps := (steps take pass update).
Notation epochs := (epochs new_optimizer take pass update assess).
Notation train := (train init new_optimizer new_loader take pass update assess).

Lemma steps_spec n nq e lr bs : forall op ld (s s' : st Weights Rng) ld' ls, steps n nq e lr bs op ld s = (s', Some (ld', ls)) ->
  List.length ls = n /\ training s' = training s
  /\ Forall (fun l => l_epoch l = e /\ l_batch_size l = bs /\ l_rate l = lr /\ l_training l = training s) ls.
Proof.
  induction n as [|n IH]; intros op ld s s' ld' ls E; cbn [GmTrainModel.steps] in E.
  - injection E as <- <- <-. split; [reflexivity|]. split; [reflexivity | constructor].
  - unfold one_step in E. destruct (take ld bs (rng s)) as [g [[b ld1]|]]; [|discriminate].
    destruct (pass (weights s) (training s) b g) as [g1 [[[[[losses grad] tr] va] fc]|]]; [|discriminate].
    destruct (update lr op (weights s) grad) as [op1 w].
    destruct (GmTrainModel.steps take pass update n nq e lr bs op1 ld1 {| weights := w; training := training s; rng := g1 |}) as [s2 [[ld2 ls2]|]] eqn:R; [|discriminate].
    injection E as <- <- <-. destruct (IH _ _ _ _ _ _ R) as (A & B & C). cbn in B, C. split; [cbn; rewrite A; reflexivity|].
    split; [exact B|]. constructor; [cbn; auto | exact C].
Qed.

Lemma epochs_spec size nq rates sizes test : forall n e lr bs ld (s s' : st Weights Rng) r,
  (e = 0 -> get 0 rates = Some lr) -> (forall e', e = S e' -> in_force rates e' lr) ->
  (e = 0 -> get 0 sizes = Some bs) -> (forall e', e = S e' -> in_force sizes e' bs) ->
  epochs n e size nq rates sizes test lr bs ld s = (s', Some r) ->
  List.length r = n
  /\ forall i ls ev, nth_error r i = Some (ls, ev) -> List.length ls = size /\ (ev = None <-> test = false)
     /\ exists lr' bs', in_force rates (e + i) lr' /\ in_force sizes (e + i) bs'
     /\ Forall (fun l => l_epoch l = e + i /\ l_batch_size l = bs' /\ l_rate l = lr' /\ l_training l = (training s && negb (test && (0 <? i)))%bool) ls.
Proof.
  induction n as [|n IH]; intros e lr bs ld s s' r A1 A2 B1 B2 E; cbn [GmTrainModel.epochs] in E.
  - injection E as <- <-. split; [reflexivity|]. intros [|i] ls ev H; discriminate H.
  - assert (FL := force_next rates e lr A1 A2). assert (FB := force_next sizes e bs B1 B2).
    set (lr1 := match get (Z.of_nat e) rates with Some w => w | None => lr end) in *.
    set (bs1 := match get (Z.of_nat e) sizes with Some w => w | None => bs end) in *.
    destruct (GmTrainModel.steps take pass update size nq e lr1 bs1 new_optimizer ld s) as [s1 [[ld1 ls1]|]] eqn:R; [|discriminate].
    destruct (steps_spec _ _ _ _ _ _ _ _ _ _ _ R) as (L & T & F).
    assert (N1 : forall e', S e = S e' -> in_force rates e' lr1) by (intros e' X; injection X as <-; exact FL).
    assert (N2 : forall e', S e = S e' -> in_force sizes e' bs1) by (intros e' X; injection X as <-; exact FB).
    assert (N3 : S e = 0 -> get 0 rates = Some lr1) by discriminate. assert (N4 : S e = 0 -> get 0 sizes = Some bs1) by discriminate.
    destruct test.
    + destruct (assess (weights s1) (rng s1)) as [g [ev1|]]; [|discriminate].
      match type of E with context [GmTrainModel.epochs ?a ?b ?c ?d ?f n ?g ?h ?i ?j ?k ?l ?m ?o ?p ?q] => destruct (GmTrainModel.epochs a b c d f n g h i j k l m o p q) as [s2 [r2|]] eqn:R2; [|discriminate] end.
      injection E as <- <-. destruct (IH _ _ _ _ _ _ _ N3 N1 N4 N2 R2) as [Ln P].
      split; [cbn; rewrite Ln; reflexivity|]. intros [|i] ls ev H.
      * injection H as <- <-. split; [exact L|]. split; [split; discriminate|]. exists lr1, bs1. rewrite Nat.add_0_r. split; [exact FL|]. split; [exact FB|].
        revert F. apply Forall_impl. intros l (a & b & c & d). repeat split; try assumption. rewrite d. cbn. rewrite andb_true_r. reflexivity.
      * cbn [nth_error] in H. destruct (P i ls ev H) as (X1 & X2 & lr2 & bs2 & X3 & X4 & X5). split; [exact X1|]. split; [exact X2|]. exists lr2, bs2.
        rewrite Nat.add_succ_r. split; [exact X3|]. split; [exact X4|]. revert X5. apply Forall_impl. intros l (a & b & c & d). repeat split; try assumption.
        rewrite d. cbn. rewrite andb_false_r. reflexivity.
    + match type of E with context [GmTrainModel.epochs ?a ?b ?c ?d ?f n ?g ?h ?i ?j ?k ?l ?m ?o ?p ?q] => destruct (GmTrainModel.epochs a b c d f n g h i j k l m o p q) as [s2 [r2|]] eqn:R2; [|discriminate] end.
      injection E as <- <-. destruct (IH _ _ _ _ _ _ _ N3 N1 N4 N2 R2) as [Ln P].
      split; [cbn; rewrite Ln; reflexivity|]. intros [|i] ls ev H.
      * injection H as <- <-. split; [exact L|]. split; [split; reflexivity|]. exists lr1, bs1. rewrite Nat.add_0_r. split; [exact FL|]. split; [exact FB|].
        revert F. apply Forall_impl. intros l (a & b & c & d). repeat split; try assumption. rewrite d. cbn. rewrite andb_true_r. reflexivity.
      * cbn [nth_error] in H. destruct (P i ls ev H) as (X1 & X2 & lr2 & bs2 & X3 & X4 & X5). split; [exact X1|]. split; [exact X2|]. exists lr2, bs2.
        rewrite Nat.add_succ_r. split; [exact X3|]. split; [exact X4|]. revert X5. apply Forall_impl. intros l (a & b & c & d). repeat split; try assumption.
        rewrite d, T. reflexivity.
Qed.

(** ** Theorems *)
(** Every epoch makes all its steps, each with the learning rate and the batch size in force; test series are evaluated once
    after each epoch. *)
Theorem C314_schedule : forall n size nq rates sizes test net g s r, train n size nq rates sizes test net g = (s, Some r) ->
  List.length r = n
  /\ forall e ls ev, nth_error r e = Some (ls, ev) ->
     List.length ls = size /\ (ev = None <-> test = false)
     /\ exists lr bs, in_force rates e lr /\ in_force sizes e bs
     /\ forall l, In l ls -> l_epoch l = e /\ l_rate l = lr /\ l_batch_size l = bs.
Proof.
  intros n size nq rates sizes test net g s r E. unfold GmTrainModel.train in E.
  destruct (match net with Some w => (w, g) | None => init g end) as [w g0].
  destruct (get 0 rates) as [lr|] eqn:G1; [|discriminate]. destruct (get 0 sizes) as [bs|] eqn:G2; [|discriminate].
  destruct (epochs_spec size nq rates sizes test n 0 lr bs _ _ s r (fun _ => G1) (fun _ H => match O_S _ H with end) (fun _ => G2) (fun _ H => match O_S _ H with end) E) as [L P].
  split; [exact L|]. intros e ls ev H. destruct (P e ls ev H) as (A & B & lr' & bs' & C & D & F). split; [exact A|]. split; [exact B|].
  exists lr', bs'. split; [exact C|]. split; [exact D|]. intros l I. rewrite Forall_forall in F. destruct (F l I) as (X & Y & Z & _). auto.
Qed.
(** Steps are made in the network's training mode when no series are evaluated, but only those of the first epoch are otherwise. *)
Theorem C314_mode_partial : forall n size nq rates sizes net g s r, train n size nq rates sizes false net g = (s, Some r) ->
  forall ls ev l, In (ls, ev) r -> In l ls -> l_training l = true.
Proof.
  intros n size nq rates sizes net g s r E ls ev l I J. unfold GmTrainModel.train in E.
  destruct (match net with Some w => (w, g) | None => init g end) as [w g0].
  destruct (get 0 rates) as [lr|] eqn:G1; [|discriminate]. destruct (get 0 sizes) as [bs|] eqn:G2; [|discriminate].
  destruct (epochs_spec size nq rates sizes false n 0 lr bs _ _ s r (fun _ => G1) (fun _ H => match O_S _ H with end) (fun _ => G2) (fun _ H => match O_S _ H with end) E) as [L P].
  apply In_nth_error in I as [e I]. destruct (P e ls ev I) as (_ & _ & lr' & bs' & _ & _ & F). rewrite Forall_forall in F. apply (F l J).
Qed.
Theorem C314_mode_refuted : forall n size nq rates sizes net g s r, train n size nq rates sizes true net g = (s, Some r) ->
  forall e ls ev l, nth_error r e = Some (ls, ev) -> In l ls -> (l_training l = true <-> e = 0).
Proof.
  intros n size nq rates sizes net g s r E e ls ev l I J. unfold GmTrainModel.train in E.
  destruct (match net with Some w => (w, g) | None => init g end) as [w g0].
  destruct (get 0 rates) as [lr|] eqn:G1; [|discriminate]. destruct (get 0 sizes) as [bs|] eqn:G2; [|discriminate].
  destruct (epochs_spec size nq rates sizes true n 0 lr bs _ _ s r (fun _ => G1) (fun _ H => match O_S _ H with end) (fun _ => G2) (fun _ H => match O_S _ H with end) E) as [L P].
  destruct (P e ls ev I) as (_ & _ & lr' & bs' & _ & _ & F). rewrite Forall_forall in F. destruct (F l J) as (_ & _ & _ & T).
  rewrite T. cbn [training]. destruct e; cbn; split; congruence.
Qed.

(** The monitors: one entry for each epoch; the loss is the mean over the steps, the other two are means over all the values
    collected in the epoch that are numbers; the forecasts are kept only when asked for, each with its epoch. *)
Theorem C314_monitors : forall n size nq rates sizes test net g s r, 1 <= size ->
  train n size nq rates sizes test net g = (s, Some r) ->
  List.length (train_loss_val size r) = n /\ List.length (train_loss_monitor r) = n
  /\ (forall metric, List.length (valid_loss_monitor metric r) = n)
  /\ List.length (valid_fcst_monitor true r) = n * size /\ valid_fcst_monitor false r = []
  /\ (forall i e f, nth_error (valid_fcst_monitor true r) i = Some (e, f) -> e = i / size)
  /\ forall e ls ev, nth_error r e = Some (ls, ev) ->
     (exists v, nth_error (train_loss_val size r) e = Some v /\ is_mean (map l_loss ls) v)
     /\ (exists v, nth_error (train_loss_monitor r) e = Some v
         /\ match v with Some m => is_mean (flat_map l_train ls) m | None => flat_map l_train ls = [] end)
     /\ (forall metric, exists v, nth_error (valid_loss_monitor metric r) e = Some v
         /\ let kept := flat_map (fun x => match entry metric x with Some q => [q] | None => [] end) (flat_map l_valid ls) in
            match v with Some m => is_mean kept m | None => kept = [] end).
Proof.
  intros n size nq rates sizes test net g s r S1 E. destruct (C314_schedule _ _ _ _ _ _ _ _ _ _ E) as [L P].
  unfold train_loss_val, train_loss_monitor, valid_loss_monitor, valid_fcst_monitor. rewrite !map_length.
  assert (FM : forall r' : list (list (log Forecast) * option Evaluation), (forall x, In x r' -> List.length (fst x) = size) ->
    List.length (flat_map (fun x => map (fun l => (l_epoch l, l_fcst l)) (fst x)) r') = List.length r' * size).
  { induction r' as [|x r' IH]; intro H; [reflexivity|]. cbn [flat_map]. rewrite app_length, map_length, IH by (intros; apply H; right; assumption).
    rewrite (H x) by (left; reflexivity). cbn. lia. }
  assert (SZ : forall x, In x r -> List.length (fst x) = size).
  { intros [ls ev] I. apply In_nth_error in I as [e I]. exact (proj1 (P e ls ev I)). }
  split; [exact L|]. split; [exact L|]. split; [intro; rewrite map_length; exact L|]. split; [rewrite FM by exact SZ; rewrite L; reflexivity|].
  split; [reflexivity|]. split.
  - assert (Q : forall (r' : list (list (log Forecast) * option Evaluation)) e0, (forall x, In x r' -> List.length (fst x) = size) ->
      (forall e ls ev, nth_error r' e = Some (ls, ev) -> forall l, In l ls -> l_epoch l = e0 + e) ->
      forall i e f, nth_error (flat_map (fun x => map (fun l => (l_epoch l, l_fcst l)) (fst x)) r') i = Some (e, f) -> e = e0 + i / size).
    { clear - S1. induction r' as [|x r' IH]; intros e0 H HE i e f N; [destruct i; discriminate N|]. cbn [flat_map] in N.
      assert (LX := H x (or_introl eq_refl)). destruct (Nat.lt_ge_cases i size) as [LT|GE].
      - rewrite nth_error_app1 in N by (rewrite map_length, LX; exact LT). rewrite nth_error_map in N.
        destruct (nth_error (fst x) i) as [l|] eqn:NL; [|discriminate]. injection N as <- <-. rewrite Nat.div_small by exact LT.
        destruct x as [ls ev]. apply (HE 0 ls ev eq_refl). exact (nth_error_In _ _ NL).
      - rewrite nth_error_app2 in N by (rewrite map_length, LX; exact GE). rewrite map_length, LX in N.
        rewrite (IH (S e0) (fun y I => H y (or_intror I)) (fun e' ls ev A l B => eq_trans (HE (S e') ls ev A l B) (eq_sym (Nat.add_succ_comm e0 e'))) _ _ _ N).
        replace i with (i - size + 1 * size) at 2 by lia. rewrite Nat.div_add by lia. lia. }
    intros i e f N. apply (Q r 0 SZ) in N; [exact N|]. intros e' ls ev H l I. destruct (P e' ls ev H) as (_ & _ & lr & bs & _ & _ & F). exact (proj1 (F l I)).
  - intros e ls ev H. rewrite !nth_error_map, H. cbn [option_map fst]. split; [|split].
    + eexists. split; [reflexivity|]. assert (LS := proj1 (P e ls ev H)). split; [destruct ls; cbn in *; [lia | discriminate]|].
      rewrite map_length, LS, Qmult_comm. apply Qmult_div_r. unfold Qeq; cbn; lia.
    + eexists. split; [reflexivity|]. destruct (average (flat_map l_train ls)) as [m|] eqn:A; [apply average_mean, A | apply average_none, A].
    + intro metric. rewrite nth_error_map, H. cbn [option_map fst]. eexists. split; [reflexivity|]. cbv zeta. fold (column metric (flat_map l_valid ls)).
      destruct (average (column metric (flat_map l_valid ls))) as [m|] eqn:A; [apply average_mean, A | apply average_none, A].
Qed.

(** A step records what a pass over a batch gave; its loss is that of the quantiles, averaged. *)
Lemma steps_from n nq e lr bs : 1 <= nq -> forall op ld (s s' : st Weights Rng) ld' ls, steps n nq e lr bs op ld s = (s', Some (ld', ls)) ->
  Forall (fun l => exists w b g g' losses grad, pass w (l_training l) b g = (g', Some (losses, grad, l_train l, l_valid l, l_fcst l))
    /\ (l_loss l * inject_Z (Z.of_nat nq) == fold_right Qplus 0 losses)%Q) ls.
Proof.
  intro NQ. induction n as [|n IH]; intros op ld s s' ld' ls E; cbn [GmTrainModel.steps] in E; [injection E as <- <- <-; constructor|].
  unfold one_step in E. destruct (take ld bs (rng s)) as [g [[b ld1]|]]; [|discriminate].
  destruct (pass (weights s) (training s) b g) as [g1 [[[[[losses grad] tr] va] fc]|]] eqn:P; [|discriminate].
  destruct (update lr op (weights s) grad) as [op1 w].
  destruct (GmTrainModel.steps take pass update n nq e lr bs op1 ld1 {| weights := w; training := training s; rng := g1 |}) as [s2 [[ld2 ls2]|]] eqn:R; [|discriminate].
  injection E as <- <- <-. constructor; [|exact (IH _ _ _ _ _ _ R)]. cbn [l_training l_train l_valid l_fcst l_loss].
  exists (weights s), b, g, g1, losses, grad. split; [exact P|]. rewrite Qmult_comm. unfold total. apply Qmult_div_r. unfold Qeq; cbn; lia.
Qed.
Theorem C314_recorded : forall n size nq rates sizes test net g s r, 1 <= nq -> train n size nq rates sizes test net g = (s, Some r) ->
  forall ls ev l, In (ls, ev) r -> In l ls ->
  exists w b g0 g1 losses grad, pass w (l_training l) b g0 = (g1, Some (losses, grad, l_train l, l_valid l, l_fcst l))
  /\ (l_loss l * inject_Z (Z.of_nat nq) == fold_right Qplus 0 losses)%Q.
Proof.
  intros n size nq rates sizes test net g s r NQ E. unfold GmTrainModel.train in E.
  destruct (match net with Some w => (w, g) | None => init g end) as [w g0].
  destruct (get 0 rates) as [lr|]; [|discriminate]. destruct (get 0 sizes) as [bs|]; [|discriminate].
  set (s0 := {| weights := w; training := true; rng := g0 |}) in E. clearbody s0. revert E. generalize new_loader.
  assert (K : forall n e lr bs ld (a b : st Weights Rng) r, epochs n e size nq rates sizes test lr bs ld a = (b, Some r) ->
    forall ls ev l, In (ls, ev) r -> In l ls ->
    exists w b g0 g1 losses grad, pass w (l_training l) b g0 = (g1, Some (losses, grad, l_train l, l_valid l, l_fcst l))
    /\ (l_loss l * inject_Z (Z.of_nat nq) == fold_right Qplus 0 losses)%Q).
  { clear n lr bs s r. induction n as [|n IH]; intros e lr bs ld a b r E ls ev l I J; cbn [GmTrainModel.epochs] in E; [injection E as <- <-; destruct I|].
    cbv zeta in E. match type of E with context [GmTrainModel.steps ?a ?b ?c ?d ?f ?g ?h ?i ?j ?k ?l] => destruct (GmTrainModel.steps a b c d f g h i j k l) as [s1 [[ld1 ls1]|]] eqn:R; [|discriminate] end.
    apply steps_from in R; [|exact NQ]. rewrite Forall_forall in R. destruct test.
    - destruct (assess (weights s1) (rng s1)) as [g1 [ev1|]]; [|discriminate].
      match type of E with context [GmTrainModel.epochs ?a ?b ?c ?d ?f n ?g ?h ?i ?j ?k ?l ?m ?o ?p ?q] => destruct (GmTrainModel.epochs a b c d f n g h i j k l m o p q) as [s2 [r2|]] eqn:R2; [|discriminate] end.
      injection E as <- <-. destruct I as [I|I]; [injection I as <- <-; exact (R l J) | exact (IH _ _ _ _ _ _ _ R2 _ _ _ I J)].
    - match type of E with context [GmTrainModel.epochs ?a ?b ?c ?d ?f n ?g ?h ?i ?j ?k ?l ?m ?o ?p ?q] => destruct (GmTrainModel.epochs a b c d f n g h i j k l m o p q) as [s2 [r2|]] eqn:R2; [|discriminate] end.
      injection E as <- <-. destruct I as [I|I]; [injection I as <- <-; exact (R l J) | exact (IH _ _ _ _ _ _ _ R2 _ _ _ I J)]. }
  intros ld E. exact (K _ _ _ _ _ _ _ _ E).
Qed.
(** The first step: the batch is asked for with the first batch size, the network — the given one, or else a new one — passes over
    it in its training mode, and a new optimizer with the first learning rate moves its weights along the gradient. *)
Theorem C314_first : forall nq rates sizes net g lr bs w g0 g1 b ld g2 losses grad tr va fc,
  get 0 rates = Some lr -> get 0 sizes = Some bs -> (w, g0) = match net with Some w => (w, g) | None => init g end ->
  take new_loader bs g0 = (g1, Some (b, ld)) -> pass w true b g1 = (g2, Some (losses, grad, tr, va, fc)) ->
  let s := fst (train 1 1 nq rates sizes false net g) in
  weights s = snd (update lr new_optimizer w grad) /\ rng s = g2.
Proof.
  intros nq rates sizes net g lr bs w g0 g1 b ld g2 losses grad tr va fc R Z W T P. cbv zeta. unfold GmTrainModel.train. rewrite <- W, R, Z.
  cbn [GmTrainModel.epochs GmTrainModel.steps]. cbn [Z.of_nat]. rewrite R, Z. unfold one_step. cbn [rng weights training]. rewrite T, P.
  destruct (update lr new_optimizer w grad) as [op w']. cbn. split; reflexivity.
Qed.

(** Evaluating series after each epoch does not change what is learnt, when it draws no random numbers, does not fail and the
    network does the same in its two modes. *)
Lemma steps_mode n nq e lr bs : (forall w b g, pass w true b g = pass w false b g) -> forall op ld (s s2 : st Weights Rng),
  weights s = weights s2 -> rng s = rng s2 ->
  let a := steps n nq e lr bs op ld s in let b := steps n nq e lr bs op ld s2 in
  weights (fst a) = weights (fst b) /\ rng (fst a) = rng (fst b)
  /\ match snd a, snd b with
     | Some (la, xs), Some (lb, ys) => la = lb /\ map l_loss xs = map l_loss ys /\ map l_train xs = map l_train ys /\ map l_valid xs = map l_valid ys
     | None, None => True | _, _ => False end.
Proof.
  intro PM. assert (PM' : forall w m1 m2 b g, pass w m1 b g = pass w m2 b g).
  { intros w [] [] b g; rewrite ?PM; reflexivity. }
  induction n as [|n IH]; intros op ld s s2 W G; cbn [GmTrainModel.steps]; cbv zeta.
  - cbn. repeat split; assumption.
  - unfold one_step. rewrite <- W, <- G. destruct (take ld bs (rng s)) as [g [[b ld1]|]]; [|cbn; auto].
    rewrite (PM' (weights s) (training s2) (training s)).
    destruct (pass (weights s) (training s) b g) as [g1 [[[[[losses grad] tr] va] fc]|]]; [|cbn; auto].
    destruct (update lr op (weights s) grad) as [op1 w].
    specialize (IH op1 ld1 {| weights := w; training := training s; rng := g1 |} {| weights := w; training := training s2; rng := g1 |} eq_refl eq_refl).
    cbv zeta in IH.
    destruct (GmTrainModel.steps take pass update n nq e lr bs op1 ld1 {| weights := w; training := training s; rng := g1 |}) as [sa [[la xs]|]];
    destruct (GmTrainModel.steps take pass update n nq e lr bs op1 ld1 {| weights := w; training := training s2; rng := g1 |}) as [sb [[lb ys]|]];
      cbn [fst snd] in *; try tauto.
    destruct IH as (A & B & -> & D & E & F). repeat split; try assumption; cbn [map l_loss l_train l_valid]; congruence.
Qed.
Theorem C314_test_partial : forall n size nq rates sizes net g s r,
  (forall w b g, pass w true b g = pass w false b g) -> (forall w g, exists ev, assess w g = (g, Some ev)) ->
  train n size nq rates sizes false net g = (s, Some r) ->
  exists s' r', train n size nq rates sizes true net g = (s', Some r')
  /\ weights s' = weights s /\ rng s' = rng s
  /\ train_loss_val size r' = train_loss_val size r /\ train_loss_monitor r' = train_loss_monitor r
  /\ forall metric, valid_loss_monitor metric r' = valid_loss_monitor metric r.
Proof.
  intros n size nq rates sizes net g s r PM AS E. unfold GmTrainModel.train in *.
  destruct (match net with Some w => (w, g) | None => init g end) as [w g0].
  destruct (get 0 rates) as [lr|]; [|discriminate]. destruct (get 0 sizes) as [bs|]; [|discriminate].
  assert (K : forall n e lr bs ld (a b sa : st Weights Rng) ra, weights a = weights b -> rng a = rng b ->
    epochs n e size nq rates sizes false lr bs ld a = (sa, Some ra) ->
    exists sb rb, epochs n e size nq rates sizes true lr bs ld b = (sb, Some rb) /\ weights sb = weights sa /\ rng sb = rng sa
    /\ map (fun x => (map l_loss (fst x), map l_train (fst x), map l_valid (fst x))) rb
       = map (fun x => (map l_loss (fst x), map l_train (fst x), map l_valid (fst x))) ra).
  { clear E. intro n0. induction n0 as [|n0 IH]; intros e lr0 bs0 ld a b sa ra W G E; cbn [GmTrainModel.epochs] in *.
    - injection E as <- <-. exists b, []. auto.
    - cbv zeta in *.
      set (lr1 := match get (Z.of_nat e) rates with Some v => v | None => lr0 end) in *.
      set (bs1 := match get (Z.of_nat e) sizes with Some v => v | None => bs0 end) in *.
      destruct (steps_mode size nq e lr1 bs1 PM new_optimizer ld a b W G) as (A & B & C).
      destruct (GmTrainModel.steps take pass update size nq e lr1 bs1 new_optimizer ld a) as [s1 [[l1 x1]|]]; [|discriminate].
      destruct (GmTrainModel.steps take pass update size nq e lr1 bs1 new_optimizer ld b) as [s2 [[l2 x2]|]]; [|contradiction C].
      cbn [fst snd] in A, B, C. destruct C as (<- & C1 & C2 & C3).
      destruct (AS (weights s2) (rng s2)) as [ev ->].
      match type of E with context [GmTrainModel.epochs ?a ?b ?c ?d ?f n0 ?g ?h ?i ?j ?k ?l ?m ?o ?p ?q] => destruct (GmTrainModel.epochs a b c d f n0 g h i j k l m o p q) as [sc [rc|]] eqn:R2; [|discriminate] end.
      injection E as <- <-.
      destruct (IH _ _ _ _ _ {| weights := weights s2; training := false; rng := rng s2 |} _ _ A B R2) as (sb & rb & -> & X & Y & Z).
      exists sb, ((x2, Some ev) :: rb). split; [reflexivity|]. split; [exact X|]. split; [exact Y|]. cbn [map fst]. rewrite Z, C1, C2, C3. reflexivity. }
  destruct (K _ _ _ _ _ _ {| weights := w; training := true; rng := g0 |} _ _ eq_refl eq_refl E) as (sb & rb & E2 & W & G & M).
  exists sb, rb. split; [exact E2|]. split; [exact W|]. split; [exact G|].
  assert (V : forall (T : Type) (f : list Q * list (list Q) * list (list row) -> T),
    map (fun x => f (map l_loss (fst x), map l_train (fst x), map l_valid (fst x))) rb = map (fun x => f (map l_loss (fst x), map l_train (fst x), map l_valid (fst x))) r).
  { intros T f. apply (f_equal (map f)) in M. rewrite !map_map in M. exact M. }
  split; [|split; [|intro metric]].
  - exact (V _ (fun t => (total (fst (fst t)) / inject_Z (Z.of_nat size))%Q)).
  - pose proof (V _ (fun t => average (List.concat (snd (fst t))))) as H. cbn [fst snd] in H. unfold train_loss_monitor.
    etransitivity; [|etransitivity; [exact H|]]; apply map_ext; intro; rewrite flat_map_concat_map; reflexivity.
  - pose proof (V _ (fun t => average (column metric (List.concat (snd t))))) as H. cbn [fst snd] in H. unfold valid_loss_monitor.
    etransitivity; [|etransitivity; [exact H|]]; apply map_ext; intro; rewrite flat_map_concat_map; reflexivity.
Qed.

(** The optimizer is made anew in every epoch: with constant schedules, and batches that do not depend on the earlier ones,
    training again continues as a longer training would. *)
Theorem C314_resume_partial : forall n m size nq lr bs net g s r s2 r2,
  (forall ld ld' g, fst (take ld bs g) = fst (take ld' bs g) /\ option_map fst (snd (take ld bs g)) = option_map fst (snd (take ld' bs g))) ->
  train n size nq [(0%Z, lr)] [(0%Z, bs)] false net g = (s, Some r) ->
  train m size nq [(0%Z, lr)] [(0%Z, bs)] false (Some (weights s)) (rng s) = (s2, Some r2) ->
  exists s3 r3, train (n + m) size nq [(0%Z, lr)] [(0%Z, bs)] false net g = (s3, Some r3) /\ weights s3 = weights s2 /\ rng s3 = rng s2
  /\ train_loss_val size r3 = train_loss_val size r ++ train_loss_val size r2.
Proof.
  intros n m size nq lr bs net g s r s2 r2 TK E1 E2. unfold GmTrainModel.train in *.
  destruct (match net with Some w => (w, g) | None => init g end) as [w g0]. cbn [get Z.eqb] in *.
  assert (GE : forall e (v : num), match get (Z.of_nat e) [(0%Z, v)] with Some v' => v' | None => v end = v).
  { intros e v. cbn [get]. destruct (0 =? Z.of_nat e)%Z; reflexivity. }
  (* the loader does not matter *)
  assert (SL : forall k e e' op ld ld' (x : st Weights Rng), 
    fst (steps k nq e lr bs op ld x) = fst (steps k nq e' lr bs op ld' x)
    /\ option_map (fun p => map l_loss (snd p)) (snd (steps k nq e lr bs op ld x)) = option_map (fun p => map l_loss (snd p)) (snd (steps k nq e' lr bs op ld' x))).
  { induction k as [|k IH]; intros e e' op ld ld' x; cbn [GmTrainModel.steps]; [split; reflexivity|].
    unfold one_step. destruct (TK ld ld' (rng x)) as [T1 T2]. destruct (take ld bs (rng x)) as [g1 o1]. destruct (take ld' bs (rng x)) as [g2 o2].
    cbn [fst snd] in T1, T2. subst g2. destruct o1 as [[b l1]|]; destruct o2 as [[b2 l2]|]; try discriminate T2; [|split; reflexivity].
    cbn in T2. injection T2 as <-. destruct (pass (weights x) (training x) b g1) as [g3 [[[[[losses grad] tr] va] fc]|]]; [|split; reflexivity].
    destruct (update lr op (weights x) grad) as [op1 w1].
    destruct (IH e e' op1 l1 l2 {| weights := w1; training := training x; rng := g3 |}) as [A B].
    destruct (GmTrainModel.steps take pass update k nq e lr bs op1 l1 {| weights := w1; training := training x; rng := g3 |}) as [sa [[? ?]|]];
    destruct (GmTrainModel.steps take pass update k nq e' lr bs op1 l2 {| weights := w1; training := training x; rng := g3 |}) as [sb [[? ?]|]];
      cbn [fst snd option_map] in *; try discriminate B; split; try assumption. cbn [map l_loss]. congruence. }
  assert (EL : forall k e e' ld ld' (x : st Weights Rng),
    fst (epochs k e size nq [(0%Z, lr)] [(0%Z, bs)] false lr bs ld x) = fst (epochs k e' size nq [(0%Z, lr)] [(0%Z, bs)] false lr bs ld' x)
    /\ option_map (train_loss_val size) (snd (epochs k e size nq [(0%Z, lr)] [(0%Z, bs)] false lr bs ld x))
       = option_map (train_loss_val size) (snd (epochs k e' size nq [(0%Z, lr)] [(0%Z, bs)] false lr bs ld' x))).
  { induction k as [|k IH]; intros e e' ld ld' x; cbn [GmTrainModel.epochs]; [split; reflexivity|]. cbv zeta. rewrite !GE.
    destruct (SL size e e' new_optimizer ld ld' x) as [A B].
    destruct (GmTrainModel.steps take pass update size nq e lr bs new_optimizer ld x) as [sa [[la xa]|]];
    destruct (GmTrainModel.steps take pass update size nq e' lr bs new_optimizer ld' x) as [sb [[lb xb]|]];
      cbn [fst snd option_map] in A, B; try discriminate B; [|subst; split; reflexivity]. subst sb. injection B as B.
    destruct (IH (S e) (S e') la lb sa) as [C D].
    destruct (GmTrainModel.epochs new_optimizer take pass update assess k (S e) size nq [(0%Z, lr)] [(0%Z, bs)] false lr bs la sa) as [sc [rc|]];
    destruct (GmTrainModel.epochs new_optimizer take pass update assess k (S e') size nq [(0%Z, lr)] [(0%Z, bs)] false lr bs lb sa) as [sd [rd|]];
      cbn [fst snd option_map] in C, D; try discriminate D; [|subst; split; reflexivity]. cbn [fst snd option_map train_loss_val map]. split; [exact C|].
    injection D as D. unfold train_loss_val in D. rewrite B, D. reflexivity. }
  assert (CAT : forall k e ld (x : st Weights Rng) sx rx sy ry, training x = true ->
    epochs k e size nq [(0%Z, lr)] [(0%Z, bs)] false lr bs ld x = (sx, Some rx) ->
    epochs m 0 size nq [(0%Z, lr)] [(0%Z, bs)] false lr bs new_loader {| weights := weights sx; training := true; rng := rng sx |} = (sy, Some ry) ->
    exists s3 r3, epochs (k + m) e size nq [(0%Z, lr)] [(0%Z, bs)] false lr bs ld x = (s3, Some r3) /\ weights s3 = weights sy /\ rng s3 = rng sy
    /\ train_loss_val size r3 = train_loss_val size rx ++ train_loss_val size ry).
  { induction k as [|k IH]; intros e ld x sx rx sy ry T X Y.
    - cbn [GmTrainModel.epochs] in X. injection X as <- <-. destruct x as [wx tx gx]. cbn [training weights rng] in *. subst tx.
      destruct (EL m e 0 ld new_loader {| weights := wx; training := true; rng := gx |}) as [A B]. rewrite Y in A, B. cbn [fst snd option_map] in A, B.
      cbn [Nat.add]. destruct (GmTrainModel.epochs new_optimizer take pass update assess m e size nq [(0%Z, lr)] [(0%Z, bs)] false lr bs ld {| weights := wx; training := true; rng := gx |}) as [s3 [r3|]]; [|discriminate B].
      cbn [fst snd option_map] in A, B. subst s3. injection B as B. exists sy, r3. cbn [train_loss_val map app]. auto.
    - cbn [GmTrainModel.epochs Nat.add] in *. cbv zeta in *. rewrite !GE in *.
      destruct (GmTrainModel.steps take pass update size nq e lr bs new_optimizer ld x) as [sa [[la xa]|]] eqn:R; [|discriminate].
      assert (T' : training sa = true) by (rewrite (proj1 (proj2 (steps_spec _ _ _ _ _ _ _ _ _ _ _ R))); exact T).
      destruct (GmTrainModel.epochs new_optimizer take pass update assess k (S e) size nq [(0%Z, lr)] [(0%Z, bs)] false lr bs la sa) as [sc [rc|]] eqn:R2; [|discriminate].
      injection X as <- <-. destruct (IH _ _ _ _ _ _ _ T' R2 Y) as (s3 & r3 & -> & A & B & C).
      exists s3, ((xa, None) :: r3). split; [reflexivity|]. split; [exact A|]. split; [exact B|]. cbn [train_loss_val map app fst].
      unfold train_loss_val in C. rewrite C. reflexivity. }
  exact (CAT n 0 new_loader {| weights := w; training := true; rng := g0 |} s r s2 r2 eq_refl E1 E2).
Qed.
End S.

(** Parameters that the constructor accepts give a learning rate and a batch size, both positive, to every epoch. *)
Lemma force_exists d e : NoDup (map fst d) -> In 0%Z (map fst d) -> exists v, in_force d e v /\ In v (map snd d).
Proof.
  intros N I. assert (H : forall d' : list (Z * num), (exists k v, In (k, v) d' /\ (k <= Z.of_nat e)%Z) ->
    exists k v, In (k, v) d' /\ (k <= Z.of_nat e)%Z /\ forall k' v', In (k', v') d' -> (k' <= Z.of_nat e)%Z -> (k' <= k)%Z).
  { clear. induction d' as [|[k0 v0] d' IH]; intros (k & v & J & L); [destruct J|].
    destruct (Z.leb_spec k0 (Z.of_nat e)) as [L0|G0].
    - assert (D : (exists k1 v1, In (k1, v1) d' /\ (k1 <= Z.of_nat e)%Z) \/ ~ (exists k1 v1, In (k1, v1) d' /\ (k1 <= Z.of_nat e)%Z)).
      { clear. induction d' as [|[a b] d' IH]; [right; intros (? & ? & [] & _)|]. destruct IH as [(k1 & v1 & I1 & L1)|N1]; [left; exists k1, v1; split; [right|]; assumption|].
        destruct (Z.leb_spec a (Z.of_nat e)) as [L|G]; [left; exists a, b; split; [left; reflexivity | exact L]|].
        right. intros (k1 & v1 & [X|X] & L1); [injection X as -> ->; lia|]. apply N1. eauto. }
      destruct D as [D|D].
      + destruct (IH D) as (k1 & v1 & I1 & L1 & M1). destruct (Z.leb_spec k0 k1) as [A|A].
        * exists k1, v1. split; [right; exact I1|]. split; [exact L1|]. intros k' v' [X|X] L'; [injection X as -> ->; lia | exact (M1 k' v' X L')].
        * exists k0, v0. split; [left; reflexivity|]. split; [exact L0|]. intros k' v' [X|X] L'; [injection X as -> ->; lia | specialize (M1 k' v' X L'); lia].
      + exists k0, v0. split; [left; reflexivity|]. split; [exact L0|]. intros k' v' [X|X] L'; [injection X as -> ->; lia|]. exfalso. apply D. eauto.
    - destruct J as [X|J]; [injection X as -> ->; lia|]. destruct (IH (ex_intro _ k (ex_intro _ v (conj J L)))) as (k1 & v1 & I1 & L1 & M1).
      exists k1, v1. split; [right; exact I1|]. split; [exact L1|]. intros k' v' [X|X] L'; [injection X as -> ->; lia | exact (M1 k' v' X L')]. }
  apply in_map_iff in I as ([z v] & E & I). cbn in E. subst z.
  destruct (H d) as (k1 & v1 & I1 & L1 & M1); [exists 0%Z, v; split; [exact I | lia]|]. exists v1. split; [exists k1; auto|]. exact (in_map snd _ _ I1).
Qed.
Lemma union_ok ty u d : (match u with One _ => True | Schedule l => NoDup (map fst l) end) -> valid_union ty u = Some d ->
  NoDup (map fst d) /\ In 0%Z (map fst d) /\ forall v, In v (map snd d) -> ty v = true /\ positive_num v = true.
Proof.
  intros N E. destruct u as [v|l]; cbn [valid_union] in E.
  - destruct (ty v && positive_num v)%bool eqn:B; [|discriminate]. injection E as <-. apply andb_true_iff in B. cbn. split; [constructor; [intros []|constructor]|].
    split; [left; reflexivity|]. intros v' [<-|[]]. exact B.
  - destruct (existsb (fun kv => (fst kv =? 0)%Z) l) eqn:X; [|discriminate]. cbn [andb] in E.
    destruct (forallb (fun kv => ty (snd kv) && positive_num (snd kv))%bool l) eqn:F; [|discriminate]. injection E as <-. split; [exact N|].
    apply existsb_exists in X as ([k v] & I & K). cbn in K. apply Z.eqb_eq in K. subst k. split; [exact (in_map fst _ _ I)|].
    intros w J. apply in_map_iff in J as ([k' w'] & <- & J). rewrite forallb_forall in F. specialize (F _ J). apply andb_true_iff in F. exact F.
Qed.
Theorem C314_valid : forall a p e,
  (match a_batch_size a with Some (Schedule l) => NoDup (map fst l) | _ => True end) ->
  (match a_learning_rate a with Some (Schedule l) => NoDup (map fst l) | _ => True end) -> make a = Some p ->
  (exists b, in_force (batch_size p) e (PInt b) /\ (0 < b)%Z) /\ (exists q, in_force (learning_rate p) e (PFloat q) /\ (0 < q)%Q).
Proof.
  intros a p e NB NR M. unfold make in M.
  repeat match type of M with (if ?x then _ else _) = _ => destruct x; try discriminate M end.
  destruct (valid_union is_int _) as [bs|] eqn:B in M; [|discriminate]. destruct (valid_union is_float _) as [lr|] eqn:R in M; [|discriminate].
  destruct (valid_optimizer _); [|discriminate]. destruct (valid_feature _); [|discriminate]. cbv zeta in M.
  match type of M with (if ?x then _ else _) = _ => destruct x; [|discriminate M] end. injection M as <-. cbn [batch_size learning_rate].
  apply union_ok in B; [|destruct (a_batch_size a) as [[|]|]; cbn; try exact NB; try exact I; repeat (constructor; [cbn; lia|]); constructor].
  apply union_ok in R; [|destruct (a_learning_rate a) as [[|]|]; cbn; try exact NR; try exact I; repeat (constructor; [cbn; lia|]); constructor].
  destruct B as (B1 & B2 & B3). destruct R as (R1 & R2 & R3). split.
  - destruct (force_exists bs e B1 B2) as (v & F & J). destruct (B3 v J) as [T P]. destruct v as [b|q]; [|discriminate]. exists b. split; [exact F|].
    cbn in P. apply Z.ltb_lt, P.
  - destruct (force_exists lr e R1 R2) as (v & F & J). destruct (R3 v J) as [T P]. destruct v as [b|q]; [discriminate|]. exists q. split; [exact F|].
    cbn in P. apply negb_true_iff in P. apply Qnot_le_lt. intro H. apply Qle_bool_iff in H. congruence.
Qed.

(** A network whose weights are a number, trained with one random number for a batch; an evaluation that draws one too. *)
Definition toy_take (ld : unit) (bs : num) (g : list Z) : list Z * option (Z * unit) :=
  match g with [] => ([], None) | x :: g => (g, Some (x, tt)) end.
Definition toy_pass (w : Z) (m : bool) (b : Z) (g : list Z) : list Z * option (list Q * Z * list Q * list row * unit) :=
  (g, Some ([inject_Z (w - b)], (b - w)%Z, [inject_Z w], [[("smape"%string, Some (inject_Z b))]], tt)).
Definition toy_update (lr : num) (op : unit) (w grad : Z) : unit * Z := (tt, (w + grad)%Z).
Definition toy_assess (w : Z) (g : list Z) : list Z * option Z := (tl g, Some w).
Definition toy (assess : Z -> list Z -> list Z * option Z) :=
  train (fun g : list Z => (0%Z, g)) tt tt toy_take toy_pass toy_update assess.

(** Evaluating test series changes what is learnt, when it draws from the generator that also makes the batches, as the code
    does: with the same seed the weights are others. *)
Theorem C314_test_refuted : exists g s1 r1 s2 r2,
  toy toy_assess 2 1 1 [(0%Z, PFloat 1)] [(0%Z, PInt 1)] false None g = (s1, Some r1)
  /\ toy toy_assess 2 1 1 [(0%Z, PFloat 1)] [(0%Z, PInt 1)] true None g = (s2, Some r2) /\ weights s1 <> weights s2.
Proof.
  exists [3; 4; 5; 6]%Z. do 4 eexists. split; [vm_compute; reflexivity|]. split; [vm_compute; reflexivity|]. cbn. discriminate.
Qed.
(** Training a model that has been trained starts from its weights, not from new ones. *)
Theorem C314_again_refuted : exists g s1 r1 s2 r2 s3 r3,
  toy toy_assess 1 1 1 [(0%Z, PFloat 1)] [(0%Z, PInt 1)] false None g = (s1, Some r1)
  /\ toy toy_assess 1 1 1 [(0%Z, PFloat 1)] [(0%Z, PInt 1)] false (Some (weights s1)) (rng s1) = (s2, Some r2)
  /\ toy toy_assess 1 1 1 [(0%Z, PFloat 1)] [(0%Z, PInt 1)] false None (rng s1) = (s3, Some r3)
  /\ train_loss_val 1 r2 <> train_loss_val 1 r3.
Proof.
  exists [3; 5; 6]%Z. do 6 eexists. split; [vm_compute; reflexivity|]. split; [vm_compute; reflexivity|]. split; [vm_compute; reflexivity|]. vm_compute. discriminate.
Qed.
(** An evaluation that raises (e.g. because the series to compare with were not given) does so after an epoch: the weights have
    changed. *)
Theorem C314_failed_refuted : forall w x g, x <> w ->
  exists s, toy (fun _ g => (g, None)) 5 1 1 [(0%Z, PFloat 1)] [(0%Z, PInt 1)] true (Some w) (x :: g) = (s, None) /\ weights s = x.
Proof.
  intros w x g N. eexists. split; [reflexivity|]. cbn. lia.
Qed.
Example C314_case :
  (exists s r, toy toy_assess 3 2 1 [(0%Z, PFloat (1 # 10)); (2%Z, PFloat (1 # 20))] [(0%Z, PInt 2); (1%Z, PInt 4)] false None [3; 4; 5; 6; 7; 8]%Z = (s, Some r)
    /\ map (fun e => map (fun l => (l_epoch l, l_rate l, l_batch_size l)) (fst e)) r =
       [[(0, PFloat (1 # 10), PInt 2); (0, PFloat (1 # 10), PInt 2)]; [(1, PFloat (1 # 10), PInt 4); (1, PFloat (1 # 10), PInt 4)];
        [(2, PFloat (1 # 20), PInt 4); (2, PFloat (1 # 20), PInt 4)]]
    /\ weights s = 8%Z /\ map Qred (train_loss_val 2 r) = [(-2) # 1; (-1) # 1; (-1) # 1])
  /\ (forall ld ld' g, fst (toy_take ld (PInt 1) g) = fst (toy_take ld' (PInt 1) g)
      /\ option_map fst (snd (toy_take ld (PInt 1) g)) = option_map fst (snd (toy_take ld' (PInt 1) g)))
  /\ (forall w b g, toy_pass w true b g = toy_pass w false b g).
Proof.
  split; [|split; [intros [] [] g; auto | reflexivity]]. do 2 eexists. split; [vm_compute; reflexivity|]. split; [reflexivity|]. split; reflexivity.
Qed.

Print Assumptions C314_schedule.
Print Assumptions C314_mode_partial.
Print Assumptions C314_mode_refuted.
Print Assumptions C314_monitors.
Print Assumptions C314_recorded.
Print Assumptions C314_first.
Print Assumptions C314_test_partial.
Print Assumptions C314_resume_partial.
Print Assumptions C314_valid.
Print Assumptions C314_test_refuted.
Print Assumptions C314_again_refuted.
Print Assumptions C314_failed_refuted.
