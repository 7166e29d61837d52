(** Theorems about predictions of the autoregressive forecaster with new data (C299). *)
From Coq Require Import List ZArith Bool Lia.
From Verif Require Import MlarGridModel MlarGridProps MlarNewModel.
Import ListNotations.
Open Scope Z_scope.

(** ** Specification *)
(** a series has the target v, the label c, at time t *)
Definition target {A} (f : frame A) (t : Z) (v : A) : Prop := exists c, In (t, (Some v, c)) f.
Definition label {A} (f : frame A) (t c : Z) : Prop := exists v, In (t, (v, Some c)) f.
(** no time twice *)
Definition is_series {A} (f : frame A) : Prop := NoDup (map fst f).
(** in the order of time *)
Fixpoint ordered {A} (f : frame A) : Prop :=
  match f with [] => True | r :: f => (forall q, In q f -> fst r < fst q) /\ ordered f end.
(** the forecast starts from o: the last time with a target, or just before the first row if there is no target at all *)
Definition starts_from {A} (f : frame A) (o : Z) : Prop :=
  ((exists v, target f o v) /\ forall t v, target f t v -> t <= o) \/
  ((forall t v, ~ target f t v) /\ In (o + 1) (map fst f) /\ forall t, In t (map fst f) -> o + 1 <= t).

(** ** Lemmas *)
Lemma ordered_series {A} (f : frame A) : ordered f -> is_series f.
Proof.
  induction f as [|r f IH]; intros O; [constructor|]. destruct O as [O1 O2]. constructor; [|exact (IH O2)]. intros I. apply in_map_iff in I as (q & E & I). specialize (O1 q I). lia.
Qed.
Lemma find_in {B} (l : list (Z * B)) t b : NoDup (map fst l) -> (find_row l t = Some b <-> In (t, b) l).
Proof.
  induction l as [|[u x] l IH]; intros N; cbn; [split; [discriminate|intros []]|]. inversion N as [|? ? NI N']; subst. cbn [fst] in *. destruct (Z.eqb_spec u t) as [->|D].
  - split; [intros E; left; congruence|]. intros [E|I]; [congruence|]. exfalso. apply NI. apply in_map_iff. exists (t, b). auto.
  - rewrite (IH N'). split; [intros I; right; exact I|]. intros [E|I]; [exfalso; apply D; congruence|exact I].
Qed.
Lemma find_none {B} (l : list (Z * B)) t : find_row l t = None <-> ~ In t (map fst l).
Proof.
  induction l as [|[u x] l IH]; cbn; [tauto|]. destruct (Z.eqb_spec u t) as [->|D]; [split; [discriminate|intros N; exfalso; apply N; left; reflexivity]|]. rewrite IH. split; [intros N [E|I]; [exact (D E)|exact (N I)]|intros N I; apply N; right; exact I].
Qed.
Lemma at_target {A} (f : frame A) t v : is_series f -> (fst (at_time f t) = Some v <-> target f t v).
Proof.
  intros N. unfold at_time, target. destruct (find_row f t) as [[x c]|] eqn:E; cbn [fst].
  - apply (find_in f t (x, c) N) in E. split; [intros ->; exists c; exact E|]. intros (d & I). apply (find_in f t _ N) in I. apply (find_in f t _ N) in E. congruence.
  - split; [discriminate|]. intros (d & I). apply find_none in E. exfalso. apply E. apply in_map_iff. exists (t, (Some v, d)). auto.
Qed.
Lemma at_label {A} (f : frame A) t c : is_series f -> (snd (at_time f t) = Some c <-> label f t c).
Proof.
  intros N. unfold at_time, label. destruct (find_row f t) as [[x d]|] eqn:E; cbn [snd].
  - apply (find_in f t (x, d) N) in E. split; [intros ->; exists x; exact E|]. intros (y & I). apply (find_in f t _ N) in I. apply (find_in f t _ N) in E. congruence.
  - split; [discriminate|]. intros (y & I). apply find_none in E. exfalso. apply E. apply in_map_iff. exists (t, (y, Some c)). auto.
Qed.
Lemma last_valid_fold {A} (f : frame A) : forall acc, ordered f ->
  match fold_left (fun (acc : option Z) (r : Z * row A) => match fst (snd r) with Some _ => Some (fst r) | None => acc end) f acc with
  | Some o => ((exists v, target f o v) /\ forall t v, target f t v -> t <= o) \/ (acc = Some o /\ forall t v, ~ target f t v)
  | None => acc = None /\ forall t v, ~ target f t v
  end.
Proof.
  induction f as [|[u [x c]] f IH]; intros acc O; cbn [fold_left fst snd].
  - destruct acc as [o|]; [right|]; (split; [reflexivity|intros t v (d & [])]).
  - destruct O as [O1 O2]. specialize (IH (match x with Some _ => Some u | None => acc end) O2). destruct (fold_left _ f _) as [o|].
    + destruct IH as [[(v & d & I) M]|[E N]].
      * left. split; [exists v, d; right; exact I|]. intros t w (e & [E|J]); [|exact (M t w (ex_intro _ e J))]. assert (u = t) by congruence. specialize (O1 _ I). cbn [fst] in O1. lia.
      * destruct x as [y|].
        -- assert (u = o) as -> by congruence. left. split; [exists y, c; left; reflexivity|]. intros t w (e & [E'|J]); [assert (o = t) by congruence; lia|exfalso; exact (N t w (ex_intro _ e J))].
        -- right. split; [exact E|]. intros t v (e & [E'|J]); [discriminate|exact (N t v (ex_intro _ e J))].
    + destruct IH as [E N]. destruct x as [y|]; [discriminate|]. split; [exact E|]. intros t v (e & [E'|J]); [discriminate|exact (N t v (ex_intro _ e J))].
Qed.
Lemma last_valid_spec {A} (f : frame A) : ordered f ->
  match last_valid f with
  | Some o => (exists v, target f o v) /\ forall t v, target f t v -> t <= o
  | None => forall t v, ~ target f t v
  end.
Proof.
  intros O. pose proof (last_valid_fold f None O) as H. change (fold_left _ f None) with (last_valid f) in H. destruct (last_valid f) as [o|]; [destruct H as [H|[E _]]; [exact H|discriminate]|exact (proj2 H)].
Qed.
Lemma greatest_spec l m : greatest l = Some m <-> In m l /\ forall t, In t l -> t <= m.
Proof.
  destruct l as [|t l]; cbn [greatest]; [split; [discriminate|intros [[] _]]|]. pose proof (max_last t l) as [I M]. split; [intros E; assert (fold_right Z.max t l = m) as <- by congruence; split; assumption|].
  intros [J N]. f_equal. specialize (M m J). specialize (N _ I). lia.
Qed.
Lemma least_spec l m : least l = Some m <-> In m l /\ forall t, In t l -> m <= t.
Proof.
  destruct l as [|t l]; cbn [least]; [split; [discriminate|intros [[] _]]|]. pose proof (min_first t l) as [I M]. split; [intros E; assert (fold_right Z.min t l = m) as <- by congruence; split; assumption|].
  intros [J N]. f_equal. specialize (M m J). specialize (N _ I). lia.
Qed.
Lemma span_in a b t : In t (span a b) <-> a <= t <= b.
Proof.
  unfold span. rewrite in_map_iff. split.
  - intros (i & <- & I). apply in_seq in I. lia.
  - intros H. exists (Z.to_nat (t - a)). split; [lia|]. apply in_seq. lia.
Qed.
Lemma map_ordered {A} (g : Z -> row A) : forall n a k, ordered (map (fun t => (t, g t)) (map (fun i => a + Z.of_nat i) (seq k n))).
Proof.
  induction n as [|n IH]; intros a k; cbn [seq map ordered]; [exact I|]. split; [|apply IH]. intros q Hq. rewrite map_map in Hq. apply in_map_iff in Hq as (i & <- & J). apply in_seq in J. cbn [fst]. lia.
Qed.
Lemma window_shape {A} L (data : frame A) i w : in_window L data i = Some w ->
  exists o m, bounds data i = Some (o, m) /\ w = map (fun t => (t, cell data i o t)) (span (o - (Z.of_nat L - 1)) m).
Proof.
  unfold in_window. destruct (bounds data i) as [[o m]|]; [|discriminate]. intros H. exists o, m. split; [reflexivity|]. destruct (span _ m) as [|t ts] eqn:E; [discriminate|]. congruence.
Qed.
Lemma window_ordered {A} L (data : frame A) i w : in_window L data i = Some w -> ordered w.
Proof. intros H. apply window_shape in H as (o & m & _ & ->). apply map_ordered. Qed.
Lemma in_map_self {A} (g : Z -> row A) ts t r : In (t, r) (map (fun t => (t, g t)) ts) <-> In t ts /\ r = g t.
Proof. rewrite in_map_iff. split; [intros (u & E & I); assert (u = t) by congruence; subst u; split; [exact I|congruence]|intros [I ->]; exists t; auto]. Qed.
Lemma bounds_actual {A} (data new : frame A) o m : ordered new -> bounds data (Actual new) = Some (o, m) ->
  starts_from new o /\ o <= m /\ (forall t, In t (map fst new) -> t <= m) /\ (m = o \/ In m (map fst new)).
Proof.
  intros O. cbn [bounds]. destruct (has_dup (map fst new)); [discriminate|]. destruct (least (map fst new)) as [a|] eqn:EL; [|discriminate]. destruct (greatest (map fst new)) as [b|] eqn:EG; [|discriminate]. cbv zeta. intros H.
  apply least_spec in EL as [L1 L2]. apply greatest_spec in EG as [G1 G2]. pose proof (last_valid_spec new O) as V. destruct (last_valid new) as [p|].
  - assert (p = o) as -> by congruence. assert (Z.max o b = m) as <- by congruence. split; [left; exact V|]. split; [lia|]. split; [intros t I; specialize (G2 t I); lia|]. destruct (Z.max_spec o b) as [[_ ->]|[_ ->]]; [right; exact G1|left; reflexivity].
  - assert (o = a - 1) as -> by congruence. assert (Z.max (a - 1) b = m) as <- by congruence. split; [right; split; [exact V|]; replace (a - 1 + 1) with a by lia; split; [exact L1|exact L2]|]. split; [lia|]. split; [intros t I; specialize (G2 t I); lia|].
    destruct (Z.max_spec (a - 1) b) as [[_ ->]|[_ ->]]; [right; exact G1|left; reflexivity].
Qed.

(** ** Theorems *)
(** predicting with new data never fails for a series that has rows *)
Theorem C299_accepted : forall A L (data new : frame A), (1 <= L)%nat -> ordered new -> (in_window L data (Actual new) <> None <-> new <> []).
Proof.
  intros A L data new HL O. unfold in_window. cbn [bounds]. pose proof (proj2 (has_dup_spec (map fst new)) (ordered_series new O)) as D. rewrite D.
  destruct new as [|[t r] new]; [cbn; split; congruence|]. split; [discriminate|]. intros _. cbn [map fst least greatest]. cbv zeta.
  set (o := match last_valid _ with Some o => o | None => _ end). clearbody o. set (m := Z.max o _). assert (o <= m) by (unfold m; lia). clearbody m.
  assert (I : In o (span (o - (Z.of_nat L - 1)) m)) by (apply span_in; lia). destruct (span _ m); [destruct I|discriminate].
Qed.
(** the window ends with the new data; it has the new values where there are some, and before the start of the forecast the
    values known from training elsewhere *)
Theorem C299_window : forall A L (data new w : frame A), is_series data -> ordered new -> in_window L data (Actual new) = Some w ->
  exists o m, starts_from new o /\ (o <= m /\ (forall t, In t (map fst new) -> t <= m) /\ (m = o \/ In m (map fst new))) /\ ordered w /\
    (forall t, In t (map fst w) <-> o - Z.of_nat L + 1 <= t <= m) /\
    (forall t v, target w t v <-> o - Z.of_nat L + 1 <= t <= m /\ (target new t v \/ (t <= o /\ (forall u, ~ target new t u) /\ target data t v))) /\
    (forall t c, label w t c <-> o - Z.of_nat L + 1 <= t <= m /\ (label new t c \/ ((forall d, ~ label new t d) /\ label data t c))).
Proof.
  intros A L data new w ND O H. pose proof (window_ordered _ _ _ _ H) as OW. apply window_shape in H as (o & m & B & ->). apply (bounds_actual data new o m O) in B. destruct B as (SF & R). exists o, m. split; [exact SF|]. split; [exact R|]. split; [exact OW|].
  pose proof (ordered_series new O) as NN. assert (SP : forall t, In t (span (o - (Z.of_nat L - 1)) m) <-> o - Z.of_nat L + 1 <= t <= m) by (intros t; rewrite span_in; lia). split; [|split].
  - intros t. rewrite map_map. cbn [fst]. rewrite map_id. apply SP.
  - intros t v. unfold target at 1. split.
    + intros (c & I). apply in_map_self in I as [I E]. apply SP in I. split; [exact I|]. cbn [cell] in E. apply (f_equal fst) in E. cbn [fst] in E. destruct (fst (at_time new t)) as [x|] eqn:EN.
      * cbn [or_else] in E. left. apply (at_target new t v NN). congruence.
      * cbn [or_else] in E. destruct (Z.ltb_spec o t); [discriminate|]. right. split; [lia|]. split; [|apply (at_target data t v ND); congruence]. intros u U. apply (at_target new t u NN) in U. congruence.
    + intros [I V]. exists (snd (cell data (Actual new) o t)). apply in_map_self. split; [apply SP; exact I|]. apply injective_projections; [|reflexivity]. cbn [fst cell]. symmetry. destruct V as [V|(T & N & V)].
      * apply (at_target new t v NN) in V. rewrite V. reflexivity.
      * destruct (fst (at_time new t)) as [x|] eqn:EN; [exfalso; apply (N x); apply (at_target new t x NN); exact EN|]. cbn [or_else]. destruct (Z.ltb_spec o t); [lia|]. apply (at_target data t v ND). exact V.
  - intros t c. unfold label at 1. split.
    + intros (v & I). apply in_map_self in I as [I E]. apply SP in I. split; [exact I|]. cbn [cell] in E. apply (f_equal snd) in E. cbn [snd] in E. destruct (snd (at_time new t)) as [x|] eqn:EN.
      * cbn [or_else] in E. left. apply (at_label new t c NN). congruence.
      * cbn [or_else] in E. right. split; [|apply (at_label data t c ND); congruence]. intros u U. apply (at_label new t u NN) in U. congruence.
    + intros [I V]. exists (fst (cell data (Actual new) o t)). apply in_map_self. split; [apply SP; exact I|]. apply injective_projections; [reflexivity|]. cbn [snd cell]. symmetry. destruct V as [V|(N & V)].
      * apply (at_label new t c NN) in V. rewrite V. reflexivity.
      * destruct (snd (at_time new t)) as [x|] eqn:EN; [exfalso; apply (N x); apply (at_label new t x NN); exact EN|]. cbn [or_else]. apply (at_label data t c ND). exact V.
Qed.
(** no target after the start of the forecast reaches the prediction, wherever it comes from *)
Theorem C299_no_future : forall A L (data data' new : frame A) o, ordered new -> starts_from new o ->
  (forall t, t <= o -> at_time data t = at_time data' t) -> (forall t, snd (at_time data t) = snd (at_time data' t)) ->
  in_window L data (Actual new) = in_window L data' (Actual new).
Proof.
  intros A L data data' new o O SF E1 E2. unfold in_window. assert (EB : bounds data (Actual new) = bounds data' (Actual new)) by reflexivity. rewrite <- EB. destruct (bounds data (Actual new)) as [[p m]|] eqn:B; [|reflexivity].
  apply (bounds_actual data new p m O) in B as (SF' & _). assert (p = o) as ->.
  { destruct SF as [[(v & V) M]|(N & I & M)], SF' as [[(v' & V') M']|(N' & I' & M')]; [specialize (M _ _ V'); specialize (M' _ _ V); lia|exfalso; exact (N' _ _ V)|exfalso; exact (N _ _ V')|]. specialize (M _ I'). specialize (M' _ I). lia. }
  destruct (span _ m) as [|t ts]; [reflexivity|]. apply (f_equal Some). apply map_ext_in. intros u _. apply f_equal. cbn [cell]. rewrite E2. apply f_equal2; [|reflexivity]. destruct (Z.ltb_spec o u) as [G|G]; [reflexivity|]. rewrite (E1 u); [reflexivity|lia].
Qed.
(** a prediction without new data starts from the last target *)
Theorem C299_no_new : forall A L (data w : frame A), ordered data -> in_window L data Nothing = Some w ->
  exists o m, ((exists v, target data o v) /\ forall t v, target data t v -> t <= o) /\ (In m (map fst data) /\ forall t, In t (map fst data) -> t <= m) /\
    ordered w /\ (forall t, In t (map fst w) <-> o - Z.of_nat L + 1 <= t <= m) /\
    (forall t v, target w t v <-> o - Z.of_nat L + 1 <= t /\ target data t v) /\ (forall t c, label w t c <-> o - Z.of_nat L + 1 <= t /\ label data t c).
Proof.
  intros A L data w O H. pose proof (window_ordered _ _ _ _ H) as OW. apply window_shape in H as (o & m & B & ->). cbn [bounds] in B. pose proof (last_valid_spec data O) as V. destruct (last_valid data) as [p|]; [|discriminate]. destruct (greatest (map fst data)) as [b|] eqn:EG; [|discriminate]. assert (p = o) as -> by congruence. assert (Z.max o b = m) as EM by congruence. apply greatest_spec in EG as [G1 G2].
  assert (OB : o <= b). { destruct V as [(v & c & I) _]. apply G2. apply in_map_iff. exists (o, (Some v, c)). auto. } assert (b = m) as -> by lia. exists o, m. split; [exact V|]. split; [split; assumption|]. split; [exact OW|].
  pose proof (ordered_series data O) as ND. assert (SP : forall t, In t (span (o - (Z.of_nat L - 1)) m) <-> o - Z.of_nat L + 1 <= t <= m) by (intros t; rewrite span_in; lia). split; [|split].
  - intros t. rewrite map_map. cbn [fst]. rewrite map_id. apply SP.
  - intros t v. unfold target at 1. split.
    + intros (c & I). apply in_map_self in I as [I E]. apply SP in I. split; [lia|]. apply (at_target data t v ND). cbn [cell] in E. rewrite <- E. reflexivity.
    + intros [I T]. pose proof (proj2 V t v T). pose proof (proj2 (at_target data t v ND) T) as E. exists (snd (at_time data t)). apply in_map_self. split; [apply SP; lia|]. cbn [cell]. rewrite <- E. symmetry. destruct (at_time data t). reflexivity.
  - intros t c. unfold label at 1. split.
    + intros (v & I). apply in_map_self in I as [I E]. apply SP in I. split; [lia|]. apply (at_label data t c ND). cbn [cell] in E. rewrite <- E. reflexivity.
    + intros [I T]. pose proof (proj2 (at_label data t c ND) T) as E. destruct T as (v & J). assert (t <= m) by (apply G2, in_map_iff; exists (t, (v, Some c)); auto). exists (fst (at_time data t)). apply in_map_self. split; [apply SP; lia|]. cbn [cell]. rewrite <- E. symmetry. destruct (at_time data t). reflexivity.
Qed.
(** ** What is left for later predictions *)
Lemma find_map {A} (g : Z -> row A) ts t : In t ts -> find_row (map (fun t => (t, g t)) ts) t = Some (g t).
Proof. induction ts as [|u ts IH]; intros I; [destruct I|]. cbn. destruct (Z.eqb_spec u t) as [->|D]; [reflexivity|]. destruct I as [E|I]; [exfalso; exact (D E)|exact (IH I)]. Qed.
Lemma last_valid_is {A} (f : frame A) o v : ordered f -> target f o v -> (forall t u, target f t u -> t <= o) -> last_valid f = Some o.
Proof.
  intros O T M. pose proof (last_valid_spec f O) as V. destruct (last_valid f) as [p|]; [|exfalso; exact (V o v T)]. destruct V as [(u & U) N]. f_equal. specialize (M p u U). specialize (N o v T). lia.
Qed.
Lemma window_again {A} L (data new w : frame A) : (1 <= L)%nat -> is_series data -> ordered new -> (exists t v, target new t v) ->
  in_window L data (Actual new) = Some w -> in_window L w Nothing = Some w.
Proof.
  intros HL ND O (t0 & v0 & T0) H. destruct (C299_window A L data new w ND O H) as (o & m & SF & (OM & _) & OW & TI & TV & _). destruct SF as [[(v & V) M]|(N & _)]; [|exfalso; exact (N _ _ T0)].
  assert (LV : last_valid w = Some o). { apply (last_valid_is w o v OW); [apply TV; split; [lia|left; exact V]|]. intros t u U. apply TV in U as [_ [U|(U & _)]]; [exact (M t u U)|exact U]. }
  assert (GR : greatest (map fst w) = Some m) by (apply greatest_spec; split; [apply TI; lia|intros t I; apply TI in I; lia]).
  unfold in_window. cbn [bounds]. rewrite LV, GR, (Z.max_r o m OM). pose proof (window_shape L data (Actual new) w H) as (o' & m' & B & EW).
  assert (o' = o) as ->. { apply (bounds_actual data new o' m' O) in B as ([[(u & U) M']|(N & _)] & _); [specialize (M _ _ U); specialize (M' _ _ V); lia|exfalso; exact (N _ _ V)]. }
  assert (m' = m) as ->.
  { assert (I : In m (map fst w)) by (apply TI; lia). rewrite EW, map_map in I. cbn [fst] in I. rewrite map_id in I. apply span_in in I. assert (J : In m' (map fst w)); [|apply TI in J; lia]. rewrite EW, map_map. cbn [fst]. rewrite map_id. apply span_in. lia. }
  assert (NE : In o (span (o - (Z.of_nat L - 1)) m)) by (apply span_in; lia). destruct (span (o - (Z.of_nat L - 1)) m) as [|a ts] eqn:SP; [destruct NE|].
  apply (f_equal Some). etransitivity; [|symmetry; exact EW]. apply map_ext_in. intros t I. apply f_equal. cbn [cell at_time]. unfold at_time. rewrite EW. rewrite (find_map _ (a :: ts) t I). reflexivity.
Qed.
(** a prediction with new data leaves the same windows for the predictions after it: predicting again without new data gives
    the same forecasts *)
Theorem C299_again : forall A L (data : list (frame A)) news ws kept, (1 <= L)%nat -> Forall is_series data ->
  Forall (fun new => ordered new /\ exists t v, target new t v) news ->
  predict_from L data (map Actual news) true = Some (ws, kept) ->
  predict_from L kept (map (fun _ => Nothing) kept) false = Some (ws, kept).
Proof.
  intros A L data news ws kept HL ND ON H. unfold predict_from in H. destruct (windows L data (map Actual news)) as [ws'|] eqn:W; [|discriminate]. assert (ws' = ws) as -> by congruence. assert (kept = ws) as -> by congruence. clear H.
  unfold predict_from. enough (windows L ws (map (fun _ => Nothing) ws) = Some ws) as -> by reflexivity. revert news ws ON W. induction ND as [|d data D ND IH]; intros news ws ON W; cbn [windows] in W; [assert (ws = []) as -> by congruence; reflexivity|].
  destruct news as [|new news]; cbn [map] in W; [discriminate|]. destruct (in_window L d (Actual new)) as [w|] eqn:E; [|discriminate]. destruct (windows L data (map Actual news)) as [rest|] eqn:E'; [|discriminate]. assert (ws = w :: rest) as -> by congruence. inversion ON as [|? ? [O T] ON']; subst. cbn [map windows]. rewrite (window_again L d new w HL D O T E), (IH news rest ON' E'). reflexivity.
Qed.
(** a prediction without new data leaves the series alone *)
Theorem C299_pure : forall A L (data : list (frame A)) is ws kept, predict_from L data is false = Some (ws, kept) -> kept = data.
Proof. intros A L data is ws kept H. unfold predict_from in H. destruct (windows L data is); [congruence|discriminate]. Qed.
(** so after a prediction with new data, predicting without new data is no longer about the training data *)
Theorem C299_forgets_refuted : forall A (v w : A), exists (data new : frame A) first second third kept kept',
  predict_from 2 [data] [Nothing] false = Some (first, [data]) /\
  predict_from 2 [data] [Actual new] true = Some (second, kept) /\
  predict_from 2 kept [Nothing] false = Some (third, kept') /\
  (exists f, first = [f] /\ last_valid f = Some 2) /\ (exists f, third = [f] /\ last_valid f = Some 4).
Proof.
  intros A v w. exists [(0, (Some v, None)); (1, (Some w, None)); (2, (Some v, None))], [(3, (Some v, None)); (4, (Some w, None))]. do 5 eexists. split; [reflexivity|]. split; [reflexivity|]. split; [reflexivity|]. split; (eexists; split; reflexivity).
Qed.
(** ** The row that is forecast from *)
Lemma in_cut {A} (f : frame A) r : In r (cut f) <-> In r f /\ match last_valid f with Some o => fst r <= o | None => True end.
Proof. unfold cut. destruct (last_valid f) as [o|]; [rewrite filter_In, Z.leb_le; tauto|tauto]. Qed.
Lemma map_shift : forall n k k' a a', a + Z.of_nat k = a' + Z.of_nat k' -> map (fun i => a + Z.of_nat i) (seq k n) = map (fun i => a' + Z.of_nat i) (seq k' n).
Proof. induction n as [|n IH]; intros k k' a a' E; [reflexivity|]. cbn [seq map]. apply f_equal2; [exact E|]. apply IH. lia. Qed.
Lemma span_split a b c : a <= b + 1 -> b <= c -> span a c = span a b ++ span (b + 1) c.
Proof.
  intros H1 H2. unfold span. replace (Z.to_nat (c - a + 1)) with (Z.to_nat (b - a + 1) + Z.to_nat (c - (b + 1) + 1))%nat by lia. rewrite seq_app, map_app. apply f_equal2; [reflexivity|]. cbn [Nat.add].
  apply map_shift. lia.
Qed.
Lemma span_length a b : length (span a b) = Z.to_nat (b - a + 1).
Proof. unfold span. rewrite map_length, seq_length. reflexivity. Qed.
Lemma filter_none' {B} (p : B -> bool) l : (forall x, In x l -> p x = false) -> filter p l = [].
Proof. induction l as [|x l IH]; intros H; [reflexivity|]. cbn. rewrite (H x (or_introl eq_refl)). apply IH. intros y I. apply H. right. exact I. Qed.
Lemma filter_all' {B} (p : B -> bool) l : (forall x, In x l -> p x = true) -> filter p l = l.
Proof. induction l as [|x l IH]; intros H; [reflexivity|]. cbn. rewrite (H x (or_introl eq_refl)). f_equal. apply IH. intros y I. apply H. right. exact I. Qed.
Lemma cut_span {A} (g : Z -> row A) a m p : a - 1 <= p <= m -> last_valid (map (fun t => (t, g t)) (span a m)) = Some p ->
  cut (map (fun t => (t, g t)) (span a m)) = map (fun t => (t, g t)) (span a p).
Proof.
  intros R H. unfold cut. rewrite H. clear H. rewrite (span_split a p m) by lia. rewrite map_app, filter_app.
  rewrite (filter_all' _ (map _ (span a p))), (filter_none' _ (map _ (span (p + 1) m))), app_nil_r; [reflexivity| |].
  - intros r I. apply in_map_iff in I as (t & <- & I). apply span_in in I. apply Z.leb_gt. cbn [fst]. lia.
  - intros r I. apply in_map_iff in I as (t & <- & I). apply span_in in I. apply Z.leb_le. cbn [fst]. lia.
Qed.
(** when the start of the forecast has a target, it is the one row that is forecast from *)
Theorem C299_one_origin : forall A L (data : frame A) i w o v, (1 <= L)%nat -> in_window L data i = Some w ->
  target w o v -> (forall t u, target w t u -> t <= o) -> (forall t, In t (map fst w) -> o - Z.of_nat L + 1 <= t) -> In (o - Z.of_nat L + 1) (map fst w) ->
  exists c, origins L w = [(o, (Some v, c))].
Proof.
  intros A L data i w o v HL H T M F FI. pose proof (window_ordered _ _ _ _ H) as OW. pose proof (last_valid_is w o v OW T M) as LV. apply window_shape in H as (o' & m & _ & ->). set (a := o' - (Z.of_nat L - 1)) in *. clearbody a.
  assert (RG : forall t, In t (map fst (map (fun t => (t, cell data i o' t)) (span a m))) <-> a <= t <= m) by (intros t; rewrite map_map; cbn [fst]; rewrite map_id; apply span_in).
  assert (EA : a = o - Z.of_nat L + 1). { apply RG in FI. assert (J : a <= a <= m) by lia. apply RG in J. apply F in J. lia. }
  assert (OM : o <= m). { destruct T as (c & I). assert (J : In o (map fst (map (fun t => (t, cell data i o' t)) (span a m)))) by (apply in_map_iff; exists (o, (Some v, c)); auto). apply RG in J. lia. }
  unfold origins. rewrite (cut_span _ a m o) by (try lia; exact LV). rewrite (span_split a (o - 1) o) by lia. rewrite map_app. rewrite skipn_app. rewrite map_length, span_length. rewrite skipn_all2 by (rewrite map_length, span_length; lia).
  replace (L - 1 - Z.to_nat (o - 1 - a + 1))%nat with 0%nat by lia. cbn [app skipn]. replace (o - 1 + 1) with o by lia. unfold span. replace (Z.to_nat (o - o + 1)) with 1%nat by lia. cbn [seq map]. replace (o + Z.of_nat 0) with o by lia.
  destruct T as (c & I). apply in_map_self in I as [_ E]. exists c. rewrite <- E. reflexivity.
Qed.
(** new data without any target (covariates only) that begin later than just after the training data: no row is left to forecast
    from *)
Theorem C299_late_refuted : forall A L (data new w : frame A) p v, (1 <= L)%nat -> is_series data -> ordered new -> (forall t u, ~ target new t u) ->
  target data p v -> (forall t u, target data t u -> t <= p) -> (forall t, In t (map fst new) -> p + 1 < t) -> (forall t, In t (map fst new) -> t < p + Z.of_nat L) -> in_window L data (Actual new) = Some w -> origins L w = [].
Proof.
  intros A L data new w p v HL ND O NT T M FUT NEAR H. destruct (C299_window A L data new w ND O H) as (o & m & SF & (OM & _) & OW & TI & TV & _). destruct SF as [[(u & U) _]|(_ & F & G)]; [exfalso; exact (NT _ _ U)|]. pose proof (FUT _ F) as F1. pose proof (NEAR _ F) as F2.
  assert (LV : last_valid w = Some p). { apply (last_valid_is w p v OW); [apply TV; split; [lia|right; split; [lia|split; [apply NT|exact T]]]|]. intros t u U. apply TV in U as [_ [U|(_ & _ & U)]]; [exfalso; exact (NT _ _ U)|exact (M t u U)]. }
  destruct (window_shape _ _ _ _ H) as (o' & m' & B & EW). assert (o' = o) as ->. { apply (bounds_actual data new o' m' O) in B as ([[(u & U) _]|(_ & F' & G')] & _); [exfalso; exact (NT _ _ U)|]. specialize (G _ F'). specialize (G' _ F). lia. }
  unfold origins. rewrite EW in LV |- *. rewrite (cut_span _ _ m' p); [|split; [lia|]|exact LV].
  - apply skipn_all2. rewrite map_length, span_length. lia.
  - assert (I : In p (map fst w)) by (apply TI; lia). rewrite EW, map_map in I. cbn [fst] in I. rewrite map_id in I. apply span_in in I. lia.
Qed.
(** ** Forecasting from forecasts *)
Lemma first_filter p a b t rest : filter p (span a b) = t :: rest -> (a <= t <= b) /\ p t = true /\ forall u, a <= u < t -> p u = false.
Proof.
  intros E. assert (I : In t (filter p (span a b))) by (rewrite E; left; reflexivity). apply filter_In in I as [I P]. apply span_in in I. split; [exact I|]. split; [exact P|]. intros u R. destruct (p u) eqn:PU; [|reflexivity]. exfalso.
  rewrite (span_split a (t - 1) b), filter_app in E by lia. destruct (filter p (span a (t - 1))) as [|x l] eqn:F.
  - assert (J : In u (filter p (span a (t - 1)))) by (apply filter_In; split; [apply span_in; lia|exact PU]). rewrite F in J. destruct J.
  - assert (J : In x (filter p (span a (t - 1)))) by (rewrite F; left; reflexivity). apply filter_In in J as [J _]. apply span_in in J. cbn [app] in E. assert (x = t) by congruence. lia.
Qed.
(** a further round of forecasts starts from the end of the first unbroken stretch of forecasts; the window has the known targets,
    and the forecasts up to there where none is known *)
Theorem C299_iterated : forall A L (data w : frame A) fc, is_series data -> in_window L data (Forecasts fc) = Some w ->
  exists a o m, (exists v, In (a, v) fc) /\ (forall t v, In (t, v) fc -> a <= t) /\
    (a <= o /\ (forall t, a <= t <= o -> exists v, In (t, v) fc) /\ forall v, ~ In (o + 1, v) fc) /\
    o <= m /\ (forall t, In t (map fst data) -> t <= m) /\ (m = o \/ In m (map fst data)) /\ ordered w /\
    (forall t, In t (map fst w) <-> o - Z.of_nat L + 1 <= t <= m) /\
    (forall t v, target w t v <-> o - Z.of_nat L + 1 <= t <= m /\ (target data t v \/ (t <= o /\ (forall u, ~ target data t u) /\ In (t, v) fc))) /\
    (forall t c, label w t c <-> o - Z.of_nat L + 1 <= t <= m /\ label data t c).
Proof.
  intros A L data w fc ND H. pose proof (window_ordered _ _ _ _ H) as OW. apply window_shape in H as (o & m & B & ->). cbn [bounds] in B. destruct (has_dup (map fst fc)) eqn:HD; [discriminate|]. apply has_dup_spec in HD. destruct (least (map fst fc)) as [a|] eqn:EL; [|discriminate]. destruct (greatest (map fst fc)) as [b|] eqn:EG; [|discriminate]. destruct (greatest (map fst data)) as [d|] eqn:ED; [|discriminate]. cbv zeta in B.
  apply least_spec in EL as [L1 L2]. apply greatest_spec in EG as [G1 G2]. apply greatest_spec in ED as [D1 D2].
  assert (HAS : forall t, existsb (Z.eqb t) (map fst fc) = true <-> exists v, In (t, v) fc).
  { intros t. rewrite existsb_exists. split; [intros (u & I & E); apply Z.eqb_eq in E; subst u; apply in_map_iff in I as ([u v] & E & I); cbn in E; subst u; exists v; exact I|]. intros (v & I). exists t. split; [apply in_map_iff; exists (t, v); auto|apply Z.eqb_refl]. }
  assert (OS : a <= o /\ (forall t, a <= t <= o -> exists v, In (t, v) fc) /\ forall v, ~ In (o + 1, v) fc).
  { specialize (L2 _ G1) as LB. destruct (filter _ (span a b)) as [|t rest] eqn:F.
    - assert (o = b) as -> by congruence. split; [exact LB|]. split; [|intros v I; assert (J : In (b + 1) (map fst fc)) by (apply in_map_iff; exists (b + 1, v); auto); specialize (G2 _ J); lia]. intros t R. apply HAS. destruct (existsb (Z.eqb t) (map fst fc)) eqn:X; [reflexivity|]. assert (J : In t (filter (fun t => negb (existsb (Z.eqb t) (map fst fc))) (span a b))) by (apply filter_In; split; [apply span_in; exact R|rewrite X; reflexivity]). rewrite F in J. destruct J.
    - assert (o = t - 1) as -> by congruence. apply first_filter in F as (R & P & Q). assert (a <> t). { intros <-. apply in_map_iff in L1 as ([u v] & E & I). cbn in E. subst u. assert (X : existsb (Z.eqb a) (map fst fc) = true) by (apply HAS; exists v; exact I). rewrite X in P. discriminate. }
      split; [lia|]. split.
      + intros u U. apply HAS. specialize (Q u ltac:(lia)). cbn beta in Q. destruct (existsb (Z.eqb u) (map fst fc)); [reflexivity|discriminate].
      + intros v I. replace (t - 1 + 1) with t in I by lia. assert (X : existsb (Z.eqb t) (map fst fc) = true) by (apply HAS; exists v; exact I). rewrite X in P. discriminate. }
  assert (Z.max o d = m) as <- by congruence. clear B. exists a, o, (Z.max o d).
  split; [apply in_map_iff in L1 as ([u v] & E & I); cbn in E; subst u; exists v; exact I|]. split; [intros t v I; apply L2, in_map_iff; exists (t, v); auto|]. split; [exact OS|]. split; [lia|]. split; [intros t I; specialize (D2 t I); lia|]. split; [destruct (Z.max_spec o d) as [[_ ->]|[_ ->]]; [right; exact D1|left; reflexivity]|]. split; [exact OW|].
  set (m := Z.max o d) in *. clearbody m. assert (SP : forall t, In t (span (o - (Z.of_nat L - 1)) m) <-> o - Z.of_nat L + 1 <= t <= m) by (intros t; rewrite span_in; lia). split; [|split].
  - intros t. rewrite map_map. cbn [fst]. rewrite map_id. apply SP.
  - intros t v. unfold target at 1. split.
    + intros (c & I). apply in_map_self in I as [I E]. apply SP in I. split; [exact I|]. cbn [cell] in E. apply (f_equal fst) in E. cbn [fst] in E. destruct (fst (at_time data t)) as [x|] eqn:EN.
      * cbn [or_else] in E. left. apply (at_target data t v ND). congruence.
      * cbn [or_else] in E. destruct (Z.leb_spec t o); [|discriminate]. right. split; [lia|]. split; [|apply (find_in fc t v HD); congruence]. intros u U. apply (at_target data t u ND) in U. congruence.
    + intros [I V]. exists (snd (at_time data t)). apply in_map_self. split; [apply SP; exact I|]. cbn [cell]. apply f_equal2; [|reflexivity]. symmetry. destruct V as [V|(T & N & V)].
      * apply (at_target data t v ND) in V. rewrite V. reflexivity.
      * destruct (fst (at_time data t)) as [x|] eqn:EN; [exfalso; apply (N x); apply (at_target data t x ND); exact EN|]. cbn [or_else]. destruct (Z.leb_spec t o); [|lia]. apply (find_in fc t v HD). exact V.
  - intros t c. unfold label at 1. split.
    + intros (v & I). apply in_map_self in I as [I E]. apply SP in I. split; [exact I|]. cbn [cell] in E. apply (f_equal snd) in E. cbn [snd] in E. apply (at_label data t c ND). congruence.
    + intros [I V]. exists (fst (cell data (Forecasts fc) o t)). apply in_map_self. split; [apply SP; exact I|]. cbn [cell]. apply f_equal2; [reflexivity|]. symmetry. apply (at_label data t c ND). exact V.
Qed.
(** ** A case *)
Example C299_iterated_case : in_window 3 [(0, (Some 10, Some 7)); (1, (Some 11, Some 7)); (2, (None, Some 7))] (Forecasts [(2, 20); (3, 30); (5, 50)]) =
  Some [(1, (Some 11, Some 7)); (2, (Some 20, Some 7)); (3, (Some 30, None))].
Proof. reflexivity. Qed.
Example C299_case :
  let data := [(0, (Some 10, Some 7)); (1, (Some 11, Some 7)); (2, (Some 12, Some 7)); (3, (Some 13, Some 7))]%Z in
  let new := [(2, (Some 92, None)); (3, (None, Some 8)); (4, (None, Some 8))]%Z in
  in_window 3 data (Actual new) = Some [(0, (Some 10, Some 7)); (1, (Some 11, Some 7)); (2, (Some 92, Some 7)); (3, (None, Some 8)); (4, (None, Some 8))]%Z /\
  origins 3 [(0, (Some 10, Some 7)); (1, (Some 11, Some 7)); (2, (Some 92, Some 7)); (3, (None, Some 8)); (4, (None, Some 8))]%Z = [(2, (Some 92, Some 7))]%Z /\
  ordered data /\ ordered new /\ starts_from new 2.
Proof.
  cbv zeta. split; [reflexivity|]. split; [reflexivity|]. split; [|split].
  - cbn. repeat split; intros q H; repeat (destruct H as [<-|H]; [cbn; lia|]); destruct H.
  - cbn. repeat split; intros q H; repeat (destruct H as [<-|H]; [cbn; lia|]); destruct H.
  - left. split; [exists 92, None; left; reflexivity|]. intros t v (c & [E|[E|[E|[]]]]); try discriminate. assert (2 = t) by congruence. lia.
Qed.
Example C299_late_case : exists w, in_window 3 [(0, (Some 10, None)); (1, (Some 11, None))] (Actual [(3, (None, None))]) = Some w /\ origins 3 w = [].
Proof. eexists. split; reflexivity. Qed.

Print Assumptions C299_accepted.
Print Assumptions C299_window.
Print Assumptions C299_no_future.
Print Assumptions C299_no_new.
Print Assumptions C299_again.
Print Assumptions C299_pure.
Print Assumptions C299_forgets_refuted.
Print Assumptions C299_one_origin.
Print Assumptions C299_late_refuted.
Print Assumptions C299_iterated.
