(** C245–C250: prophet's parameters and frames, the rows predicted for, prediction intervals, sampled linear trends. *)
From Coq Require Import List Bool Arith ZArith QArith Qround Lia Lqa Sorted Permutation.
From Verif Require Import Common MetricsModel ResidModel ResidProps MedianProofs ProphetModel.
Import ListNotations.
Open Scope nat_scope.

Lemma col_eqb_eq a b : col_eqb a b = true <-> a = b.
Proof. destruct a, b; cbn; try (split; [discriminate|congruence]); try tauto. rewrite Nat.eqb_eq. split; congruence. Qed.
Lemma col_eqb_refl a : col_eqb a a = true.
Proof. apply col_eqb_eq. reflexivity. Qed.
Lemma key_eqb_eq a b : key_eqb a b = true <-> a = b.
Proof. destruct a, b; cbn; try (split; [discriminate|congruence]); try tauto. rewrite Nat.eqb_eq. split; congruence. Qed.
Lemma key_in k l : existsb (key_eqb k) l = true <-> In k l.
Proof. rewrite existsb_exists. split; [intros (x & I & E); apply key_eqb_eq in E; congruence|intros I; exists k; split; [exact I|apply key_eqb_eq; reflexivity]]. Qed.
Lemma has_in c l : has c l = true <-> In c l.
Proof. unfold has. rewrite existsb_exists. split; [intros (x & I & E); apply col_eqb_eq in E; congruence|intros I; exists c; split; [exact I|apply col_eqb_refl]]. Qed.

(** ** C245: parameters *)
Theorem C245_params : forall p, valid_params p = true <->
  (pgrowth p = Logistic -> pcap p <> Off) /\
  (forall s, In s (pseasons p) -> In KName s /\ In KPeriod s /\ In KOrder s) /\
  (forall r, In r (pregs p) -> In KName (rkeys r) /\ forall k, In k (rkeys r) -> k = KName \/ k = KScale \/ k = KMode).
Proof.
  intros p. unfold valid_params. cbn [forallb]. rewrite !andb_true_iff, !forallb_forall. split.
  - intros [[G [S1 [S2 [S3 _]]]] R]. split; [|split].
    + intros E. rewrite E in G. destruct (pcap p); [discriminate| |]; intros X; discriminate.
    + intros s I. split; [apply key_in, S1, I|]. split; [apply key_in, S2, I|apply key_in, S3, I].
    + intros r I. specialize (R r I). apply andb_prop in R as [R1 R2]. split; [apply key_in, R1|]. rewrite forallb_forall in R2. intros k J.
      specialize (R2 k J). change (existsb (key_eqb k) [KName; KScale; KMode] = true) in R2. apply key_in in R2. cbn in R2. intuition.
  - intros (G & S & R). split; [split|].
    + destruct (pgrowth p); try reflexivity. destruct (pcap p); try reflexivity. destruct (G eq_refl eq_refl).
    + split; [|split; [|split; [|reflexivity]]]; intros s I; apply key_in; apply S; exact I.
    + intros r I. destruct (R r I) as [R1 R2]. apply andb_true_intro. split; [apply key_in; exact R1|]. apply forallb_forall. intros k J.
      change (existsb (key_eqb k) [KName; KScale; KMode] = true). apply key_in. destruct (R2 k J) as [-> | [-> | ->]]; cbn; tauto.
Qed.

(** ** C246: the frame *)
Lemma get_in c l : In c (map fst l) -> exists v, get c l = Some v.
Proof.
  induction l as [|[d v] l IH]; cbn; intros I; [destruct I|]. destruct (col_eqb c d) eqn:E; [exists v; reflexivity|]. apply IH.
  destruct I as [<-|I]; [|exact I]. rewrite col_eqb_refl in E. discriminate.
Qed.
Lemma get_put_same c v l : get c (put c v l) = Some v.
Proof. induction l as [|[d w] l IH]; cbn; [rewrite col_eqb_refl; reflexivity|]. destruct (col_eqb c d) eqn:E; cbn; rewrite E; [reflexivity|exact IH]. Qed.
Lemma get_put_other c e v l : c <> e -> get c (put e v l) = get c l.
Proof.
  intros N. induction l as [|[d w] l IH]; cbn.
  - destruct (col_eqb c e) eqn:E; [apply col_eqb_eq in E; contradiction|reflexivity].
  - destruct (col_eqb e d) eqn:E; cbn; [|destruct (col_eqb c d); [reflexivity|exact IH]]. apply col_eqb_eq in E. subst d.
    destruct (col_eqb c e) eqn:F; [apply col_eqb_eq in F; contradiction|reflexivity].
Qed.
Lemma select_some names l : (forall c, In c names -> exists v, get c l = Some v) ->
  exists s, select names l = Some s /\ map fst s = names /\ forall c v, In (c, v) s -> get c l = Some v.
Proof.
  induction names as [|c r IH]; intros H; [exists []; split; [reflexivity|split; [reflexivity|intros c v []]]|].
  destruct (H c (or_introl eq_refl)) as [v E]. destruct (IH (fun d I => H d (or_intror I))) as (s & ES & EN & K).
  exists ((c, v) :: s). cbn. rewrite E, ES, EN. split; [reflexivity|]. split; [reflexivity|]. intros d w [X|I]; [congruence|apply K; exact I].
Qed.
Lemma has_false c l : has c l = false -> ~ In c l.
Proof. intros H I. apply has_in in I. congruence. Qed.
Lemma get_constant c n s e l : get c (constant n s e l) = match s with Const v => if col_eqb c e then Some (repeat (Some v) n) else get c l | _ => get c l end.
Proof.
  destruct s; cbn; try reflexivity. destruct (col_eqb c e) eqn:E; [apply col_eqb_eq in E; subst; apply get_put_same|].
  apply get_put_other. intros ->. rewrite col_eqb_refl in E. discriminate.
Qed.
(** What column a user expects under each name: the series itself or its column y, the constant where cap or floor is a number, and
    otherwise the data's column. *)
Definition expected (d : data) (p : params) (c : col) : option column :=
  match c, pcap p, pfloor p with
  | Cap, Const v, _ => Some (repeat (Some v) (length (dtimes d)))
  | Floor, _, Const v => Some (repeat (Some v) (length (dtimes d)))
  | _, _, _ => match dvalues d with Uni v => if col_eqb c Y then Some v else None | Multi cols => get c cols end
  end.
(** Accepted data always give the frame: the times, and the regressors, y and (if asked for) cap and floor. *)
Theorem C246_frame : forall d p, valid_data d p = true ->
  exists f, ts_to_df d p = Some f /\ fds f = dtimes d /\
    (forall c, In c (map fst (fcols f)) <-> c = Y \/ (exists r, In r (pregs p) /\ rname r = c) \/ (c = Cap /\ pcap p <> Off) \/ (c = Floor /\ pfloor p <> Off)) /\
    (forall c v, In (c, v) (fcols f) -> expected d p c = Some v).
Proof.
  intros d p V. unfold ts_to_df. set (base := match dvalues d with Uni v => [(Y, v)] | Multi cols => cols end).
  set (df := constant _ _ Floor _). set (n := length (dtimes d)) in *.
  assert (G : forall c, get c df = expected d p c).
  { intros c. unfold df. rewrite !get_constant. unfold expected, base. fold n.
    destruct c, (pcap p), (pfloor p), (dvalues d); cbn; reflexivity. }
  assert (A : forall c, In c (reg_names p ++ [Y] ++ capfloor_names p) -> exists v, get c df = Some v).
  { intros c I. rewrite G. unfold valid_data in V. unfold expected. apply in_app_iff in I as [I|I].
    - destruct (dvalues d) as [w|cols].
      + apply andb_prop in V as [V _]. apply andb_prop in V as [V _]. apply Nat.eqb_eq in V. unfold reg_names in I. destruct (pregs p); [destruct I|discriminate].
      + rewrite !andb_true_iff, forallb_forall in V. destruct V as [[[_ V] _] _]. specialize (V c I). apply has_in in V. destruct (get_in c cols V) as [w E]. rewrite E.
        destruct c, (pcap p), (pfloor p); eexists; reflexivity.
    - destruct I as [<-|I].
      + destruct (dvalues d) as [w|cols]; [destruct (pcap p), (pfloor p); exists w; reflexivity|]. rewrite !andb_true_iff in V. destruct V as [[[V _] _] _]. apply has_in in V.
        destruct (get_in Y cols V) as [w E]. exists w. destruct (pcap p), (pfloor p); exact E.
      + cbn [app] in I. unfold capfloor_names in I. apply in_app_iff in I as [I|I].
        * destruct (pcap p) eqn:C; cbn in I; [destruct I| |destruct I as [<-|[]]; eexists; reflexivity]. destruct I as [<-|[]].
          destruct (dvalues d) as [w|cols]; [rewrite andb_false_r in V; discriminate|]. rewrite !andb_true_iff in V. destruct V as [[_ V] _]. cbn in V. apply has_in in V.
          destruct (get_in Cap cols V) as [w E]. exists w. destruct (pfloor p); exact E.
        * destruct (pfloor p) eqn:F; cbn in I; [destruct I| |destruct I as [<-|[]]; destruct (pcap p); eexists; reflexivity]. destruct I as [<-|[]].
          destruct (dvalues d) as [w|cols]; [rewrite andb_false_r in V; discriminate|]. rewrite !andb_true_iff in V. destruct V as [_ V]. cbn in V. apply has_in in V.
          destruct (get_in Floor cols V) as [w E]. exists w. destruct (pcap p); exact E. }
  destruct (select_some _ _ A) as (s & ES & EN & K). rewrite ES. cbn. eexists. split; [reflexivity|]. split; [reflexivity|]. cbn [fcols]. split.
  - intros c. rewrite EN. unfold reg_names, capfloor_names. rewrite in_app_iff, in_map_iff. cbn [In app]. rewrite in_app_iff.
    assert (X : (In c (if off (pcap p) then [] else [Cap]) <-> c = Cap /\ pcap p <> Off) /\ (In c (if off (pfloor p) then [] else [Floor]) <-> c = Floor /\ pfloor p <> Off)).
    { split; [destruct (pcap p)|destruct (pfloor p)]; cbn; intuition; try congruence; subst; intuition. }
    destruct X as [X1 X2]. rewrite X1, X2. firstorder.
  - intros c v I. rewrite <- G. apply K. exact I.
Qed.
(** The data accepted: for a single series no regressor and no cap or floor taken from the data, otherwise all the columns needed. *)
Theorem C246_accepted : forall d p, valid_data d p = true <->
  match dvalues d with
  | Uni _ => pregs p = [] /\ pcap p <> FromData /\ pfloor p <> FromData
  | Multi cols => In Y (map fst cols) /\ (forall r, In r (pregs p) -> In (rname r) (map fst cols)) /\
      (pcap p = FromData -> In Cap (map fst cols)) /\ (pfloor p = FromData -> In Floor (map fst cols))
  end.
Proof.
  intros d p. unfold valid_data. destruct (dvalues d) as [v|cols].
  - rewrite !andb_true_iff, Nat.eqb_eq. destruct (pregs p), (pcap p), (pfloor p); cbn; intuition congruence.
  - rewrite !andb_true_iff, forallb_forall, !orb_true_iff, !has_in, !negb_true_iff. unfold reg_names. split.
    + intros [[[H1 H2] H3] H4]. split; [exact H1|]. split; [intros r I; apply has_in, H2, in_map, I|]. split; intros E; [rewrite E in H3|rewrite E in H4]; cbn in *; intuition congruence.
    + intros (H1 & H2 & H3 & H4). split; [split; [split; [exact H1|]|]|].
      * intros c I. apply has_in. apply in_map_iff in I as (r & <- & I). apply H2. exact I.
      * destruct (pcap p); cbn; auto.
      * destruct (pfloor p); cbn; auto.
Qed.
(** With logistic growth the frame to fit on and every frame to predict for have a capacity. *)
Lemma has_cap_constant p f : complete p f = true -> pcap p <> Off -> In Cap (map fst (fcols (with_constants p f))).
Proof.
  intros C N.
  assert (Y0 : forall c l v, get c l = Some v -> In c (map fst l)).
  { intros c l. induction l as [|[e w] l IH]; cbn; intros v E; [discriminate|]. destruct (col_eqb c e) eqn:Q; [apply col_eqb_eq in Q; auto|right; eapply IH; exact E]. }
  unfold with_constants. cbn [fcols]. unfold complete in C. rewrite !andb_true_iff in C. destruct C as [[_ C] _].
  destruct (pcap p) as [| |v] eqn:E; [contradiction| |].
  - cbn in C. apply has_in in C. destruct (get_in _ _ C) as [w G]. cbn [constant]. apply Y0 with w. rewrite get_constant. destruct (pfloor p); cbn; exact G.
  - apply Y0 with (repeat (Some v) (length (fds f))). rewrite get_constant. cbn. reflexivity.
Qed.
Theorem C246_capacity : forall d p, valid_params p = true -> valid_data d p = true -> pgrowth p = Logistic ->
  (forall f, ts_to_df d p = Some f -> In Cap (map fst (fcols f))) /\
  (forall freq steps history future f, future_rows d p freq steps history future = Some f -> In Cap (map fst (fcols f))).
Proof.
  intros d p VP VD G. assert (N : pcap p <> Off) by (apply C245_params in VP as [H _]; exact (H G)). split.
  - intros f E. destruct (C246_frame d p VD) as (g & EG & _ & H & _). rewrite E in EG. injection EG as <-. apply H. right. right. left. split; [reflexivity|exact N].
  - intros freq steps history future f E. unfold future_rows in E. destruct future as [g|].
    + destruct (complete p g) eqn:C; [|discriminate]. injection E as <-. apply has_cap_constant; assumption.
    + destruct (dvalues d); [|discriminate]. destruct (trailing_nulls v); [|discriminate]. destruct (complete p (Frame [] [])) eqn:C; [|discriminate].
      cbv zeta in E. destruct (_ <? _); [discriminate|]. injection E as <-. apply has_cap_constant; [|exact N].
      unfold complete in *. cbn [fcols] in *. exact C.
Qed.
Example C246_case : exists d p f, valid_params p = true /\ pgrowth p = Logistic /\ valid_data d p = true /\ ts_to_df d p = Some f /\
  map fst (fcols f) = [Other 3; Y; Cap; Floor] /\ get Cap (fcols f) = Some [Some (9 # 1); Some (9 # 1)]%Q /\ get Floor (fcols f) = Some [Some (1 # 1); None]%Q.
Proof.
  exists (Data [0; 10]%Z (Multi [(Floor, [Some (1 # 1); None]%Q); (Other 3, [None; None]); (Y, [Some (5 # 1); Some (6 # 1)]%Q); (Cap, [None; None])])).
  exists (Params Logistic [[KName; KPeriod; KOrder]] [Regressor [KName; KScale] (Other 3)] (Const (9 # 1)) FromData). eexists.
  repeat (split; [reflexivity|]). reflexivity.
Qed.

(** ** C247: the rows predicted for *)
Lemma leading_nulls_spec v : (exists x, In (Some x) v) -> exists z, leading_nulls v = Some z.
Proof.
  induction v as [|o v IH]; intros (x & I); [destruct I|]. destruct o as [y|]; cbn; [exists 0; reflexivity|]. destruct I as [I|I]; [discriminate|].
  destruct IH as [z E]; [exists x; exact I|]. exists (S z). rewrite E. reflexivity.
Qed.
Lemma trailing_nulls_spec v : (exists x, In (Some x) v) -> exists z, trailing_nulls v = Some z.
Proof. intros (x & I). apply leading_nulls_spec. exists x. apply in_rev in I. exact I. Qed.
Lemma firstn_future last freq n m : n <= m -> firstn n (future_dates last freq m) = future_dates last freq n.
Proof.
  intros L. unfold future_dates. rewrite firstn_map. f_equal. replace m with (n + (m - n)) by lia. rewrite seq_app, firstn_app, seq_length, Nat.sub_diag. cbn [firstn].
  rewrite app_nil_r, firstn_all2 by (rewrite seq_length; lia). reflexivity.
Qed.
Lemma filter_future last freq n : (0 < freq)%Z -> filter (fun t => (last <? t)%Z) (future_dates last freq n) = future_dates last freq n.
Proof.
  intros F. unfold future_dates. generalize 0. induction n as [|n IH]; intros a; [reflexivity|]. cbn [seq map filter].
  replace ((last <? last + Z.of_nat (S a) * freq)%Z) with true; [f_equal; apply IH|]. symmetry. apply Z.ltb_lt. nia.
Qed.
Lemma future_len last freq n : length (future_dates last freq n) = n.
Proof. unfold future_dates. rewrite map_length, seq_length. reflexivity. Qed.
Lemma complete_empty p : pregs p = [] -> pcap p <> FromData -> pfloor p <> FromData -> complete p (Frame [] []) = true.
Proof. intros R C F. unfold complete, reg_names. rewrite R. destruct (pcap p), (pfloor p); try contradiction; reflexivity. Qed.
Lemma zmax_last l x : StronglySorted Z.lt (l ++ [x]) -> zmax_list (l ++ [x]) = x.
Proof.
  intros S. assert (A : Forall (fun y => (y <= x)%Z) (l ++ [x])).
  { apply Forall_app. split; [|constructor; [lia|constructor]]. induction l as [|a l IH]; [constructor|]. cbn in S. inversion S as [|? ? S' F]; subst. constructor; [|apply IH; exact S'].
    rewrite Forall_forall in F. specialize (F x). assert (In x (l ++ [x])) by (apply in_app_iff; right; left; reflexivity). specialize (F H). lia. }
  unfold zmax_list. clear S.
  assert (H : (hd 0 (l ++ [x]) <= x)%Z) by (destruct l as [|a l]; cbn; [lia|inversion A; assumption]). revert H. generalize (hd 0%Z (l ++ [x])). intros h Hh.
  induction l as [|a l IH]; cbn; [lia|]. inversion A as [|? ? A1 A2]; subst. rewrite (IH A2). lia.
Qed.
Definition valued (v : column) : nat := length (filter (fun o => negb (missing o)) v).
Lemma valued_le v : valued v <= length v.
Proof. unfold valued. induction v as [|o v IH]; cbn; [lia|]. destruct (missing o); cbn; lia. Qed.
Lemma valued_lt v : In None v -> valued v < length v.
Proof. unfold valued. induction v as [|o v IH]; cbn; intros I; [destruct I|]. destruct I as [->|I]; cbn; [pose proof (valued_le v); unfold valued in *; lia|]. specialize (IH I). destruct (missing o); cbn; lia. Qed.
Lemma valued_all v : ~ In None v -> valued v = length v.
Proof. unfold valued. induction v as [|o v IH]; cbn; intros N; [reflexivity|]. destruct o; cbn; [rewrite IH; [reflexivity|tauto]|tauto]. Qed.
(** A series with times in order, some value, the frequency positive; no regressors and no cap or floor from the data. *)
Definition plain (times : list Z) (v : column) (p : params) (freq : Z) : Prop :=
  StronglySorted Z.lt times /\ length v = length times /\ (exists x, In (Some x) v) /\ pregs p = [] /\ pcap p <> FromData /\ pfloor p <> FromData /\ (0 < freq)%Z.
(** Whatever values are missing, [steps] rows are predicted: those after the last time, [freq] apart. *)
Theorem C247_steps : forall times last v p freq steps, plain (times ++ [last]) v p freq ->
  exists f, future_rows (Data (times ++ [last]) (Uni v)) p freq steps false None = Some f /\
    length (fds f) = steps /\ (forall k, k < steps -> nth k (fds f) 0%Z = (last + Z.of_nat (S k) * freq)%Z) /\
    (forall x, pcap p = Const x -> get Cap (fcols f) = Some (repeat (Some x) steps)) /\
    (forall x, pfloor p = Const x -> get Floor (fcols f) = Some (repeat (Some x) steps)).
Proof.
  intros times last v p freq steps (S & L & V & R & C & F & P). unfold future_rows. cbn [dvalues dtimes]. destruct (trailing_nulls_spec v V) as [z E]. rewrite E.
  cbv zeta. rewrite (complete_empty p R C F). cbn [fds]. rewrite (zmax_last _ _ S), filter_future by exact P. rewrite future_len, Nat.add_0_r.
  destruct (steps + z <? steps) eqn:Q; [apply Nat.ltb_lt in Q; lia|]. rewrite firstn_future by lia. eexists. split; [reflexivity|].
  unfold with_constants. cbn [fds fcols]. rewrite future_len. split; [reflexivity|]. split; [|split].
  - intros k K. unfold future_dates. apply nth_error_nth. rewrite nth_error_map, (nth_error_nth' _ 0) by (rewrite seq_length; exact K). rewrite seq_nth by exact K. reflexivity.
  - intros x X. rewrite get_constant, X. reflexivity.
  - intros x X. rewrite get_constant. destruct (pcap p); cbn; rewrite get_constant, X; reflexivity.
Qed.
(** With the history: the rows of the history and then the steps, if no value is missing and the floor is one prophet uses. *)
Theorem C247_history_partial : forall times last v p freq steps, plain (times ++ [last]) v p freq -> ~ In None v ->
  (pgrowth p = Logistic \/ pfloor p = Off) ->
  exists f, future_rows (Data (times ++ [last]) (Uni v)) p freq steps true None = Some f /\
    fds f = times ++ [last] ++ map (fun k => (last + Z.of_nat k * freq)%Z) (seq 1 steps).
Proof.
  intros times last v p freq steps (S & L & V & R & C & F & P) N G. unfold future_rows. cbn [dvalues dtimes]. destruct (trailing_nulls_spec v V) as [z E]. rewrite E.
  cbv zeta. rewrite (complete_empty p R C F). unfold merged_dates.
  assert (FF : foreign_floor p = false) by (unfold foreign_floor; destruct G as [-> | ->]; [reflexivity|destruct (pgrowth p); reflexivity]). rewrite FF.
  cbn [fds]. fold (valued v). rewrite (zmax_last _ _ S). rewrite (valued_all v N), L, app_length, future_len.
  destruct (_ <? _) eqn:Q; [apply Nat.ltb_lt in Q; lia|]. eexists. split; [reflexivity|]. unfold with_constants. cbn [fds].
  rewrite firstn_app, firstn_all2 by lia. replace (steps + length (times ++ [last]) - length (times ++ [last])) with steps by lia. rewrite firstn_future by lia.
  rewrite <- app_assoc. do 2 f_equal. cbn [app]. f_equal. unfold future_dates. rewrite <- seq_shift, map_map. reflexivity.
Qed.
(** Every missing value costs one of the steps: fewer than [steps] rows are later than the data, and none if there are as many
    missing values as steps. *)
Theorem C247_history_refuted : forall times last v p freq steps, plain (times ++ [last]) v p freq ->
  (pgrowth p = Logistic \/ pfloor p = Off) ->
  exists f, future_rows (Data (times ++ [last]) (Uni v)) p freq steps true None = Some f /\
    length (filter (fun t => (last <? t)%Z) (fds f)) = steps - (length v - length (filter (fun o => match o with Some _ => true | None => false end) v)).
Proof.
  intros times last v p freq steps (S & L & V & R & C & F & P) G. unfold future_rows. cbn [dvalues dtimes]. destruct (trailing_nulls_spec v V) as [z E]. rewrite E.
  cbv zeta. rewrite (complete_empty p R C F). unfold merged_dates.
  assert (FF : foreign_floor p = false) by (unfold foreign_floor; destruct G as [-> | ->]; [reflexivity|destruct (pgrowth p); reflexivity]). rewrite FF.
  cbn [fds]. fold (valued v). rewrite (zmax_last _ _ S). pose proof (valued_le v) as VL. rewrite app_length, future_len.
  destruct (_ <? _) eqn:Q; [apply Nat.ltb_lt in Q; lia|]. eexists. split; [reflexivity|]. unfold with_constants. cbn [fds].
  assert (EV : filter (fun o => match o with Some _ => true | None => false end) v = filter (fun o => negb (missing o)) v) by (apply filter_ext; intros [|]; reflexivity).
  rewrite EV. fold (valued v). rewrite firstn_app, filter_app, app_length.
  assert (Z0 : forall l, (forall t, In t l -> (t <= last)%Z) -> filter (fun t => (last <? t)%Z) l = []).
  { induction l as [|a l IH]; intros H; [reflexivity|]. cbn. replace (last <? a)%Z with false; [apply IH; intros t I; apply H; right; exact I|]. symmetry. apply Z.ltb_ge. apply H. left. reflexivity. }
  rewrite Z0.
  - rewrite firstn_future by lia. rewrite filter_future by exact P. rewrite future_len. cbn [length]. lia.
  - intros t I. assert (I' : In t (times ++ [last])) by (rewrite <- (firstn_skipn (steps + valued v) (times ++ [last])); apply in_app_iff; left; exact I).
    clear -I' S. induction times as [|a l IH]; cbn in *; [destruct I' as [<-|[]]; lia|]. inversion S as [|? ? S' FA]; subst. destruct I' as [<-|I'].
    + rewrite Forall_forall in FA. specialize (FA last). assert (In last (l ++ [last])) by (apply in_app_iff; right; left; reflexivity). specialize (FA H). lia.
    + apply IH; assumption.
Qed.
(** Without logistic growth a floor other than zero doubles the rows of the history; of the steps only those beyond as many as the
    data have are left. *)
Theorem C247_floor_refuted : forall times last v p freq steps x, plain (times ++ [last]) v p freq -> ~ In None v ->
  pgrowth p <> Logistic -> pfloor p = Const x -> ~ (x == 0)%Q ->
  exists f, future_rows (Data (times ++ [last]) (Uni v)) p freq steps true None = Some f /\
    length (filter (fun t => (last <? t)%Z) (fds f)) = steps - length v.
Proof.
  intros times last v p freq steps x (S & L & V & R & C & F & P) N G FX X. unfold future_rows. cbn [dvalues dtimes]. destruct (trailing_nulls_spec v V) as [z E]. rewrite E.
  cbv zeta. rewrite (complete_empty p R C F). unfold merged_dates.
  assert (FF : foreign_floor p = true).
  { unfold foreign_floor. rewrite FX. destruct (pgrowth p); [| |contradiction]; (destruct (Qeq_bool x 0) eqn:Q; [apply Qeq_bool_iff in Q; contradiction|reflexivity]). }
  rewrite FF. cbn [fds]. fold (valued v). rewrite (zmax_last _ _ S), (valued_all v N), app_length, future_len.
  set (D := flat_map _ _).
  assert (DL : length D = 2 * length v /\ forall t, In t D -> In t (times ++ [last])).
  { unfold D. generalize (times ++ [last]) L. clear -N. induction v as [|o v IH]; intros [|a l] L; cbn in *; try discriminate; [split; [reflexivity|tauto]|].
    destruct o as [y|]; [|tauto]. cbn. destruct (IH ltac:(tauto) l ltac:(lia)) as [I1 I2]. split; [lia|]. intros t [I|[I|I]]; auto. }
  destruct DL as [DL DI]. rewrite DL. destruct (_ <? _) eqn:Q; [apply Nat.ltb_lt in Q; lia|]. eexists. split; [reflexivity|]. unfold with_constants. cbn [fds].
  rewrite firstn_app, filter_app, app_length.
  assert (Z0 : forall l, (forall t, In t l -> (t <= last)%Z) -> filter (fun t => (last <? t)%Z) l = []).
  { induction l as [|a l IH]; intros H; [reflexivity|]. cbn. replace (last <? a)%Z with false; [apply IH; intros t I; apply H; right; exact I|]. symmetry. apply Z.ltb_ge. apply H. left. reflexivity. }
  rewrite Z0.
  - rewrite firstn_future by lia. rewrite filter_future by exact P. rewrite future_len. cbn [length]. lia.
  - intros t I. assert (I' : In t (times ++ [last])) by (apply DI; rewrite <- (firstn_skipn (steps + length v) D); apply in_app_iff; left; exact I).
    clear -I' S. induction times as [|a l IH]; cbn in *; [destruct I' as [<-|[]]; lia|]. inversion S as [|? ? S' FA]; subst. destruct I' as [<-|I'].
    + rewrite Forall_forall in FA. specialize (FA last). assert (In last (l ++ [last])) by (apply in_app_iff; right; left; reflexivity). specialize (FA H). lia.
    + apply IH; assumption.
Qed.
(** With several series nothing is predicted unless [future] is given, even if the other series are not used. *)
Theorem C247_multivariate_refuted : forall times cols p freq steps history, future_rows (Data times (Multi cols)) p freq steps history None = None.
Proof. reflexivity. Qed.
(** "The length of future should be no less than steps": it is not checked, the rows are the given ones whatever [steps]. *)
Theorem C247_given_refuted : forall d p freq steps history f,
  (forall g, future_rows d p freq steps history (Some f) = Some g -> fds g = fds f) /\
  (future_rows d p freq steps history (Some f) <> None <->
     (forall r, In r (pregs p) -> In (rname r) (map fst (fcols f))) /\ (pcap p = FromData -> In Cap (map fst (fcols f))) /\
     (pfloor p = FromData -> In Floor (map fst (fcols f)))).
Proof.
  intros d p freq steps history f. unfold future_rows. split.
  - intros g E. destruct (complete p f); [|discriminate]. injection E as <-. reflexivity.
  - destruct (complete p f) eqn:Q.
    + split; [intros _|discriminate]. unfold complete, reg_names in Q. rewrite !andb_true_iff, forallb_forall, !orb_true_iff, !has_in, !negb_true_iff in Q. destruct Q as [[Q1 Q2] Q3].
      split; [intros r I; apply has_in, Q1, in_map, I|]. split; intros X; [rewrite X in Q2|rewrite X in Q3]; cbn in *; intuition congruence.
    + split; [congruence|]. intros (H1 & H2 & H3). exfalso. assert (complete p f = true); [|congruence]. unfold complete, reg_names.
      rewrite !andb_true_iff, forallb_forall, !orb_true_iff, !has_in, !negb_true_iff. split; [split|].
      * intros c I. apply has_in. apply in_map_iff in I as (r & <- & I). apply H1. exact I.
      * destruct (pcap p); cbn; auto.
      * destruct (pfloor p); cbn; auto.
Qed.
Example C247_case : exists f g,
  future_rows (Data [0; 10; 20]%Z (Uni [Some (1 # 1); None; None]%Q)) (Params Logistic [] [] (Const (9 # 1)) Off) 10 2 false None = Some f /\ fds f = [30; 40]%Z /\
  future_rows (Data [0; 10; 20]%Z (Uni [Some (1 # 1); None; Some (1 # 1)]%Q)) (Params Linear [] [] Off Off) 10 2 true None = Some g /\ fds g = [0; 10; 20; 30]%Z.
Proof. eexists. eexists. repeat (split; [reflexivity|]). reflexivity. Qed.

(** ** C248: prediction intervals *)
Lemma sorted_nth s i j : StronglySorted Qle s -> i <= j < length s -> (nth i s 0 <= nth j s 0)%Q.
Proof.
  revert i j. induction s as [|a s IH]; intros i j S [A B]; [cbn in B; lia|]. inversion S as [|? ? S' F]; subst. destruct i, j; cbn [nth]; try lia; try apply Qle_refl.
  - rewrite Forall_forall in F. apply F, nth_In. cbn in B. lia.
  - apply IH; [exact S'|cbn in B; lia].
Qed.
Lemma quantile_mono a b l : l <> [] -> (0 <= a)%Q -> (a <= b)%Q -> (b <= 1)%Q -> (quantile a l <= quantile b l)%Q.
Proof.
  intros N A AB B. unfold quantile. cbv zeta. set (n1 := inject_Z (Z.of_nat (length l - 1))).
  assert (LP : length (qsort l) = length l) by (symmetry; apply Permutation_length, qsort_perm).
  assert (L0 : 0 < length l) by (destruct l; [contradiction|cbn; lia]).
  assert (N0 : (0 <= n1)%Q) by (unfold n1; change 0%Q with (inject_Z 0); rewrite <- Zle_Qle; lia).
  set (pa := (n1 * a)%Q). set (pb := (n1 * b)%Q).
  assert (PA : (0 <= pa)%Q) by (unfold pa; nra). assert (PB : (pb <= n1)%Q) by (unfold pb; nra). assert (PP : (pa <= pb)%Q) by (unfold pa, pb; nra).
  clearbody pa pb. pose proof (Qfloor_le pa) as FA. pose proof (Qfloor_le pb) as FB. pose proof (Qlt_floor pa) as GA. pose proof (Qlt_floor pb) as GB.
  rewrite inject_Z_plus in GA, GB. change (inject_Z 1) with 1%Q in GA, GB.
  assert (ZA : (0 <= Qfloor pa)%Z) by (replace 0%Z with (Qfloor 0) by reflexivity; apply Qfloor_resp_le; exact PA).
  assert (ZAB : (Qfloor pa <= Qfloor pb)%Z) by (apply Qfloor_resp_le; exact PP).
  assert (ZB : (Qfloor pb <= Z.of_nat (length l - 1))%Z) by (rewrite <- (Qfloor_Z (Z.of_nat (length l - 1))); apply Qfloor_resp_le; exact PB).
  pose proof (qsort_sorted l) as SS. set (s := qsort l) in *. clearbody s. unfold n1 in *. clear n1. set (i := Z.to_nat (Qfloor pa)). set (j := Z.to_nat (Qfloor pb)).
  destruct (Z_le_lt_eq_dec _ _ ZAB) as [LT|EQ].
  - assert (IJ : i < j) by (unfold i, j; lia). assert (JL : j < length s) by (unfold j; lia).
    pose proof (sorted_nth s i (S i) SS ltac:(lia)) as S1. pose proof (sorted_nth s (S i) j SS ltac:(lia)) as S2.
    assert (S3 : (0 <= (pb - inject_Z (Qfloor pb)) * (nth (S j) s 0 - nth j s 0))%Q).
    { destruct (Nat.lt_ge_cases (S j) (length s)) as [Q|Q].
      - pose proof (sorted_nth s j (S j) SS ltac:(lia)). apply Qmult_le_0_compat; lra.
      - assert (E : Qfloor pb = Z.of_nat (length l - 1)) by (unfold j in *; lia). rewrite E in *. assert (pb == inject_Z (Z.of_nat (length l - 1)))%Q by lra. rewrite H. lra. }
    assert (S4 : ((pa - inject_Z (Qfloor pa)) * (nth (S i) s 0 - nth i s 0) <= nth (S i) s 0 - nth i s 0)%Q).
    { setoid_replace (nth (S i) s 0 - nth i s 0)%Q with (1 * (nth (S i) s 0 - nth i s 0))%Q at 2 by ring. apply Qmult_le_compat_r; lra. }
    lra.
  - unfold i, j. rewrite <- EQ in *. fold i. destruct (Nat.lt_ge_cases (S i) (length s)) as [Q|Q].
    + pose proof (sorted_nth s i (S i) SS ltac:(lia)). apply Qplus_le_r. apply Qmult_le_compat_r; lra.
    + assert (E : Qfloor pa = Z.of_nat (length l - 1)) by (unfold i in *; lia). rewrite E in *. assert (pb == inject_Z (Z.of_nat (length l - 1)))%Q by lra.
      assert (pa == inject_Z (Z.of_nat (length l - 1)))%Q by lra. rewrite H, H0. lra.
Qed.
(** For every row the band is the two quantiles of the draws, moved apart by the margin (in units of the data): the upper bound is
    above the lower one by at least the margin. *)
Theorem C248_bands : forall width scale margin gap draws n, (0 <= width <= 1)%Q -> (0 <= scale)%Q -> draws <> [] ->
  (match margin with None => gap = 0 | Some m => 0 <= m /\ gap = scale * m end)%Q ->
  length (bands width scale margin draws n) = n /\
  (forall j, j < n -> let '(lower, upper) := nth j (bands width scale margin draws n) (0, 0)%Q in
     exists a b, quantile_of ((1 - width) / 2) (map (fun d => nth j d 0%Q) draws) a /\ quantile_of ((1 + width) / 2) (map (fun d => nth j d 0%Q) draws) b /\
       (lower == a - gap / 2)%Q /\ (upper == b + gap / 2)%Q /\ (lower + gap <= upper)%Q).
Proof.
  intros width scale margin gap draws n W SC D M. unfold bands. split; [rewrite map_length, seq_length; reflexivity|].
  assert (HM : (half_margin scale margin == gap / 2)%Q) by (destruct margin; [destruct M as [_ ->]; reflexivity|rewrite M; reflexivity]).
  assert (NE : forall j, at_row j draws <> []) by (intros j; unfold at_row; destruct draws; [contradiction|discriminate]).
  assert (H1 : (0 <= (1 - width) / 2)%Q) by (apply Qle_shift_div_l; lra). assert (H2 : ((1 - width) / 2 <= (1 + width) / 2)%Q) by (apply Qmult_le_compat_r; [lra|vm_compute; discriminate]).
  assert (H3 : ((1 + width) / 2 <= 1)%Q) by (apply Qle_shift_div_r; lra).
  intros j J. rewrite (nth_error_nth (map _ (seq 0 n)) j (0, 0)%Q (x := _) ltac:(rewrite nth_error_map, (nth_error_nth' _ 0) by (rewrite seq_length; exact J); rewrite seq_nth by exact J; reflexivity)).
  cbn [Nat.add]. exists (quantile ((1 - width) / 2) (at_row j draws)), (quantile ((1 + width) / 2) (at_row j draws)).
  split; [apply quantile_ok; exact H1|]. split; [apply quantile_ok; lra|]. rewrite HM. split; [reflexivity|]. split; [reflexivity|].
  pose proof (quantile_mono _ _ (at_row j draws) (NE j) H1 H2 H3). assert (X : (gap == gap / 2 + gap / 2)%Q) by field. rewrite X at 2. lra.
Qed.
(** The band need not contain the forecast: it is that of the draws only (here a single draw with some noise). *)
Theorem C248_contains_refuted : exists width scale trend mult add draws,
  (0 <= width <= 1)%Q /\ (0 < scale)%Q /\ draws = [sampled_yhat scale [trend] [mult] [add] [1]]%Q /\
  (yhat trend mult (add * scale) < fst (nth 0 (bands width scale None draws 1) (0, 0)))%Q.
Proof. exists (8 # 10)%Q, 1%Q, 1%Q, 0%Q, 0%Q. eexists. split; [split; vm_compute; discriminate|]. split; [reflexivity|]. split; [reflexivity|]. vm_compute. reflexivity. Qed.
(** The number of draws asked for is reached over all iterations, and exceeded by less than one for each. *)
Theorem C248_samples : forall samples iterations, 0 < samples -> 0 < iterations ->
  samples <= iterations * per_iteration samples iterations < samples + iterations.
Proof.
  intros s i S I. unfold per_iteration. set (x := (inject_Z (Z.of_nat s) / inject_Z (Z.of_nat i))%Q).
  assert (IP : (0 < inject_Z (Z.of_nat i))%Q) by (change 0%Q with (inject_Z 0); rewrite <- Zlt_Qlt; lia).
  assert (XE : (x * inject_Z (Z.of_nat i) == inject_Z (Z.of_nat s))%Q) by (unfold x; field; lra).
  pose proof (Qle_ceiling x) as C1. pose proof (Qceiling_lt x) as C2. set (c := Qceiling x) in *.
  assert (L1 : (Z.of_nat s <= c * Z.of_nat i)%Z). { rewrite Zle_Qle, inject_Z_mult, <- XE. apply Qmult_le_compat_r; lra. }
  assert (L2 : ((c - 1) * Z.of_nat i < Z.of_nat s)%Z). { rewrite Zlt_Qlt, inject_Z_mult, <- XE. apply Qmult_lt_compat_r; [exact IP|exact C2]. }
  assert (C0 : (0 < c)%Z) by nia. rewrite Nat.max_r by lia. assert (Z.of_nat (Z.to_nat c) = c) by lia. nia.
Qed.
Example C248_case : bands (1 # 2) 10 (Some (1 # 5)) [[1; 2]; [3; 2]; [5; 2]; [7; 2]; [9; 2]]%Q 2 <> [] /\
  (fst (nth 0 (bands (1 # 2) 10 (Some (1 # 5)) [[1; 2]; [3; 2]; [5; 2]; [7; 2]; [9; 2]] 2) (0, 0)) == 2)%Q /\
  (snd (nth 1 (bands (1 # 2) 10 (Some (1 # 5)) [[1; 2]; [3; 2]; [5; 2]; [7; 2]; [9; 2]] 2) (0, 0)) == 3)%Q /\ per_iteration 50 3 = 17.
Proof. split; [discriminate|]. vm_compute. repeat split. Qed.

(** ** C249: sampled linear trends *)
(** A trend that starts at m with slope k and bends by each shift at its changepoint. *)
Definition bend (t : Q) (c : Q * Q) : Q := if Qle_bool (fst c) t then (snd c * (t - fst c))%Q else 0%Q.
Definition bent (changes : list (Q * Q)) (k m t : Q) : Q := (m + k * t + qsum (map (bend t) changes))%Q.
Lemma piecewise_bent changes k m t : (piecewise_linear changes k m t == bent changes k m t)%Q.
Proof.
  unfold piecewise_linear, bent, qleb. cbv zeta. set (act := filter _ changes).
  assert (E : (qsum (map snd act) * t + qsum (map (fun c => snd c * - fst c) act) == qsum (map (bend t) changes))%Q).
  { unfold act. induction changes as [|c l IH]; cbn [map filter qsum fold_right]; [ring|]. unfold bend at 1. destruct (Qle_bool (fst c) t); cbn [map qsum fold_right] in *; unfold qsum in *; cbn [fold_right map] in *; rewrite <- IH; ring. }
  rewrite <- E. ring.
Qed.
Lemma qsum_app' a b : (qsum (a ++ b) == qsum a + qsum b)%Q.
Proof. unfold qsum. induction a as [|x a IH]; cbn [app fold_right]; [ring|]. rewrite IH. ring. Qed.
(** A draw: uniforms from [0, 1), and changepoints are only drawn if the rows go beyond 1, the end of the history. *)
Definition valid_draw (times : list Q) (x : draw) : Prop :=
  (forall u, In u (duniforms x) -> 0 <= u < 1)%Q /\ (duniforms x <> [] -> exists t, In t times /\ 1 < t)%Q.
Lemma larger_ge l h : (forall t, In t l -> t <= fold_right larger h l)%Q /\ (h <= fold_right larger h l)%Q.
Proof.
  induction l as [|a l [IH1 IH2]]; cbn; [split; [intros t []|apply Qle_refl]|]. unfold larger at 1 3. destruct (Qle_bool a (fold_right larger h l)) eqn:E.
  - apply Qle_bool_iff in E. split; [intros t [<-|I]; [exact E|apply IH1; exact I]|exact IH2].
  - assert (fold_right larger h l < a)%Q by (apply Qnot_le_lt; intros X; apply Qle_bool_iff in X; congruence). split; [|lra]. intros t [<-|I]; [apply Qle_refl|specialize (IH1 t I); lra].
Qed.
Lemma new_after times x : valid_draw times x -> forall c, In c (new_changes (fold_right larger (hd 0%Q times) times) x) -> (1 <= fst c)%Q.
Proof.
  intros [U H] [c d] I. unfold new_changes in I. apply in_combine_l in I. apply (Permutation_in _ (Permutation_sym (qsort_perm _))) in I.
  apply in_map_iff in I as (u & <- & I). cbn [fst]. destruct H as (t & T & L); [intros E; rewrite E in I; exact I|]. destruct (U u I) as [U0 _].
  pose proof (proj1 (larger_ge times (hd 0%Q times)) t T). nra.
Qed.
(** Every draw is the fitted trend with further bends, all after the end of the history (time 1): up to there it is the fitted trend. *)
Theorem C249_draw : forall changes k m scale times floors x, length floors = length times -> valid_draw times x ->
  exists bends, (forall c, In c bends -> 1 <= fst c)%Q /\ length (linear_draw changes k m scale times floors x) = length times /\
    forall j, j < length times ->
      let t := nth j times 0%Q in let fitted := model_trend changes k m scale t (nth j floors 0%Q) in
      (nth j (linear_draw changes k m scale times floors x) 0 == fitted + scale * qsum (map (bend t) bends))%Q /\
      (fitted == bent changes k m t * scale + nth j floors 0)%Q /\
      (t <= 1 -> nth j (linear_draw changes k m scale times floors x) 0 == fitted)%Q.
Proof.
  intros changes k m scale times floors x L V. pose proof (new_after times x V) as NA. unfold linear_draw. cbv zeta. set (new := new_changes _ x) in *. exists new.
  split; [exact NA|]. split; [rewrite map_length, combine_length; lia|]. intros j J.
  set (t := nth j times 0%Q).
  assert (E : (nth j (map (fun p => piecewise_linear (changes ++ new) k m (fst p) * scale + snd p)%Q (combine times floors)) 0 == model_trend changes k m scale t (nth j floors 0) + scale * qsum (map (bend t) new))%Q).
  { rewrite (nth_error_nth (map _ (combine times floors)) j 0%Q (x := _) ltac:(rewrite nth_error_map, (nth_error_nth' _ (0, 0)%Q) by (rewrite combine_length, L, Nat.min_id; exact J); rewrite combine_nth by (symmetry; exact L); reflexivity)).
    cbn [fst snd]. fold t. unfold model_trend. rewrite !piecewise_bent. unfold bent. rewrite map_app, qsum_app'. ring. }
  split; [exact E|]. split; [unfold model_trend; rewrite piecewise_bent; reflexivity|]. intros T. rewrite E.
  assert (Z0 : (qsum (map (bend t) new) == 0)%Q).
  { clear E. clearbody new t. induction new as [|c l IH]; cbn; [reflexivity|]. unfold qsum in *. cbn [fold_right]. rewrite IH by (intros d I; apply NA; right; exact I). unfold bend. specialize (NA c (or_introl eq_refl)).
    destruct (Qle_bool (fst c) t) eqn:Q; [apply Qle_bool_iff in Q|ring]. assert (X : (fst c == t)%Q) by lra. rewrite X. ring. }
  rewrite Z0. ring.
Qed.
(** So a sampled forecast of a row of the history is the forecast and the noise. *)
Theorem C249_history : forall changes k m scale times floors x mult add noise, length floors = length times -> length mult = length times ->
  length add = length times -> length noise = length times -> valid_draw times x ->
  forall j, j < length times -> (nth j times 0 <= 1)%Q ->
  (nth j (sampled_yhat scale (linear_draw changes k m scale times floors x) mult add noise) 0 ==
   yhat (model_trend changes k m scale (nth j times 0) (nth j floors 0)) (nth j mult 0) (nth j add 0 * scale) + nth j noise 0 * scale)%Q.
Proof.
  intros changes k m scale times floors x mult add noise LF LM LA LN V j J T. destruct (C249_draw changes k m scale times floors x LF V) as (bends & _ & LL & H).
  destruct (H j J) as (_ & _ & E). specialize (E T). unfold sampled_yhat. set (tr := linear_draw _ _ _ _ _ _ _) in *.
  rewrite (nth_error_nth (map _ _) j 0%Q (x := _) ltac:(rewrite nth_error_map, (nth_error_nth' _ ((0, 0), (0, 0))%Q) by (rewrite !combine_length, LL, LM, LA, LN, !Nat.min_id; exact J); rewrite !combine_nth by (rewrite ?combine_length, ?LL, ?LM, ?LA, ?LN; reflexivity); reflexivity)).
  cbn [fst snd]. rewrite E. unfold yhat. ring.
Qed.
Example C249_case : let x := Draw 1 [1 # 2; 1 # 4]%Q [1 # 2; 3 # 2]%Q [2; 5]%Q in valid_draw [1 # 2; 1; 2; 3]%Q x /\
  forall j, j < 4 -> (nth j (linear_draw [(1 # 2, 3)] 1 0 10 [1 # 2; 1; 2; 3] [0; 0; 0; 7] x) 0 == nth j [5; 25; 75; 142] 0)%Q.
Proof.
  split.
  - split; [intros u [<-|[<-|[]]]; split; [discriminate|reflexivity|discriminate|reflexivity]|]. intros _. exists 2%Q. split; [right; right; left; reflexivity|reflexivity].
  - intros j J. do 4 (destruct j as [|j]; [vm_compute; reflexivity|]). lia.
Qed.

(** ** C250: the changepoints of the history on the grid *)
Lemma find_seq_spec (f : nat -> bool) n : forall a i, find f (seq a n) = Some i -> a <= i < a + n /\ f i = true /\ forall j, a <= j < i -> f j = false.
Proof.
  induction n as [|n IH]; intros a i E; [discriminate|]. cbn in E. destruct (f a) eqn:F.
  - injection E as <-. split; [lia|]. split; [exact F|]. intros; lia.
  - destruct (IH _ _ E) as (B & T & M). split; [lia|]. split; [exact T|]. intros j J. destruct (Nat.eq_dec j a) as [->|N]; [exact F|apply M; lia].
Qed.
Lemma find_seq_ex (f : nat -> bool) n : forall a, (exists i, a <= i < a + n /\ f i = true) -> exists i, find f (seq a n) = Some i.
Proof.
  induction n as [|n IH]; intros a (i & B & T); [lia|]. cbn. destruct (f a) eqn:F; [exists a; reflexivity|]. apply IH. exists i. split; [|exact T].
  destruct (Nat.eq_dec i a) as [->|N]; [congruence|lia].
Qed.
Lemma qleb_false a b : negb (qleb a b) = true <-> (b < a)%Q.
Proof.
  unfold qleb. rewrite negb_true_iff. split; [intros H; apply Qnot_le_lt; intros L; apply Qle_bool_iff in L; congruence|].
  intros H. destruct (Qle_bool a b) eqn:E; [apply Qle_bool_iff in E; lra|reflexivity].
Qed.
Lemma grid_reaches d : (0 < d)%Q -> exists n, grid_length d = S n /\ (1 <= grid_time d n)%Q.
Proof.
  intros D. unfold grid_length, grid_time. set (x := ((1 + d) / d)%Q). assert (XE : (x * d == 1 + d)%Q) by (unfold x; field; lra). pose proof (Qle_ceiling x) as C.
  assert (X1 : (1 < x)%Q) by (apply Qlt_shift_div_l; lra). set (c := Qceiling x) in *.
  assert (C2 : (2 <= c)%Z). { assert (1 < c)%Z; [|lia]. rewrite Zlt_Qlt. change (inject_Z 1) with 1%Q. lra. }
  exists (Z.to_nat c - 1). split; [lia|]. replace (Z.of_nat (Z.to_nat c - 1)) with (c - 1)%Z by lia. unfold Z.sub. rewrite inject_Z_plus. change (inject_Z (- (1))) with (-(1))%Q.
  assert (CD : (x * d <= inject_Z c * d)%Q) by (apply Qmult_le_compat_r; [exact C|apply Qlt_le_weak; exact D]). clearbody x c. clear -CD XE D. rewrite XE in CD. lra.
Qed.
Lemma cell_ok d c : (0 < d)%Q -> (0 <= c < 1)%Q -> exists i, cell d c = Some i /\ i < grid_length d /\ (grid_time d i - d <= c < grid_time d i)%Q.
Proof.
  intros D C. destruct (grid_reaches d D) as (n & GL & GT). unfold cell.
  destruct (find_seq_ex (fun i => negb (qleb (grid_time d i) c)) (grid_length d) 0) as [i E]; [exists n; split; [lia|apply qleb_false; lra]|].
  exists i. split; [exact E|]. apply find_seq_spec in E as (B & T & M). split; [lia|]. apply qleb_false in T. split; [|exact T]. destruct i as [|i].
  - unfold grid_time in T. change (inject_Z (Z.of_nat 0)) with 0%Q in T. lra.
  - specialize (M i ltac:(lia)). assert (X : (grid_time d i <= c)%Q) by (apply Qnot_lt_le; intros Y; apply qleb_false in Y; congruence).
    unfold grid_time in *. rewrite Nat2Z.inj_succ. unfold Z.succ. rewrite inject_Z_plus. change (inject_Z 1) with 1%Q. lra.
Qed.
Lemma cells_ok d cs : (0 < d)%Q -> (forall c, In c cs -> 0 <= c < 1)%Q ->
  exists idx, cells d cs = Some idx /\ Forall2 (fun c i => cell d c = Some i) cs idx.
Proof.
  intros D. induction cs as [|c cs IH]; intros H; [exists []; split; [reflexivity|constructor]|]. destruct (cell_ok d c D (H c (or_introl eq_refl))) as (i & E & _).
  destruct IH as (l & EL & F); [intros x I; apply H; right; exact I|]. exists (i :: l). cbn. rewrite E, EL. split; [reflexivity|constructor; assumption].
Qed.
Lemma update_len i v l : length (update i v l) = length l.
Proof. revert i. induction l as [|x l IH]; intros [|i]; cbn; auto. Qed.
Lemma update_nth i v l j : i < length l -> nth j (update i v l) 0%Q = if i =? j then v else nth j l 0%Q.
Proof. revert i j. induction l as [|x l IH]; intros [|i] [|j] L; cbn in *; try lia; try reflexivity. rewrite IH by lia. reflexivity. Qed.
Lemma update_sum i v l : i < length l -> (qsum (update i v l) == qsum l - nth i l 0 + v)%Q.
Proof. unfold qsum. revert i. induction l as [|x l IH]; intros [|i] L; cbn in *; try lia; [ring|]. rewrite IH by lia. ring. Qed.
Definition writes (ps : list (nat * Q)) (row : list Q) : list Q := fold_left (fun row p => update (fst p) (snd p) row) ps row.
Lemma writes_len ps : forall row, length (writes ps row) = length row.
Proof. induction ps as [|p ps IH]; intros row; cbn; [reflexivity|]. unfold writes in IH. rewrite IH, update_len. reflexivity. Qed.
Lemma writes_nth_other ps : forall row j, (forall p, In p ps -> fst p < length row) -> ~ In j (map fst ps) -> nth j (writes ps row) 0%Q = nth j row 0%Q.
Proof.
  induction ps as [|p ps IH]; intros row j B N; [reflexivity|]. cbn in *. unfold writes in *. cbn. rewrite IH; [|intros q I; rewrite update_len; apply B; right; exact I|tauto].
  rewrite update_nth by (apply B; left; reflexivity). destruct (fst p =? j) eqn:E; [apply Nat.eqb_eq in E; tauto|reflexivity].
Qed.
Lemma writes_nth ps : forall row, (forall p, In p ps -> fst p < length row) -> NoDup (map fst ps) -> forall p, In p ps -> nth (fst p) (writes ps row) 0%Q = snd p.
Proof.
  induction ps as [|q ps IH]; intros row B N p I; [destruct I|]. cbn in N. inversion N as [|? ? N1 N2]; subst. change (writes (q :: ps) row) with (writes ps (update (fst q) (snd q) row)).
  destruct I as [<-|I].
  - rewrite writes_nth_other; [|intros r I; rewrite update_len; apply B; right; exact I|exact N1]. rewrite update_nth by (apply B; left; reflexivity). rewrite Nat.eqb_refl. reflexivity.
  - apply IH; [intros r J; rewrite update_len; apply B; right; exact J|exact N2|exact I].
Qed.
Lemma writes_sum ps : forall row, (forall p, In p ps -> fst p < length row /\ nth (fst p) row 0%Q = 0%Q) -> NoDup (map fst ps) ->
  (qsum (writes ps row) == qsum row + qsum (map snd ps))%Q.
Proof.
  induction ps as [|q ps IH]; intros row B N; [unfold qsum; cbn; ring|]. cbn in N. inversion N as [|? ? N1 N2]; subst. change (writes (q :: ps) row) with (writes ps (update (fst q) (snd q) row)).
  destruct (B q (or_introl eq_refl)) as [B1 B2]. rewrite IH; [|intros p I|exact N2].
  - rewrite update_sum by exact B1. rewrite B2. unfold qsum. cbn. ring.
  - rewrite update_len. destruct (B p (or_intror I)) as [B3 B4]. split; [exact B3|]. rewrite update_nth by exact B1. destruct (fst q =? fst p) eqn:E; [|exact B4].
    apply Nat.eqb_eq in E. exfalso. apply N1. rewrite E. apply in_map. exact I.
Qed.
Lemma qsum_zeros n : (qsum (repeat 0%Q n) == 0)%Q.
Proof. unfold qsum. induction n; cbn; [reflexivity|]. rewrite IHn. ring. Qed.
Lemma Forall2_in_r {A B} (P : A -> B -> Prop) l m : Forall2 P l m -> forall y, In y m -> exists x, In x l /\ P x y.
Proof. induction 1 as [|x y l m H F IH]; intros z I; [destruct I|]. destruct I as [<-|I]; [exists x; split; [left; reflexivity|exact H]|]. destruct (IH z I) as (w & J & K). exists w. split; [right; exact J|exact K]. Qed.
Lemma Forall2_len {A B} (P : A -> B -> Prop) l m : Forall2 P l m -> length l = length m.
Proof. induction 1; cbn; auto. Qed.
(** Changepoints of the history before its end, at least a step of the grid apart: each shift is put at the first time of the grid
    after its changepoint, and none is lost. *)
Theorem C250_grid_partial : forall d changes, (0 < d)%Q -> (forall c, In c changes -> 0 <= fst c < 1)%Q ->
  StronglySorted (fun a b => fst a + d <= fst b)%Q changes ->
  exists row, historical d changes = Some row /\ (qsum row == qsum (map snd changes))%Q /\
    forall c, In c changes -> exists i, i < length row /\ nth i row 0%Q = snd c /\ (inject_Z (Z.of_nat i) * d - d <= fst c < inject_Z (Z.of_nat i) * d)%Q.
Proof.
  intros d changes D H S. destruct (cells_ok d (map fst changes) D) as (idx & E & F); [intros c I; apply in_map_iff in I as (x & <- & I); apply H; exact I|].
  unfold historical. rewrite E. eexists. split; [reflexivity|]. set (ps := combine idx (map snd changes)). fold (writes ps (repeat 0%Q (grid_length d))).
  assert (IL : length idx = length (map snd changes)) by (rewrite map_length, <- (Forall2_len _ _ _ F), map_length; reflexivity).
  assert (FS : map fst ps = idx) by (unfold ps; clear -IL; revert IL; generalize (map snd changes); induction idx as [|i idx IH]; intros [|x l] L; cbn in *; try lia; [reflexivity|f_equal; apply IH; lia]).
  assert (SS : map snd ps = map snd changes) by (unfold ps; clear -IL; revert IL; generalize (map snd changes); induction idx as [|i idx IH]; intros [|x l] L; cbn in *; try lia; [reflexivity|f_equal; apply IH; lia]).
  assert (BI : forall i, In i idx -> i < grid_length d).
  { intros i I. destruct (Forall2_in_r _ _ _ F i I) as (c & J & K). unfold cell in K. apply find_seq_spec in K. lia. }
  assert (B : forall p, In p ps -> fst p < length (repeat 0%Q (grid_length d)) /\ nth (fst p) (repeat 0%Q (grid_length d)) 0%Q = 0%Q).
  { intros p I. rewrite repeat_length. split; [apply BI; rewrite <- FS; apply in_map; exact I|]. apply nth_repeat. }
  assert (SP : forall c i, cell d c = Some i -> (0 <= c < 1)%Q -> (grid_time d i - d <= c < grid_time d i)%Q).
  { intros c i K C. destruct (cell_ok d c D C) as (j & EJ & _ & G). rewrite K in EJ. injection EJ as <-. exact G. }
  assert (ND : NoDup idx).
  { clear -F S H SP D. revert idx F. induction changes as [|c l IH]; intros idx F; inversion F as [|? i ? m K F']; subst; [constructor|]. inversion S as [|? ? S' FA]; subst. constructor.
    - intros I. destruct (Forall2_in_r _ _ _ F' i I) as (e & J & K2). apply in_map_iff in J as (x & <- & J). rewrite Forall_forall in FA. specialize (FA x J).
      pose proof (SP _ _ K (H c (or_introl eq_refl))). pose proof (SP _ _ K2 (H x (or_intror J))). lra.
    - apply IH; [intros x I; apply H; right; exact I|exact S'|exact F']. }
  rewrite <- FS in ND. split.
  - rewrite (writes_sum ps _ B ND), qsum_zeros, SS. ring.
  - intros c I. rewrite writes_len, repeat_length.
    assert (X : exists i, In (i, snd c) ps /\ cell d (fst c) = Some i).
    { unfold ps. clear -F I. revert idx F. induction changes as [|e l IH]; intros idx F; [destruct I|]. inversion F as [|? i ? m K F']; subst. destruct I as [<-|I].
      - exists i. split; [left; reflexivity|exact K].
      - destruct (IH I m F') as (j & J1 & J2). exists j. split; [right; exact J1|exact J2]. }
    destruct X as (i & J & K). exists i. split; [apply BI; rewrite <- FS; change i with (fst (i, snd c)); apply in_map; exact J|]. split; [|apply SP; [exact K|apply H; exact I]].
    change i with (fst (i, snd c)). apply (writes_nth ps _ (fun p Q0 => proj1 (B p Q0)) ND (i, snd c) J).
Qed.
(** Of two changepoints within the same step only the later one's shift is kept. *)
Theorem C250_lost_refuted : forall d c1 c2 s1 s2, (0 < d)%Q -> (0 <= c1)%Q -> (c1 < c2)%Q -> (c2 < d)%Q -> (c2 < 1)%Q ->
  exists row, historical d [(c1, s1); (c2, s2)] = Some row /\ (qsum row == s2)%Q.
Proof.
  intros d c1 c2 s1 s2 D C1 C12 C2 C3. destruct (cell_ok d c1 D) as (i & EI & BI & GI); [lra|]. destruct (cell_ok d c2 D) as (j & EJ & BJ & GJ); [lra|].
  assert (ONE : forall n c, (0 <= c)%Q -> (c < d)%Q -> (grid_time d n - d <= c < grid_time d n)%Q -> n = 1).
  { intros n c A1 A2 [G1 G2]. unfold grid_time in *. destruct n as [|[|n]]; [change (inject_Z (Z.of_nat 0)) with 0%Q in *; lra|reflexivity|]. exfalso.
    rewrite !Nat2Z.inj_succ in *. unfold Z.succ in *. rewrite !inject_Z_plus in *. change (inject_Z 1) with 1%Q in *. assert (0 <= inject_Z (Z.of_nat n))%Q by (change 0%Q with (inject_Z 0); rewrite <- Zle_Qle; lia). nra. }
  assert (i = 1) by (apply (ONE i c1); [lra|lra|exact GI]). assert (j = 1) by (apply (ONE j c2); [lra|lra|exact GJ]). subst i j.
  unfold historical. cbn [map fst snd cells]. rewrite EI, EJ. eexists. split; [reflexivity|]. cbn [combine fold_left fst snd].
  rewrite update_sum by (rewrite update_len, repeat_length; exact BI). rewrite update_nth by (rewrite repeat_length; exact BI). rewrite Nat.eqb_refl.
  rewrite update_sum by (rewrite repeat_length; exact BI). rewrite nth_repeat, qsum_zeros. ring.
Qed.
(** A changepoint at the very end of the history (allowed by a changepoint range of 1) raises whenever the steps divide the history. *)
Theorem C250_end_refuted : forall n s, 0 < n -> historical (1 / inject_Z (Z.of_nat n)) [(1%Q, s)] = None.
Proof.
  intros n s N. set (d := (1 / inject_Z (Z.of_nat n))%Q). assert (NP : (0 < inject_Z (Z.of_nat n))%Q) by (change 0%Q with (inject_Z 0); rewrite <- Zlt_Qlt; lia).
  assert (GL : grid_length d = S n).
  { unfold grid_length. assert (E : ((1 + d) / d == inject_Z (Z.of_nat (S n)))%Q). { rewrite Nat2Z.inj_succ. unfold Z.succ. rewrite inject_Z_plus. change (inject_Z 1) with 1%Q. unfold d. field. lra. }
    rewrite (Qceiling_comp _ _ E), Qceiling_Z. lia. }
  unfold historical. cbn [map fst cells]. assert (C : cell d 1 = None); [|rewrite C; reflexivity].
  destruct (cell d 1) as [i|] eqn:E; [|reflexivity]. exfalso. unfold cell in E. apply find_seq_spec in E as (B & T & _). apply qleb_false in T. rewrite GL in B.
  unfold grid_time, d in T. assert (X : (inject_Z (Z.of_nat i) <= inject_Z (Z.of_nat n))%Q) by (rewrite <- Zle_Qle; lia).
  assert (Y : (inject_Z (Z.of_nat i) * (1 / inject_Z (Z.of_nat n)) <= 1)%Q); [|lra].
  setoid_replace (inject_Z (Z.of_nat i) * (1 / inject_Z (Z.of_nat n)))%Q with (inject_Z (Z.of_nat i) / inject_Z (Z.of_nat n))%Q by (field; lra). apply Qle_shift_div_r; lra.
Qed.
Example C250_case : exists row, historical (1 # 4) [(1 # 10, 2); (1 # 2, 3)]%Q = Some row /\ map Qred row = [0; 2; 0; 3; 0]%Q.
Proof. eexists. split; [reflexivity|]. reflexivity. Qed.

Print Assumptions C245_params.
Print Assumptions C246_frame.
Print Assumptions C246_accepted.
Print Assumptions C246_capacity.
Print Assumptions C247_steps.
Print Assumptions C247_history_partial.
Print Assumptions C247_history_refuted.
Print Assumptions C247_floor_refuted.
Print Assumptions C247_multivariate_refuted.
Print Assumptions C247_given_refuted.
Print Assumptions C248_bands.
Print Assumptions C248_contains_refuted.
Print Assumptions C248_samples.
Print Assumptions C249_draw.
Print Assumptions C249_history.
Print Assumptions C250_grid_partial.
Print Assumptions C250_lost_refuted.
Print Assumptions C250_end_refuted.
