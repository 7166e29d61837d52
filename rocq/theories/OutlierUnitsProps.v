(** Which observations are examined, and units: C106, C108. *)
From Verif Require Import Common BacktestModel RollingModel DTWModel MedianSpec MedianProofs RollingSpec RollingProofs RollingStatsProps OutlierModel OutlierSpec OutlierProps.
From Coq Require Import Sorted Permutation.
Open Scope nat_scope.

(** ** C106 *)
(** With a regular frequency every observation gets a score, in order. *)
Theorem C106_examined_partial : forall infer_freq fill decompose k rows out scores ts,
  (forall rows, length (fill rows) = length rows) ->
  (forall d t s r, decompose d = Some (t, s, r) -> length t = length d /\ length s = length d /\ length r = length d) ->
  infer_freq (map fst rows) = Some true -> clean_ts infer_freq fill decompose k rows = Some (out, scores, ts) ->
  ts = map fst rows /\ length scores = length rows.
Proof.
  intros infer_freq fill decompose k rows out scores ts Hf Hd I E. unfold clean_ts in E. rewrite I in E.
  destruct (mapM _ (fill rows)) as [y|] eqn:M; [|discriminate]. destruct (decompose _) as [[[t s] r]|] eqn:D; [|discriminate].
  injection E as _ <- <-. split; [reflexivity|]. rewrite map_length. apply mapM_id in M. pose proof (Hf rows) as L. rewrite M, map_length in L.
  destruct (Hd _ _ _ _ D) as (L1 & L2 & _). rewrite combine_length, map_length, L, Nat.min_id in L1, L2.
  destruct (strong _ _); rewrite minus_length; try rewrite minus_length; congruence.
Qed.
(** Otherwise observations off the daily grid are dropped: an arbitrarily large one is neither
    scored nor reported. *)
Definition c106_infer (l : list Z) : option bool := if Nat.ltb (length l) 3 then None else Some false.
Definition c106_fill (rows : list (Z * option Q)) : list (option Q) := interpolate (map snd rows).
Definition c106_decompose (d : list (Z * Q)) : option (list Q * list Q * list Q) :=
  Some (map (fun _ => 0%Q) d, map (fun _ => 0%Q) d, map snd d).
Definition c106_rows (x : Q) : list (Z * option Q) :=
  [((0)%Z, Some (1)%Q); ((day)%Z, Some (2)%Q); ((day + 1)%Z, Some (x)%Q); ((2 * day)%Z, Some (1)%Q); ((4 * day)%Z, Some (2)%Q)].
Theorem C106_examined_refuted : exists infer_freq fill decompose k,
  (forall d t s r, decompose d = Some (t, s, r) -> Forall2 (fun p q => (snd p == q)%Q) d (map (fun x => (fst (fst x) + snd (fst x) + snd x)%Q) (combine (combine t s) r))) /\
  forall x, exists rows t out scores ts, In (t, Some x) rows /\ StronglySorted Z.lt (map fst rows) /\
    clean_ts infer_freq fill decompose k rows = Some (out, scores, ts) /\ ~ In t ts /\ ~ In t out.
Proof.
  exists c106_infer, c106_fill, c106_decompose, 3%Q. split.
  - intros d t s r [= <- <- <-]. induction d as [|[a b] d IH]; cbn; constructor; [cbn; ring|exact IH].
  - intros x. set (d := [(0%Z, Some 1%Q); (day, Some 2%Q); ((2 * day)%Z, Some 1%Q); ((3 * day)%Z, None); ((4 * day)%Z, Some 2%Q)]).
    assert (Ed : daily (c106_rows x) = Some d) by (vm_compute; reflexivity).
    assert (N : ~ In (day + 1)%Z (map fst d)) by (unfold d, day; cbn [map fst In]; lia).
    destruct (mapM (fun v : option Q => v) (c106_fill d)) as [y|] eqn:M; [|vm_compute in M; discriminate].
    assert (E : clean_ts c106_infer c106_fill c106_decompose 3 (c106_rows x) = Some (finish 3 (map fst d) y (map (fun _ => 0%Q) (combine (map fst d) y)) (map (fun _ => 0%Q) (combine (map fst d) y)) (map snd (combine (map fst d) y)))).
    { rewrite clean_prep. unfold prep. change (c106_infer (map fst (c106_rows x))) with (Some false). cbv iota. rewrite Ed, M. reflexivity. }
    unfold finish in E. cbv zeta in E. exists (c106_rows x), (day + 1)%Z. eexists _, _, _. split; [right; right; left; reflexivity|].
    split; [unfold c106_rows, day; cbn [map fst]; repeat constructor|]. split; [exact E|]. split; [exact N|].
    intros C. apply in_map_iff in C as (p & Ep & C). apply filter_In in C as (C & _). apply N. destruct p as [t v]. apply in_combine_l in C. cbn [fst] in Ep. subst t. exact C.
Qed.

(** ** C108 *)
Definition aff (a b : Q) (x y : Q) : Prop := (y == a * x + b)%Q.
Definition oaff (a b : Q) (x y : option Q) : Prop :=
  match x, y with Some x, Some y => aff a b x y | None, None => True | _, _ => False end.
(** an additive decomposition that commutes with changes of unit and origin *)
Definition additive_units (decompose : list (Z * Q) -> option (list Q * list Q * list Q)) (a b : Q) : Prop :=
  forall d d', Forall2 (fun r r' => fst r' = fst r /\ aff a b (snd r) (snd r')) d d' ->
    match decompose d, decompose d' with
    | Some (t, s, r), Some (t', s', r') => Forall2 (aff a b) t t' /\ Forall2 (aff a 0) s s' /\ Forall2 (aff a 0) r r'
    | None, None => True
    | _, _ => False
    end.
Definition fill_units (fill : list (Z * option Q) -> list (option Q)) (a b : Q) : Prop :=
  forall rows rows', Forall2 (fun r r' => fst r' = fst r /\ oaff a b (snd r) (snd r')) rows rows' -> Forall2 (oaff a b) (fill rows) (fill rows').

Lemma quartile_ext k l l' v : Forall2 Qeq l l' -> quartile_of k l v -> quartile_of k l' v.
Proof.
  intros F (s & i & r & P & Hs & E & L & Ev). destruct (Permutation_Forall2 P F) as (s' & P' & F'). exists s', i, r. split; [exact P'|].
  split; [exact (sorted_forall2 _ _ F' Hs)|]. rewrite <- (forall2_len _ _ _ F). split; [exact E|]. split; [exact L|].
  rewrite Ev, (nth_forall2 _ _ i F'), (nth_forall2 _ _ (S i) F'). reflexivity.
Qed.
Lemma quart_units a b k l l' : (0 < a)%Q -> k <= 3 -> l <> [] -> Forall2 (aff a b) l l' -> (quart k l' == a * quart k l + b)%Q.
Proof.
  intros Ha Hk Hl F. apply (quartile_unique k l'); [apply quart_ok|]. apply (quartile_ext k (map (fun x => (a * x + b)%Q) l)).
  - clear - F. induction F; cbn; constructor; [symmetry; assumption|assumption].
  - apply (quartile_affine a b Ha k); [exact Hk|exact Hl|apply quart_ok].
Qed.
Lemma minus_units a b1 b2 : forall l l' m m', Forall2 (aff a b1) l l' -> Forall2 (aff a b2) m m' -> Forall2 (aff a (b1 - b2)) (minus l m) (minus l' m').
Proof.
  intros l l' m m' F. revert m m'. unfold minus. induction F as [|x y l l' E F IH]; intros m m' G; [constructor|].
  destruct G as [|u v m m' E' G]; [constructor|]. cbn. constructor; [|apply IH, G]. unfold aff in *. cbn. rewrite E, E'. ring.
Qed.
Lemma aff_ext a b b' l l' : (b == b')%Q -> Forall2 (aff a b) l l' -> Forall2 (aff a b') l l'.
Proof. intros E. induction 1; constructor; [unfold aff in *; rewrite <- E; assumption|assumption]. Qed.
Lemma nanvar_units a b l l' : (0 < a)%Q -> Forall2 (aff a b) l l' -> (nanvar l' == a * a * nanvar l)%Q.
Proof.
  intros Ha F. destruct l as [|x t].
  - inversion F; subst. assert (E : (nanvar [] == 0)%Q) by reflexivity. rewrite E. ring.
  - assert (Hl : x :: t <> []) by discriminate. set (l := x :: t) in *. clearbody l. assert (Hl' : l' <> []) by (intros ->; inversion F; subst; contradiction).
    apply (variance_unique l'); [exact Hl'|apply nanvar_ok, Hl'|]. 
    destruct (variance_affine a b l _ (nanvar_ok l Hl)) as (m & A & B). exists m.
    assert (G : Forall2 Qeq (map (fun x => (a * x + b)%Q) l) l') by (clear - F; induction F; cbn; constructor; [symmetry; assumption|assumption]).
    split; [eapply mean_ext; [exact G|reflexivity|exact A]|]. eapply mean_ext; [|reflexivity|exact B].
    clear - G. induction G as [|x1 y1 u1 v1 E G IH]; cbn; constructor; [rewrite E; reflexivity|exact IH].
Qed.
Lemma strong_units a b1 b2 r r' d d' : (0 < a)%Q -> Forall2 (aff a b1) r r' -> Forall2 (aff a b2) d d' -> strong r' d' = strong r d.
Proof.
  intros Ha F G. unfold strong. pose proof (nanvar_units _ _ _ _ Ha F) as E1. pose proof (nanvar_units _ _ _ _ Ha G) as E2.
  set (v := nanvar d) in *. set (v' := nanvar d') in *. set (u := nanvar r) in *. set (u' := nanvar r') in *. clearbody u u' v v'. clear - Ha E1 E2.
  assert (Haa : (0 < a * a)%Q) by nra. assert (Eb : Qeq_bool v' 0 = Qeq_bool v 0).
  { destruct (Qeq_bool v 0) eqn:E; [apply Qeq_bool_iff in E; apply Qeq_bool_iff; rewrite E2, E; ring|].
    destruct (Qeq_bool v' 0) eqn:E'; [|reflexivity]. apply Qeq_bool_iff in E'. rewrite E2 in E'. apply Qmult_integral in E' as [C|C]; [lra|]. apply Qeq_bool_iff in C. congruence. }
  rewrite Eb. destruct (Qeq_bool v 0) eqn:E; [reflexivity|]. cbn [negb andb]. assert (Hv : ~ (v == 0)%Q) by (intros C; apply Qeq_bool_iff in C; congruence).
  assert (Eq : (u' / v' == u / v)%Q) by (rewrite E1, E2; field; split; [exact Hv|lra]). rewrite Eq. reflexivity.
Qed.
Lemma filter_combine_units (a : Q) (P P' : Q -> bool) : forall ts r r', Forall2 (fun x y => P' y = P x) r r' ->
  map fst (filter (fun p : Z * Q => P' (snd p)) (combine ts r')) = map fst (filter (fun p : Z * Q => P (snd p)) (combine ts r)).
Proof.
  induction ts as [|t ts IH]; intros r r' F; [reflexivity|]. destruct F as [|x y r r' E F]; [reflexivity|]. cbn. rewrite E. destruct (P x); cbn; rewrite (IH _ _ F); reflexivity.
Qed.
Lemma qltb_ext (a a' b b' : Q) : (a < b <-> a' < b')%Q -> qltb a b = qltb a' b'.
Proof. intros H. destruct (qltb a b) eqn:E, (qltb a' b') eqn:E'; try reflexivity; [apply qltb_t, H, qltb_t in E|apply qltb_t, H, qltb_t in E']; congruence. Qed.
Lemma finish_units a b k ts y y' t t' s s' r r' : (0 < a)%Q -> Forall2 (aff a b) y y' -> Forall2 (aff a b) t t' -> Forall2 (aff a 0) s s' -> Forall2 (aff a 0) r r' ->
  fst (fst (finish k ts y' t' s' r')) = fst (fst (finish k ts y t s r)).
Proof.
  intros Ha Fy Ft Fs Fr. unfold finish. cbn [fst snd].
  rewrite (strong_units a 0 (b - b) r r' (minus y t) (minus y' t') Ha Fr (minus_units _ _ _ _ _ _ _ Fy Ft)).
  set (z := if strong r (minus y t) then minus y s else y). set (z' := if strong r (minus y t) then minus y' s' else y').
  assert (Fz : Forall2 (aff a b) z z').
  { unfold z, z'. destruct (strong _ _); [|exact Fy]. eapply aff_ext; [|apply (minus_units a b 0); eassumption]. ring. }
  assert (F : Forall2 (aff a 0) (minus z t) (minus z' t')) by (eapply aff_ext; [|apply (minus_units a b b); eassumption]; ring).
  set (e := minus z t) in *. set (e' := minus z' t') in *. clearbody e e'. destruct e as [|e0 e1]; [inversion F; subst; rewrite !combine_nil; reflexivity|].
  assert (Hl : e0 :: e1 <> []) by discriminate. set (e := e0 :: e1) in *. clearbody e.
  pose proof (quart_units a 0 1 e e' Ha ltac:(lia) Hl F) as Q1. pose proof (quart_units a 0 3 e e' Ha ltac:(lia) Hl F) as Q3.
  set (q1 := quart 1 e) in *. set (q3 := quart 3 e) in *. set (q1' := quart 1 e') in *. set (q3' := quart 3 e') in *. clearbody q1 q3 q1' q3'.
  apply (filter_combine_units a (fun x => qltb (q3 + k * (q3 - q1)) x || qltb x (q1 + - (k * (q3 - q1)))) (fun x => qltb (q3' + k * (q3' - q1')) x || qltb x (q1' + - (k * (q3' - q1'))))).
  clear - F Ha Q1 Q3. induction F as [|x x' e e' E F IH]; constructor; [|exact IH]. unfold aff in E.
  assert (E3 : (q3' + k * (q3' - q1') == a * (q3 + k * (q3 - q1)))%Q) by (rewrite Q1, Q3; ring).
  assert (E1 : (q1' + - (k * (q3' - q1')) == a * (q1 + - (k * (q3 - q1))))%Q) by (rewrite Q1, Q3; ring).
  set (h := (q3 + k * (q3 - q1))%Q) in *. set (h' := (q3' + k * (q3' - q1'))%Q) in *. set (l := (q1 + - (k * (q3 - q1)))%Q) in *. set (l' := (q1' + - (k * (q3' - q1')))%Q) in *. clearbody h h' l l'.
  f_equal; apply qltb_ext; rewrite E, ?E3, ?E1; split; intros; nra.
Qed.
(** mapM and the daily grid commute with the change of unit *)
Lemma mapM_units a b : forall l l', Forall2 (oaff a b) l l' ->
  match mapM (fun v : option Q => v) l, mapM (fun v : option Q => v) l' with Some y, Some y' => Forall2 (aff a b) y y' | None, None => True | _, _ => False end.
Proof.
  induction 1 as [|x y l l' E F IH]; cbn; [constructor|]. destruct x, y; cbn in E; try contradiction; [|exact I].
  destruct (mapM _ l), (mapM _ l'); try contradiction; [constructor; assumption|exact I].
Qed.
Lemma rows_fst a b rows rows' : Forall2 (fun r r' => fst r' = fst r /\ oaff a b (snd r) (snd r')) rows rows' -> map fst rows' = map (@fst Z (option Q)) rows.
Proof. induction 1 as [|x y l l' (E & _) F IH]; cbn; congruence. Qed.
Lemma lookup_units a b t rows rows' : Forall2 (fun r r' => fst r' = fst r /\ oaff a b (snd r) (snd r')) rows rows' -> oaff a b (lookup t rows) (lookup t rows').
Proof.
  unfold lookup. induction 1 as [|x y l l' (E & O) F IH]; cbn; [exact I|]. rewrite E. destruct (Z.eqb t (fst x)); [exact O|exact IH].
Qed.
Lemma daily_units a b rows rows' : Forall2 (fun r r' => fst r' = fst r /\ oaff a b (snd r) (snd r')) rows rows' ->
  match daily rows, daily rows' with Some d, Some d' => Forall2 (fun r r' => fst r' = fst r /\ oaff a b (snd r) (snd r')) d d' | None, None => True | _, _ => False end.
Proof.
  intros F. unfold daily. rewrite (rows_fst _ _ _ _ F). destruct (unique _); [|exact I].
  generalize (seq 0 (S (Z.to_nat ((zmax (map fst rows) - zmin (map fst rows)) / day)))). intros l. induction l as [|k l IH]; cbn; constructor; [|exact IH].
  cbn [fst snd]. split; [reflexivity|]. apply lookup_units, F.
Qed.
Lemma combine_units a b : forall ts y y', Forall2 (aff a b) y y' -> Forall2 (fun r r' : Z * Q => fst r' = fst r /\ aff a b (snd r) (snd r')) (combine ts y) (combine ts y').
Proof. induction ts as [|t ts IH]; intros y y' F; [constructor|]. destruct F as [|u v y y' E F]; [constructor|]. cbn. constructor; [split; [reflexivity|exact E]|apply IH, F]. Qed.
Lemma combine_ounits a b : forall ts y y', Forall2 (oaff a b) y y' -> Forall2 (fun r r' : Z * option Q => fst r' = fst r /\ oaff a b (snd r) (snd r')) (combine ts y) (combine ts y').
Proof. induction ts as [|t ts IH]; intros y y' F; [constructor|]. destruct F as [|u v y y' E F]; [constructor|]. cbn. constructor; [split; [reflexivity|exact E]|apply IH, F]. Qed.

(** With an additive decomposition the outliers do not depend on the unit and origin. *)
Theorem C108_units_partial : forall infer_freq fill decompose a b k times columns columns', (0 < a)%Q ->
  fill_units fill a b -> additive_units decompose a b -> Forall2 (Forall2 (oaff a b)) columns columns' ->
  outlier_detector infer_freq fill decompose k times columns' = outlier_detector infer_freq fill decompose k times columns.
Proof.
  intros infer_freq fill decompose a b k times columns columns' Ha Hf Hd F. unfold outlier_detector. induction F as [|c c' cs cs' Fc F IH]; [reflexivity|].
  cbn [map]. f_equal; [|exact IH]. clear IH F. rewrite !clean_prep. pose proof (combine_ounits a b times c c' Fc) as R. set (rows := combine times c) in *. set (rows' := combine times c') in *. clearbody rows rows'.
  unfold prep. rewrite (rows_fst _ _ _ _ R). destruct (infer_freq (map fst rows)) as [ok|]; [|reflexivity].
  assert (U : match (if ok then Some rows else daily rows), (if ok then Some rows' else daily rows') with
              | Some d, Some d' => Forall2 (fun r r' => fst r' = fst r /\ oaff a b (snd r) (snd r')) d d' | None, None => True | _, _ => False end)
    by (destruct ok; [exact R|apply daily_units, R]).
  destruct (if ok then Some rows else daily rows) as [d|], (if ok then Some rows' else daily rows') as [d'|]; try contradiction; [|reflexivity].
  pose proof (mapM_units a b _ _ (Hf _ _ U)) as M. rewrite (rows_fst _ _ _ _ U).
  destruct (mapM _ (fill d)) as [y|], (mapM _ (fill d')) as [y'|]; try contradiction; [|reflexivity]. cbn [option_map].
  pose proof (Hd _ _ (combine_units a b (map fst d) y y' M)) as D.
  destruct (decompose (combine (map fst d) y)) as [[[t s] r]|], (decompose (combine (map fst d) y')) as [[[t' s'] r']|]; try contradiction; [|reflexivity].
  destruct D as (D1 & D2 & D3). pose proof (finish_units a b k (map fst d) _ _ _ _ _ _ _ _ Ha M D1 D2 D3) as E.
  destruct (finish k (map fst d) y' t' s' r') as [[o' sc'] ts'], (finish k (map fst d) y t s r) as [[o sc] ts]. cbn in E. exact E.
Qed.

(** A multiplicative decomposition gives seasonal and residual ratios, which the code subtracts
    from the values: the outliers depend on the unit. *)
Definition multiplicative (decompose : list (Z * Q) -> option (list Q * list Q * list Q)) : Prop :=
  (forall d t s r, decompose d = Some (t, s, r) -> length t = length d /\ length s = length d /\ length r = length d /\
     forall i, i < length d -> (snd (nth i d (0%Z, 0%Q)) == nth i t 0 * nth i s 0 * nth i r 0)%Q) /\
  (forall a d d', (0 < a)%Q -> Forall2 (fun r r' : Z * Q => fst r' = fst r /\ (snd r' == a * snd r)%Q) d d' ->
     match decompose d, decompose d' with
     | Some (t, s, r), Some (t', s', r') => Forall2 (fun x y => y == a * x)%Q t t' /\ Forall2 Qeq s s' /\ Forall2 Qeq r r'
     | None, None => True
     | _, _ => False
     end).
Definition c108_pattern (i : nat) : Q := if Nat.even i then 1#2 else 3#2.
Definition c108_decompose (d : list (Z * Q)) : option (list Q * list Q * list Q) :=
  let m := qavg (map snd d) in
  if Qeq_bool m 0 then None
  else Some (map (fun _ => m) (seq 0 (length d)), map c108_pattern (seq 0 (length d)),
             map (fun i => snd (nth i d (0%Z, 0%Q)) / (m * c108_pattern i))%Q (seq 0 (length d))).
Lemma c108_pattern_pos i : (0 < c108_pattern i)%Q.
Proof. unfold c108_pattern. destruct (Nat.even i); reflexivity. Qed.
Lemma nth_map_seq0 (f : nat -> Q) n i : i < n -> nth i (map f (seq 0 n)) 0%Q = f i.
Proof. intros H. rewrite (nth_indep _ 0%Q (f 0)) by (rewrite map_length, seq_length; exact H). rewrite map_nth, seq_nth by exact H. reflexivity. Qed.
Lemma c108_multiplicative : multiplicative c108_decompose.
Proof.
  split.
  - intros d t s r E. unfold c108_decompose in E. cbv zeta in E. destruct (Qeq_bool _ 0) eqn:B; [discriminate|]. injection E as <- <- <-. rewrite !map_length, !seq_length.
    split; [reflexivity|]. split; [reflexivity|]. split; [reflexivity|]. intros i Hi. rewrite !nth_map_seq0 by exact Hi. pose proof (c108_pattern_pos i).
    field. split; [lra|]. intros C. apply Qeq_bool_iff in C. congruence.
  - intros a d d' Ha F. unfold c108_decompose. cbv zeta. assert (L : length d' = length d) by (clear - F; induction F; cbn; congruence).
    assert (E : (qavg (map snd d') == a * qavg (map snd d))%Q).
    { unfold qavg. rewrite !map_length, L. assert (S : (qsum (map snd d') == a * qsum (map snd d))%Q) by (clear - F; induction F as [|x y u v (_ & E) F IH]; cbn; [ring|rewrite E, IH; ring]).
      rewrite S. unfold Qdiv. ring. }
    set (m := qavg (map snd d)) in *. set (m' := qavg (map snd d')) in *. clearbody m m'.
    assert (Eb : Qeq_bool m' 0 = Qeq_bool m 0).
    { destruct (Qeq_bool m 0) eqn:E0; [apply Qeq_bool_iff in E0; apply Qeq_bool_iff; rewrite E, E0; ring|].
      destruct (Qeq_bool m' 0) eqn:E'; [|reflexivity]. apply Qeq_bool_iff in E'. rewrite E in E'. apply Qmult_integral in E' as [C|C]; [lra|]. apply Qeq_bool_iff in C. congruence. }
    rewrite Eb. destruct (Qeq_bool m 0) eqn:E0; [exact I|]. rewrite L. assert (Hm : ~ (m == 0)%Q) by (intros C; apply Qeq_bool_iff in C; congruence).
    assert (N : forall i, (snd (nth i d' (0%Z, 0%Q)) == a * snd (nth i d (0%Z, 0%Q)))%Q) by (clear - F; induction F as [|x y u v (_ & E) F IH]; intros [|i]; cbn; try ring; [exact E|apply IH]).
    assert (G : forall (R : Q -> Q -> Prop) (f g : nat -> Q) l, (forall i, R (f i) (g i)) -> Forall2 R (map f l) (map g l)) by (intros R f g l H; induction l; cbn; constructor; auto).
    split; [apply G; intros; exact E|]. split; [apply G; intros; reflexivity|]. apply G. intros i. rewrite N, E. pose proof (c108_pattern_pos i). field. repeat split; try lra; exact Hm.
Qed.
Definition c108_times : list Z := map Z.of_nat (seq 0 12).
Definition c108_column (a : Q) : list (option Q) := map (fun i => Some (a * (c108_pattern i + (if Nat.eqb i 5 then 1#10 else 0)))%Q) (seq 0 12).
Theorem C108_multiplicative_refuted : exists infer_freq fill decompose k a times c c',
  multiplicative decompose /\ (forall a b, fill_units fill a b) /\ (0 < a)%Q /\ Forall2 (oaff a 0) c c' /\
  outlier_detector infer_freq fill decompose k times [c] = [[5%Z]] /\
  outlier_detector infer_freq fill decompose k times [c'] = [[]].
Proof.
  exists (fun _ => Some true), (fun rows => map snd rows), c108_decompose, 3%Q, 100%Q, c108_times, (c108_column 1), (c108_column 100).
  split; [apply c108_multiplicative|]. split; [intros a b rows rows' F; induction F as [|x y u v (_ & E) F IH]; cbn; constructor; assumption|].
  split; [reflexivity|]. split; [unfold c108_column; generalize (seq 0 12); intros l; induction l as [|i l IH]; cbn [map]; constructor; [unfold oaff, aff; ring|exact IH]|].
  split; vm_compute; reflexivity.
Qed.

(** a series with a repeated pattern and one spike *)
Definition c41_times : list Z := map (fun i => (day * Z.of_nat i)%Z) (seq 0 9).
Definition c41_column : list (option Q) := map (fun x => Some (inject_Z x)) [1; 2; 1; 2; 40; 2; 1; 2; 1]%Z.
Example C41_case : outlier_detector (fun _ => Some true) c106_fill c106_decompose 3 c41_times [c41_column; []; map (fun _ => None) c41_column] = [[(4 * day)%Z]; []; []] /\
  prepared (fun _ => Some true) c106_fill (combine c41_times c41_column) c41_times (map inject_Z [1; 2; 1; 2; 40; 2; 1; 2; 1]%Z).
Proof. split; [vm_compute; reflexivity|]. exists (combine c41_times c41_column). split; [left; split; reflexivity|]. split; vm_compute; reflexivity. Qed.
(** the daily grid: day 3 is missing, the observation one instant after day 1 is off it *)
Example C106_case : daily_grid (c106_rows 7) [((0)%Z, Some (1)%Q); ((day)%Z, Some (2)%Q); ((2 * day)%Z, Some (1)%Q); ((3 * day)%Z, None); ((4 * day)%Z, Some (2)%Q)].
Proof.
  destruct (daily_spec (c106_rows 7)) as (A & _); [discriminate|]. destruct A as (d & E & G); [apply unique_nodup; vm_compute; reflexivity|].
  replace [((0)%Z, Some (1)%Q); ((day)%Z, Some (2)%Q); ((2 * day)%Z, Some (1)%Q); ((3 * day)%Z, None); ((4 * day)%Z, Some (2)%Q)] with d; [exact G|]. vm_compute in E. injection E as <-. reflexivity.
Qed.
Example C108_case : additive_units c106_decompose 2 0 /\ (forall b, fill_units (fun rows => map snd rows) 2 b) /\
  outlier_detector (fun _ => Some true) (fun rows => map snd rows) c106_decompose 3 c41_times [map (option_map (Qmult 2)) c41_column] = [[(4 * day)%Z]].
Proof.
  split; [|split].
  - intros d d' F. cbn. repeat split; clear - F; induction F as [|x y u v (_ & E) F IH]; cbn; constructor; try assumption; unfold aff; try ring.
  - intros b rows rows' F. induction F as [|x y u v (_ & E) F IH]; cbn; constructor; assumption.
  - vm_compute. reflexivity.
Qed.

Print Assumptions C106_examined_partial.
Print Assumptions C106_examined_refuted.
Print Assumptions C108_units_partial.
Print Assumptions C108_multiplicative_refuted.
