(** C228 (training and test part of the meta data), C229 (the best parameters and the best model), C230 (labels of the
    predictability learner), C231 (its rows), C232 (its threshold) — specification, proofs and theorems. *)
From Coq Require Import List Bool Arith ZArith QArith Lia Lqa Permutation.
From Verif Require Import Common MetaModel.
Import ListNotations.
Open Scope nat_scope.

(** ** Specification *)
Definition real (x : num) (q : Q) : Prop := exists q', x = Fin q' /\ (q' == q)%Q.
Definition greatest (m : Q) (l : list Q) : Prop := In m l /\ forall x, In x l -> (x <= m)%Q.
(** the values of a series without NaN and infinities *)
Definition series_of (l : list (Z * Q)) : list (Z * num) := map (fun r => (fst r, Fin (snd r))) l.

(** ** Proofs *)
Lemma qlt_ok a b : qlt a b = true <-> (a < b)%Q.
Proof.
  unfold qlt. rewrite negb_true_iff. split; intros H.
  - apply Qnot_le_lt. intros L. apply Qle_bool_iff in L. congruence.
  - destruct (Qle_bool b a) eqn:E; [apply Qle_bool_iff in E; lra | reflexivity].
Qed.
Lemma qlt_no a b : qlt a b = false <-> (b <= a)%Q.
Proof.
  destruct (qlt a b) eqn:E.
  - apply qlt_ok in E. split; [discriminate | intros; lra].
  - split; [intros _ | reflexivity]. apply Qnot_lt_le. intros L. apply qlt_ok in L. congruence.
Qed.
Lemma qmaxl_spec l : l <> [] -> greatest (qmaxl l) l.
Proof.
  intros N. unfold qmaxl.
  assert (H : forall d l', (In (fold_right (fun x m => if Qle_bool m x then x else m) d l') (d :: l')) /\
              (d <= fold_right (fun x m => if Qle_bool m x then x else m) d l')%Q /\
              forall x, In x l' -> (x <= fold_right (fun x m => if Qle_bool m x then x else m) d l')%Q).
  { intros d l'. induction l' as [|y l' [A [B C]]]; [cbn; split; [left; reflexivity | split; [lra | intros ? []]] |].
    cbn [fold_right]. destruct (Qle_bool _ y) eqn:E.
    - apply Qle_bool_iff in E. split; [right; left; reflexivity |]. split; [lra |]. intros x [<-|I]; [lra |]. pose proof (C x I). lra.
    - assert (L : (y <= fold_right (fun x m => if Qle_bool m x then x else m) d l')%Q) by (apply Qnot_lt_le; intros G; assert (Qle_bool (fold_right (fun x m => if Qle_bool m x then x else m) d l') y = true) by (apply Qle_bool_iff; lra); congruence).
      split; [destruct A as [A|A]; [left; exact A | right; right; exact A] |]. split; [exact B |]. intros x [<-|I]; [exact L | apply C; exact I]. }
  destruct l as [|y l]; [congruence |]. cbn [hd]. destruct (H y (y :: l)) as [A [_ C]]. split; [| exact C].
  destruct A as [A|A]; [left; exact A | exact A].
Qed.
Lemma greatest_eq m m' l : greatest m l -> greatest m' l -> (m == m')%Q.
Proof. intros [A B] [C D]. apply Qle_antisym; [apply D; exact A | apply B; exact C]. Qed.

Lemma valid_ok ml ts : valid ml ts = true -> exists l, ts = series_of l /\ (ml <= Z.of_nat (length l))%Z /\ exists a b, In a (map snd l) /\ In b (map snd l) /\ ~ (a == b)%Q.
Proof.
  unfold valid. rewrite !andb_true_iff. intros [[A B] C].
  assert (S : forall ts, forallb finite (map snd ts) = true -> exists l, ts = series_of l).
  { clear. induction ts as [|[t x] ts IH]; intros H; [exists []; reflexivity |]. cbn in H. apply andb_true_iff in H as [H1 H2]. destruct x as [q| | |]; try discriminate.
    destruct (IH H2) as [l ->]. exists ((t, q) :: l). reflexivity. }
  destruct (S ts C) as [l ->]. exists l. split; [reflexivity |]. split.
  - apply negb_true_iff, Z.ltb_ge in A. unfold series_of in A. rewrite map_length in A. exact A.
  - unfold varied in B.
    assert (F : filter (fun x => match x with NaN => false | _ => true end) (map snd (series_of l)) = map Fin (map snd l)).
    { clear. induction l as [|[t q] l IH]; [reflexivity |]. cbn. f_equal. exact IH. }
    rewrite F in B. destruct l as [|[t q] l]; [discriminate |]. cbn [map snd] in B. apply existsb_exists in B as (y & I & D). apply in_map_iff in I as (b & <- & I).
    exists q, b. split; [left; reflexivity |]. split; [right; exact I |]. cbn [num_eqb] in D. apply negb_true_iff in D. intros E. apply Qeq_bool_iff in E. congruence.
Qed.
Lemma split_between n : 2 <= n -> 1 <= split_idx n < n.
Proof. intros H. unfold split_idx. split; [apply (Nat.div_le_lower_bound (4 * n) 5 1); lia | apply Nat.div_lt_upper_bound; lia]. Qed.

(** C228: an accepted series is long enough, has finite values, at least two of them different, and is cut into the first four
    fifths and the rest; neither part is empty. *)
Theorem C228_split ml sc ts tr te : prepare ml sc ts = Some (tr, te) ->
  (ml <= Z.of_nat (length ts))%Z /\
  (forall t x, In (t, x) ts -> exists q, x = Fin q) /\
  (exists a b, In (Fin a) (map snd ts) /\ In (Fin b) (map snd ts) /\ ~ (a == b)%Q) /\
  map fst tr ++ map fst te = map fst ts /\ length tr = 4 * length ts / 5 /\ tr <> [] /\ te <> [] /\
  (sc = false -> tr ++ te = ts).
Proof.
  unfold prepare. destruct (valid ml ts) eqn:V; [| discriminate]. intros E. cbv zeta in E. injection E as <- <-.
  destruct (valid_ok ml ts V) as (l & -> & L & a & b & Ia & Ib & D).
  set (d := if sc then scaled (series_of l) else series_of l).
  assert (Ld : length d = length (series_of l)) by (unfold d; destruct sc; [unfold scaled; rewrite map_length |]; reflexivity).
  assert (Fd : map fst d = map fst (series_of l)) by (unfold d; destruct sc; [unfold scaled; rewrite map_map |]; reflexivity).
  assert (N : 2 <= length l).
  { destruct l as [|x [|y l]]; [destruct Ia | | cbn; lia]. cbn in Ia, Ib. destruct Ia as [Ia|[]], Ib as [Ib|[]]. exfalso. apply D. rewrite <- Ia, <- Ib. reflexivity. }
  assert (LL : length (series_of l) = length l) by (unfold series_of; apply map_length).
  pose proof (split_between (length (series_of l)) ltac:(lia)) as B.
  split; [rewrite LL; exact L |]. split; [intros t x I; unfold series_of in I; apply in_map_iff in I as ([t' q] & I & _); injection I as _ <-; exists q; reflexivity |].
  split.
  { exists a, b. split; [| split; [| exact D]].
    - apply in_map_iff in Ia as (r & <- & Ia). apply in_map_iff. exists (fst r, Fin (snd r)). split; [reflexivity |]. unfold series_of. apply in_map_iff. exists r. split; [reflexivity | exact Ia].
    - apply in_map_iff in Ib as (r & <- & Ib). apply in_map_iff. exists (fst r, Fin (snd r)). split; [reflexivity |]. unfold series_of. apply in_map_iff. exists r. split; [reflexivity | exact Ib]. }
  split; [rewrite <- map_app, firstn_skipn; exact Fd |].
  assert (L1 : length (firstn (split_idx (length (series_of l))) d) = split_idx (length (series_of l))) by (rewrite firstn_length; lia).
  assert (L2 : length (skipn (split_idx (length (series_of l))) d) = length (series_of l) - split_idx (length (series_of l))) by (rewrite skipn_length; lia).
  split; [exact L1 |]. split; [intros E; rewrite E in L1; cbn [length] in L1; lia |]. split; [intros E; rewrite E in L2; cbn [length] in L2; lia |].
  intros ->. apply firstn_skipn.
Qed.

Lemma scaled_nth l i : i < length l -> nth_error (scaled (series_of l)) i = Some (nth i (map fst l) 0%Z, qdiv (nth i (map snd l) 0%Q) (qmaxl (map snd l))).
Proof.
  intros H. unfold scaled, series_of. cbv zeta. rewrite !map_map. cbn [fst snd fin].
  change (map (fun x : Z * Q => snd x) l) with (map (@snd Z Q) l).
  rewrite nth_error_map. rewrite (nth_error_nth' l (0%Z, 0%Q) H). cbn [option_map]. rewrite (map_nth fst l (0%Z, 0%Q)), (map_nth snd l (0%Z, 0%Q)). reflexivity.
Qed.
(** rescaling a series with a positive maximum: all values are divided by it, so that they are at most 1 and stay in order *)
Theorem C228_scaled_partial l m : greatest m (map snd l) -> (0 < m)%Q ->
  exists d, length d = length l /\ (forall i, i < length l -> nth_error (scaled (series_of l)) i = Some (nth i (map fst l) 0%Z, Fin (nth i d 0%Q)) /\ (nth i d 0%Q == nth i (map snd l) 0%Q / m)%Q /\ (nth i d 0%Q <= 1)%Q) /\
  (exists i, i < length l /\ (nth i d 0%Q == 1)%Q) /\
  forall i j, i < length l -> j < length l -> ((nth i d 0 < nth j d 0)%Q <-> (nth i (map snd l) 0 < nth j (map snd l) 0)%Q).
Proof.
  intros G P. assert (N : map snd l <> []) by (intros E; rewrite E in G; destruct G as [[] _]).
  pose proof (greatest_eq _ _ _ (qmaxl_spec _ N) G) as E. set (m' := qmaxl (map snd l)) in *. assert (P' : (0 < m')%Q) by lra.
  exists (map (fun x => x / m')%Q (map snd l)).
  assert (D : forall i, i < length l -> nth i (map (fun x => x / m')%Q (map snd l)) 0%Q = (nth i (map snd l) 0 / m')%Q).
  { intros i I. rewrite (nth_indep _ 0%Q (0 / m')%Q) by (rewrite !map_length; exact I). apply (map_nth (fun x => x / m')%Q). }
  assert (U : forall i, i < length l -> (nth i (map snd l) 0%Q <= m')%Q) by (intros i I; rewrite E; apply G; apply nth_In; rewrite map_length; exact I).
  split; [rewrite !map_length; reflexivity |]. split.
  - intros i I. rewrite (scaled_nth l i I), (D i I). fold m'. unfold qdiv. destruct (Qeq_bool m' 0) eqn:Z; [apply Qeq_bool_iff in Z; lra |].
    split; [reflexivity |]. split; [rewrite E; reflexivity |]. apply Qle_shift_div_r; [exact P' | pose proof (U i I); lra].
  - split.
    + destruct G as [G _]. apply (In_nth _ _ 0%Q) in G as (i & I & Hi). rewrite map_length in I. exists i. split; [exact I |]. rewrite (D i I), Hi, E. field. lra.
    + intros i j I J. rewrite (D i I), (D j J). split; intros H.
      * apply (Qmult_lt_r _ _ (/ m')); [apply Qinv_lt_0_compat; exact P' | exact H].
      * unfold Qdiv. apply Qmult_lt_r; [apply Qinv_lt_0_compat; exact P' | exact H].
Qed.
(** with a maximum of zero no value of the rescaled series is finite; with a negative maximum the order is reversed, and all
    values are at least 1 *)
Theorem C228_scaled_refuted l m : greatest m (map snd l) -> (m <= 0)%Q ->
  forall i j, i < length l -> j < length l ->
  exists x y, nth_error (scaled (series_of l)) i = Some (nth i (map fst l) 0%Z, x) /\ nth_error (scaled (series_of l)) j = Some (nth j (map fst l) 0%Z, y) /\
  ((m == 0)%Q -> forall q, x <> Fin q) /\
  ((m < 0)%Q -> (nth i (map snd l) 0 < nth j (map snd l) 0)%Q -> exists a b, x = Fin a /\ y = Fin b /\ (b < a)%Q /\ (1 <= b)%Q).
Proof.
  intros G P i j I J. assert (N : map snd l <> []) by (intros E; rewrite E in G; destruct G as [[] _]).
  pose proof (greatest_eq _ _ _ (qmaxl_spec _ N) G) as E. set (m' := qmaxl (map snd l)) in *.
  eexists _, _. split; [apply (scaled_nth l i I) |]. split; [apply (scaled_nth l j J) |]. fold m'. split.
  - intros Z q. unfold qdiv. assert (Z' : Qeq_bool m' 0 = true) by (apply Qeq_bool_iff; lra). rewrite Z'. destruct (Qeq_bool (nth i (map snd l) 0%Q) 0); [discriminate |]. destruct (Qle_bool 0 (nth i (map snd l) 0%Q)); discriminate.
  - intros Z L. unfold qdiv. assert (Z' : Qeq_bool m' 0 = false) by (destruct (Qeq_bool m' 0) eqn:Z'; [apply Qeq_bool_iff in Z'; lra | reflexivity]). rewrite Z'.
    eexists _, _. split; [reflexivity |]. split; [reflexivity |].
    assert (Pn : (0 < - m')%Q) by lra. pose proof (proj2 G (nth j (map snd l) 0%Q) ltac:(apply nth_In; rewrite map_length; exact J)) as U.
    assert (H : forall a, (a / m' == (- a) / (- m'))%Q) by (intros a; field; lra). rewrite (H (nth i (map snd l) 0%Q)), (H (nth j (map snd l) 0%Q)). split.
    + unfold Qdiv. apply Qmult_lt_r; [apply Qinv_lt_0_compat; exact Pn | lra].
    + apply Qle_shift_div_l; [exact Pn | lra].
Qed.
(** the training part of a rescaled series depends on the values of the test part *)
Theorem C228_unseen_refuted : exists a b tra tea trb teb, firstn 4 a = firstn 4 b /\
  prepare 5 true (series_of a) = Some (tra, tea) /\ prepare 5 true (series_of b) = Some (trb, teb) /\
  length tra = 4 /\ exists x y, nth_error (map snd tra) 0 = Some (Fin x) /\ nth_error (map snd trb) 0 = Some (Fin y) /\ ~ (x == y)%Q.
Proof.
  exists [(1%Z,1); (2%Z,2); (3%Z,2); (4%Z,2); (5%Z,4)]%Q, [(1%Z,1); (2%Z,2); (3%Z,2); (4%Z,2); (5%Z,8)]%Q.
  eexists _, _, _, _. split; [reflexivity |]. split; [vm_compute; reflexivity |]. split; [vm_compute; reflexivity |]. split; [reflexivity |].
  eexists _, _. split; [reflexivity |]. split; [reflexivity |]. intros H. vm_compute in H. discriminate.
Qed.
Example C228_case : exists tr te, prepare 5 true (series_of [(1%Z,1); (2%Z,2); (3%Z,2); (4%Z,2); (5%Z,4)]%Q) = Some (tr, te) /\ length tr = 4 /\ length te = 1.
Proof. eexists _, _. split; [vm_compute; reflexivity | split; reflexivity]. Qed.
Example C228_zero_case : valid 3 (series_of [(1, (-1)%Q); (2, 0%Q); (3, (-2)%Q)]%Z) = true /\ map snd (scaled (series_of [(1, (-1)%Q); (2, 0%Q); (3, (-2)%Q)]%Z)) = [NInf; NaN; NInf].
Proof. split; reflexivity. Qed.

(** ** C229 *)
Section Tune.
Variables P M F : Type.
Variable forecast : list (Z * num) -> P -> nat -> option F.
Variable metric : list num -> F -> option num.
Local Notation evaluation := (evaluation P F forecast metric).
Local Notation tune_single := (tune_single P F forecast metric).
Local Notation tune_all := (tune_all P M F forecast metric).

Lemma least_spec {A} (l : list (A * Q)) : match least l with
  | None => l = []
  | Some x => exists before after, l = before ++ x :: after /\ (forall y, In y before -> snd x < snd y)%Q /\ (forall y, In y after -> snd x <= snd y)%Q
  end.
Proof.
  induction l as [|z l IH]; [reflexivity |]. cbn [least]. destruct (least l) as [x|].
  - destruct IH as (b & a & -> & B & A'). destruct (qlt (snd x) (snd z)) eqn:E.
    + apply qlt_ok in E. exists (z :: b), a. split; [reflexivity |]. split; [| exact A']. intros y [<-|I]; [exact E | apply B; exact I].
    + apply qlt_no in E. exists [], (b ++ x :: a). split; [reflexivity |]. split; [intros ? [] |]. intros y I. apply in_app_iff in I as [I|[<-|I]]; [pose proof (B y I); lra | exact E | pose proof (A' y I); lra].
  - subst l. exists [], []. split; [reflexivity |]. split; intros ? [].
Qed.
Lemma finite_scores_in (tried : list (P * num)) p q : In (p, q) (finite_scores P tried) <-> In (p, Fin q) tried.
Proof.
  unfold finite_scores. rewrite in_flat_map. split.
  - intros ([p' x] & I & H). cbn [fst snd] in H. destruct x; [| destruct H ..]. destruct H as [H|[]]. injection H as -> ->. exact I.
  - intros I. exists (p, Fin q). split; [exact I | left; reflexivity].
Qed.
(** what [_tune_single] returns: parameters that were tried, their error on the test part, which is finite and not above any
    other; or nothing and inf if no tried parameters gave a finite error *)
Theorem C229_tuned train test tried :
  (exists p e, tune_single train test tried = (Some p, Fin e) /\ In p tried /\ evaluation train test p = Fin e /\
     forall p' e', In p' tried -> evaluation train test p' = Fin e' -> (e <= e')%Q) \/
  (tune_single train test tried = (None, PInf) /\ forall p e, In p tried -> evaluation train test p <> Fin e).
Proof.
  unfold MetaModel.tune_single. set (tr := map (fun p => (p, evaluation train test p)) tried).
  assert (T : forall p x, In (p, x) tr <-> In p tried /\ evaluation train test p = x).
  { intros p x. unfold tr. rewrite in_map_iff. split; [intros (p' & E & I); injection E as -> <-; split; [exact I | reflexivity] | intros [I <-]; exists p; split; [reflexivity | exact I]]. }
  pose proof (least_spec (finite_scores P tr)) as L. destruct (least (finite_scores P tr)) as [[p q]|].
  - destruct L as (b & a & E & B & A). left. exists p, q. split; [reflexivity |].
    assert (I : In (p, q) (finite_scores P tr)) by (rewrite E; apply in_app_iff; right; left; reflexivity). apply finite_scores_in, T in I as [I Ev]. split; [exact I |]. split; [exact Ev |].
    intros p' e' I' Ev'. assert (J : In (p', e') (finite_scores P tr)) by (apply finite_scores_in, T; split; assumption). rewrite E in J. apply in_app_iff in J as [J|[J|J]].
    + apply Qlt_le_weak. exact (B _ J).
    + injection J as _ <-. lra.
    + exact (A _ J).
  - right. split; [reflexivity |]. intros p e I Ev. assert (J : In (p, e) (finite_scores P tr)) by (apply finite_scores_in, T; split; assumption). rewrite L in J. destruct J.
Qed.

Definition no_better (a b : num) : Prop := match a, b with Fin x, Fin y => (x <= y)%Q | Fin _, PInf => True | PInf, PInf => True | _, _ => False end.
Lemma best_spec (l : list (M * (option P * num))) : (forall x, In x l -> (exists q, snd (snd x) = Fin q) \/ snd (snd x) = PInf) ->
  match best_entry P M l with None => l = [] | Some x => In x l /\ forall y, In y l -> no_better (snd (snd x)) (snd (snd y)) end.
Proof.
  induction l as [|z l IH]; intros H; [reflexivity |]. cbn [best_entry]. specialize (IH ltac:(intros; apply H; right; assumption)).
  assert (Rz : no_better (snd (snd z)) (snd (snd z))) by (destruct (H z (or_introl eq_refl)) as [[q ->]| ->]; cbn; [lra | exact I]).
  destruct (best_entry P M l) as [x|].
  - destruct IH as [Ix Hx].
    assert (Fz := H z (or_introl eq_refl)). assert (Fx := H x (or_intror Ix)).
    destruct (err_lt (snd (snd x)) (snd (snd z))) eqn:E.
    + split; [right; exact Ix |]. intros y [<-|Iy]; [| apply Hx; exact Iy].
      destruct Fz as [[qz Ez]|Ez], Fx as [[qx Ex]|Ex]; rewrite Ez, Ex in *; cbn in E |- *; try discriminate; try exact I. apply qlt_ok in E. lra.
    + split; [left; reflexivity |]. intros y [<-|Iy]; [exact Rz |]. specialize (Hx y Iy). assert (Fy := H y (or_intror Iy)).
      destruct Fz as [[qz Ez]|Ez], Fx as [[qx Ex]|Ex], Fy as [[qy Ey]|Ey]; rewrite Ez, Ex, Ey in *; cbn in E, Hx |- *; try discriminate; try exact I; try contradiction. apply qlt_no in E. lra.
  - subst l. split; [left; reflexivity |]. intros y [<-|[]]. exact Rz.
Qed.
(** the best model: its error with its tuned parameters is not above the error of any parameters tried for any model *)
Theorem C229_best train test models : models <> [] -> exists m, best_model P M (tune_all train test models) = Some m /\
  ((exists tried p e, In (m, tried) models /\ In p tried /\ evaluation train test p = Fin e /\
      forall m' tried' p' e', In (m', tried') models -> In p' tried' -> evaluation train test p' = Fin e' -> (e <= e')%Q) \/
   (forall m' tried' p' e', In (m', tried') models -> In p' tried' -> evaluation train test p' <> Fin e')).
Proof.
  intros N. unfold best_model.
  assert (H : forall x, In x (tune_all train test models) -> (exists q, snd (snd x) = Fin q) \/ snd (snd x) = PInf).
  { intros x I. unfold MetaModel.tune_all in I. apply in_map_iff in I as ([m tried] & <- & _). cbn [snd fst]. destruct (C229_tuned train test tried) as [(p & e & -> & _)|[-> _]]; [left; exists e; reflexivity | right; reflexivity]. }
  pose proof (best_spec _ H) as B. destruct (best_entry P M (tune_all train test models)) as [[m [op x]]|]; [| unfold MetaModel.tune_all in B; destruct models; [congruence | discriminate]].
  exists m. split; [reflexivity |]. destruct B as [I B]. unfold MetaModel.tune_all in I. apply in_map_iff in I as ([m0 tried] & E & I). cbn [fst snd] in E. injection E as -> E.
  assert (B' : forall m' tried', In (m', tried') models -> no_better x (snd (tune_single train test tried'))).
  { intros m' tried' I'. apply (B (m', tune_single train test tried')). unfold MetaModel.tune_all. apply in_map_iff. exists (m', tried'). split; [reflexivity | exact I']. }
  destruct (C229_tuned train test tried) as [(p & e & Ep & Ip & Ev & _)|[Ep No]].
  - left. rewrite Ep in E. injection E as <- <-. exists tried, p, e. split; [exact I |]. split; [exact Ip |]. split; [exact Ev |].
    intros m' tried' p' e' I' Ip' Ev'. specialize (B' m' tried' I'). destruct (C229_tuned train test tried') as [(p2 & e2 & E2 & _ & _ & U)|[_ No]]; [| exfalso; exact (No p' e' Ip' Ev')].
    rewrite E2 in B'. cbn in B'. pose proof (U p' e' Ip' Ev'). lra.
  - right. rewrite Ep in E. injection E as <- <-. intros m' tried' p' e' I' Ip' Ev'. specialize (B' m' tried' I'). destruct (C229_tuned train test tried') as [(p2 & e2 & E2 & _)|[_ No']]; [| exact (No' p' e' Ip' Ev')].
    rewrite E2 in B'. exact B'.
Qed.
(** if no model could be fitted and evaluated at all, the first one is still reported as the best, without parameters *)
Theorem C229_failed_refuted train test m tried rest :
  (forall m' tried' p, In (m', tried') ((m, tried) :: rest) -> In p tried' -> forecast train p (length test) = None) ->
  best_model P M (tune_all train test ((m, tried) :: rest)) = Some m /\
  In (m, (None, PInf)) (tune_all train test ((m, tried) :: rest)).
Proof.
  intros H. assert (T : forall m' tried', In (m', tried') ((m, tried) :: rest) -> tune_single train test tried' = (None, PInf)).
  { intros m' tried' I. destruct (C229_tuned train test tried') as [(p & e & _ & Ip & Ev & _)|[E _]]; [| exact E].
    exfalso. unfold MetaModel.evaluation in Ev. rewrite (H m' tried' p I Ip) in Ev. discriminate. }
  split.
  - unfold best_model. cbn [MetaModel.tune_all map best_entry fst snd]. rewrite (T m tried (or_introl eq_refl)).
    destruct (best_entry P M (map _ rest)) as [[m' [op x]]|] eqn:E; [| reflexivity].
    assert (X : x = PInf); [| subst x; reflexivity].
    pose proof (best_spec (tune_all train test rest)) as B. unfold MetaModel.tune_all in B. rewrite E in B.
    destruct B as [I _].
    + intros y I. apply in_map_iff in I as ([m1 t1] & <- & I). cbn [fst snd]. rewrite (T m1 t1 (or_intror I)). right. reflexivity.
    + apply in_map_iff in I as ([m1 t1] & E1 & I). cbn [fst snd] in E1. rewrite (T m1 t1 (or_intror I)) in E1. injection E1 as _ _ <-. reflexivity.
  - cbn [MetaModel.tune_all map fst snd]. left. rewrite (T m tried (or_introl eq_refl)). reflexivity.
Qed.
End Tune.
(** three models; parameters are the forecast; the error is the distance from the first test value *)
Example C229_case :
  let forecast := fun (_ : list (Z * num)) (p : option Q) (_ : nat) => p in
  let metric := fun (l : list num) (f : Q) => match l with Fin x :: _ => Some (Fin (if Qle_bool x f then f - x else x - f)) | _ => None end in
  best_model _ _ (tune_all _ _ _ forecast metric [] [(1%Z, Fin 5)] [(7%nat, [None; None]); (8%nat, [Some 9; Some 3]); (9%nat, [Some 1; None; Some 4; Some 6])]%Q) = Some 9.
Proof. reflexivity. Qed.

(** ** C230 *)
Section Entries.
Context {X : Type}.
(** if an error can be read wherever features are kept, then features and labels belong together *)
Theorem C230_aligned_partial (l : list (meta X)) threshold : (forall m, In m l -> hpt_ok m = true -> feats m <> None -> best_err m <> None) ->
  length (feature_rows l) = length (errors l) /\
  forall x y, In (x, y) (combine (feature_rows l) (map (label threshold) (errors l))) ->
    exists m e, In m l /\ feats m = Some x /\ best_err m = Some e /\ (y = true <-> match e with Fin q => (threshold < q)%Q | PInf => True | _ => False end).
Proof.
  induction l as [|m l IH]; intros H; [split; [reflexivity | intros ? ? []] |].
  destruct (IH ltac:(intros; apply H; [right|..]; assumption)) as [L C]. cbn [feature_rows errors flat_map]. fold (feature_rows l) (errors l).
  assert (C' : forall x y, In (x, y) (combine (feature_rows l) (map (label threshold) (errors l))) -> exists m0 e, In m0 (m :: l) /\ feats m0 = Some x /\ best_err m0 = Some e /\ (y = true <-> match e with Fin q => (threshold < q)%Q | PInf => True | _ => False end)).
  { intros x y I. destruct (C x y I) as (m0 & e & I0 & R). exists m0, e. split; [right; exact I0 | exact R]. }
  destruct (hpt_ok m) eqn:Eh; [| split; assumption]. destruct (feats m) as [x0|] eqn:Ef; [| split; assumption].
  destruct (best_err m) as [e0|] eqn:Ee; [| exfalso; exact (H m (or_introl eq_refl) Eh ltac:(rewrite Ef; discriminate) Ee)].
  cbn [app map length combine]. split; [f_equal; exact L |]. intros x y [E|I]; [| exact (C' x y I)]. injection E as <- <-.
  exists m, e0. split; [left; reflexivity |]. split; [exact Ef |]. split; [exact Ee |].
  destruct e0; cbn [label]; [apply qlt_ok | | |]; split; intros; try discriminate; try contradiction; reflexivity || exact I.
Qed.
(** an entry whose features are kept but whose error cannot be read: there is a row of features without label *)
Theorem C230_aligned_refuted (l : list (meta X)) : (exists m, In m l /\ hpt_ok m = true /\ feats m <> None /\ best_err m = None) ->
  length (errors l) < length (feature_rows l).
Proof.
  assert (W : forall l : list (meta X), length (errors l) <= length (feature_rows l)).
  { clear l. induction l as [|m l IH]; [cbn; lia |]. cbn [feature_rows errors flat_map]. fold (feature_rows l) (errors l). rewrite !app_length. destruct (hpt_ok m); [| cbn [length]; lia]. destruct (feats m), (best_err m); cbn [length]; lia. }
  induction l as [|m l IH]; intros (m0 & I & Eh & Ef & Ee); [destruct I |]. cbn [feature_rows errors flat_map]. fold (feature_rows l) (errors l). rewrite !app_length. destruct I as [<-|I].
  - rewrite Eh, Ee. destruct (feats m); [| congruence]. cbn [length]. pose proof (W l). lia.
  - specialize (IH (ex_intro _ m0 (conj I (conj Eh (conj Ef Ee))))). destruct (hpt_ok m); [| cbn [length]; lia]. destruct (feats m), (best_err m); cbn [length]; lia.
Qed.
End Entries.
Example C230_case : let l := [{| hpt_ok := true; feats := Some 1; best_err := Some (Fin (1#10)) |}; {| hpt_ok := false; feats := Some 2; best_err := Some (Fin 0) |}; {| hpt_ok := true; feats := Some 3; best_err := Some (Fin (3#10)) |}] in
  combine (feature_rows l) (map (label (2#10)) (errors l)) = [(1, false); (3, true)].
Proof. reflexivity. Qed.
Example C230_shift_case : let l := [{| hpt_ok := true; feats := Some 1; best_err := None |}; {| hpt_ok := true; feats := Some 3; best_err := Some (Fin (3#10)) |}] in
  combine (feature_rows l) (map (label (2#10)) (errors l)) = [(1, true)].
Proof. reflexivity. Qed.

(** ** C231 *)
Section Rows.
Context {A : Type}.
(** with a test part, every row is used once: for fitting, for validation or for the test *)
Theorem C231_rows_partial vs ts nv nt (rows : list A) perm1 perm2 : (forall l, Permutation (perm1 l) l) -> (forall l, Permutation (perm2 l) l) ->
  (0 < ts)%Q -> (ts < 1 - vs)%Q -> (0 < vs)%Q ->
  exists fit valid test, test_valid_rows vs ts nv nt rows perm1 perm2 = (fit, valid, Some test) /\ Permutation (fit ++ valid ++ test) rows /\
  length valid = Nat.min nv (length rows) /\ length test = Nat.min nt (length rows - length valid).
Proof.
  intros P1 P2 T1 T2 V. unfold test_valid_rows. cbv zeta.
  assert (E : Qle_bool ts 0 || Qle_bool 1 ts = false).
  { apply orb_false_iff. split; [destruct (Qle_bool ts 0) eqn:E; [apply Qle_bool_iff in E; lra | reflexivity] | destruct (Qle_bool 1 ts) eqn:E; [apply Qle_bool_iff in E; lra | reflexivity]]. }
  rewrite E. rewrite (proj2 (qlt_ok 0 ts) T1), (proj2 (qlt_ok ts (1 - vs)) T2). cbn [andb].
  eexists _, _, _. split; [reflexivity |]. split.
  - rewrite app_assoc. rewrite (Permutation_app_comm (skipn nt (perm2 (skipn nv (perm1 rows)))) (firstn nv (perm1 rows))), <- app_assoc.
    rewrite (Permutation_app_comm (skipn nt _) (firstn nt _)), firstn_skipn. rewrite (P2 (skipn nv (perm1 rows))), firstn_skipn. apply P1.
  - rewrite !firstn_length. rewrite (Permutation_length (P2 _)), skipn_length, (Permutation_length (P1 _)). split; lia.
Qed.
(** without one, the classifier is fitted to all rows, also those its threshold is then validated with *)
Theorem C231_rows_refuted vs ts nv nt (rows : list A) perm1 perm2 : (forall l, Permutation (perm1 l) l) ->
  (ts <= 0)%Q \/ (1 - vs <= ts)%Q -> 0 < nv -> rows <> [] ->
  exists valid, test_valid_rows vs ts nv nt rows perm1 perm2 = (rows, valid, None) /\ valid <> [] /\ forall x, In x valid -> In x rows.
Proof.
  intros P1 T N R. unfold test_valid_rows. cbv zeta. set (ts' := if Qle_bool ts 0 || Qle_bool 1 ts then 0%Q else ts).
  assert (E : qlt 0 ts' && qlt ts' (1 - vs) = false).
  { destruct (qlt 0 ts') eqn:E1; [| reflexivity]. cbn [andb]. apply qlt_ok in E1. unfold ts' in *. destruct (Qle_bool ts 0) eqn:E2; cbn [orb] in *; [lra |]. destruct (Qle_bool 1 ts); cbn [orb] in *; [lra |]. apply qlt_no. destruct T as [T|T]; [lra | exact T]. }
  rewrite E. eexists. split; [reflexivity |]. split.
  - intros Z. apply (f_equal (@length A)) in Z. rewrite firstn_length, (Permutation_length (P1 rows)) in Z. destruct rows; [congruence | cbn [length] in Z; lia].
  - intros x I. apply (Permutation_in _ (P1 rows)). rewrite <- (firstn_skipn nv). apply in_app_iff. left. exact I.
Qed.
End Rows.
Example C231_case : test_valid_rows (1#10) (2#10) 1 2 [0;1;2;3;4;5;6;7;8;9] (@rev nat) (@rev nat) = ([2;3;4;5;6;7;8], [9], Some [0;1]).
Proof. reflexivity. Qed.

(** ** C232 *)
Lemma count_le f g l : (forall x, f x = true -> g x = true) -> count f l <= count g l.
Proof.
  intros H. unfold count. induction l as [|x l IH]; [cbn; lia |]. cbn [filter]. destruct (f x) eqn:E; [rewrite (H x E); cbn [length]; lia |]. destruct (g x); cbn [length]; lia.
Qed.
Lemma ratio_le1 a b : a <= b -> (ratio a b <= 1)%Q.
Proof.
  intros H. unfold ratio. destruct b as [|b]; [assert (a = 0) by lia; subst; vm_compute; discriminate |].
  apply Qle_shift_div_r; [change 0%Q with (inject_Z 0); rewrite <- Zlt_Qlt; lia |]. rewrite Qmult_1_l, <- Zle_Qle. lia.
Qed.
Lemma prec_le1 l t : (prec_at l t <= 1)%Q.
Proof. apply ratio_le1, count_le. intros x H. apply andb_true_iff in H. apply H. Qed.
Lemma last_in {A} (l : list A) d : l <> [] -> In (last l d) l.
Proof. intros N. induction l as [|x l IH]; [congruence |]. cbn. destruct l; [left; reflexivity |]. right. apply IH. discriminate. Qed.

Section Threshold.
Variables (thr : list Q) (l : list (Q * bool)) (rt : Q).
Local Notation chosen := (choose_threshold (fst (curve thr l)) (snd (curve thr l)) thr rt).
Lemma curve_p i : i < length thr -> nth i (fst (curve thr l)) 0%Q = prec_at l (nth i thr 0%Q).
Proof. intros H. unfold curve. cbn [fst]. rewrite app_nth1 by (rewrite map_length; exact H). rewrite (nth_indep _ 0%Q (prec_at l 0%Q)) by (rewrite map_length; exact H). apply map_nth. Qed.
Lemma curve_r i : i < length thr -> nth i (snd (curve thr l)) 0%Q = rec_at l (nth i thr 0%Q).
Proof. intros H. unfold curve. cbn [snd]. rewrite app_nth1 by (rewrite map_length; exact H). rewrite (nth_indep _ 0%Q (rec_at l 0%Q)) by (rewrite map_length; exact H). apply map_nth. Qed.
Lemma curve_len : length (fst (curve thr l)) = length thr + 1.
Proof. unfold curve. cbn [fst]. rewrite app_length, map_length. reflexivity. Qed.
Lemma curve_p_last : nth (length thr) (fst (curve thr l)) 0%Q = 1%Q.
Proof. unfold curve. cbn [fst]. rewrite app_nth2 by (rewrite map_length; lia). rewrite map_length, Nat.sub_diag. reflexivity. Qed.
Lemma curve_r_last : nth (length thr) (snd (curve thr l)) 0%Q = 0%Q.
Proof. unfold curve. cbn [snd]. rewrite app_nth2 by (rewrite map_length; lia). rewrite map_length, Nat.sub_diag. reflexivity. Qed.

(** the chosen threshold has the recall that was asked for and the best precision among the thresholds with this recall — if
    some threshold has it, none of them with precision 1, and every threshold with that best precision has the recall *)
Theorem C232_threshold_partial : (0 < rt)%Q ->
  (exists t, In t thr /\ (rt <= rec_at l t)%Q) ->
  (forall t, In t thr -> (rt <= rec_at l t)%Q -> (prec_at l t < 1)%Q) ->
  (forall t t', In t thr -> In t' thr -> (rt <= rec_at l t)%Q -> (forall u, In u thr -> (rt <= rec_at l u)%Q -> (prec_at l u <= prec_at l t)%Q) -> (prec_at l t' == prec_at l t)%Q -> (rt <= rec_at l t')%Q) ->
  In chosen thr /\ (rt <= rec_at l chosen)%Q /\ forall t, In t thr -> (rt <= rec_at l t)%Q -> (prec_at l t <= prec_at l chosen)%Q.
Proof.
  intros R0 [t0 [I0 H0]] HP HU. unfold choose_threshold.
  set (ok := filter (fun i => Qle_bool rt (nth i (snd (curve thr l)) 0%Q)) (seq 0 (length (fst (curve thr l))))).
  assert (OK : forall i, In i ok <-> i < length thr /\ (rt <= rec_at l (nth i thr 0))%Q).
  { intros i. unfold ok. rewrite filter_In, in_seq, curve_len, Qle_bool_iff. split.
    - intros [A B]. destruct (Nat.eq_dec i (length thr)) as [->|D]; [rewrite curve_r_last in B; lra |]. rewrite curve_r in B by lia. split; [lia | exact B].
    - intros [A B]. rewrite curve_r by exact A. split; [lia | exact B]. }
  destruct (In_nth _ _ 0%Q I0) as (i0 & L0 & E0).
  assert (N : map (fun i => nth i (fst (curve thr l)) 0%Q) ok <> []).
  { intros E. apply map_eq_nil in E. assert (In i0 ok) by (apply OK; split; [exact L0 | rewrite E0; exact H0]). rewrite E in H. destruct H. }
  destruct (map (fun i => nth i (fst (curve thr l)) 0%Q) ok) as [|x r] eqn:EM; [congruence |]. rewrite <- EM in *. clear x r EM. cbv zeta.
  pose proof (qmaxl_spec _ N) as [GM GU]. set (m := qmaxl (map (fun i => nth i (fst (curve thr l)) 0%Q) ok)) in *.
  apply in_map_iff in GM as (im & Em & Im). apply OK in Im as Im'. destruct Im' as [Lm Rm]. rewrite curve_p in Em by exact Lm.
  assert (U : forall t, In t thr -> (rt <= rec_at l t)%Q -> (prec_at l t <= m)%Q).
  { intros t It Ht. destruct (In_nth _ _ 0%Q It) as (i & Li & Ei). rewrite <- Ei in *. rewrite <- (curve_p i Li). apply GU. apply (in_map (fun i => nth i (fst (curve thr l)) 0%Q)). apply OK. split; [exact Li | exact Ht]. }
  pose proof (HP (nth im thr 0%Q) (nth_In _ _ Lm) Rm) as M1. rewrite Em in M1.
  set (idx := positions (fun x => Qeq_bool x m) (fst (curve thr l))).
  assert (ID : forall i, In i idx <-> i < length thr /\ (prec_at l (nth i thr 0) == m)%Q).
  { intros i. unfold idx, positions. rewrite filter_In, in_seq, curve_len, Qeq_bool_iff. split.
    - intros [A B]. destruct (Nat.eq_dec i (length thr)) as [->|D]; [rewrite curve_p_last in B; lra |]. rewrite curve_p in B by lia. split; [lia | exact B].
    - intros [A B]. rewrite curve_p by exact A. split; [lia | exact B]. }
  assert (FA : forallb (fun i => i <? length thr) idx = true) by (apply forallb_forall; intros i I; apply ID in I; apply Nat.ltb_lt; apply I). rewrite FA.
  assert (NI : idx <> []) by (intros E; assert (In im idx) by (apply ID; split; [exact Lm | rewrite Em; reflexivity]); rewrite E in H; destruct H).
  pose proof (last_in idx 0 NI) as IL. apply ID in IL as [LL EL].
  split; [apply nth_In; exact LL |]. split.
  - apply (HU (nth im thr 0%Q) _ (nth_In _ _ Lm) (nth_In _ _ LL) Rm); rewrite Em; [exact U | exact EL].
  - intros t It Ht. rewrite EL. apply U; assumption.
Qed.
(** a threshold with the recall and with precision 1 makes the search fail: 0.5 is used, whatever the probabilities are *)
Theorem C232_perfect_refuted : (exists t, In t thr /\ (rt <= rec_at l t)%Q /\ (prec_at l t == 1)%Q) -> chosen = (1 # 2)%Q.
Proof.
  intros (t0 & I0 & H0 & P0). unfold choose_threshold.
  set (ok := filter (fun i => Qle_bool rt (nth i (snd (curve thr l)) 0%Q)) (seq 0 (length (fst (curve thr l))))).
  destruct (In_nth _ _ 0%Q I0) as (i0 & L0 & E0).
  assert (O0 : In i0 ok) by (unfold ok; rewrite filter_In, in_seq, curve_len, Qle_bool_iff, curve_r by exact L0; rewrite E0; split; [lia | exact H0]).
  destruct (map (fun i => nth i (fst (curve thr l)) 0%Q) ok) as [|x r] eqn:EM; [reflexivity |]. rewrite <- EM. assert (N : map (fun i => nth i (fst (curve thr l)) 0%Q) ok <> []) by (rewrite EM; discriminate). clear x r EM. cbv zeta.
  pose proof (qmaxl_spec _ N) as [GM GU]. set (m := qmaxl (map (fun i => nth i (fst (curve thr l)) 0%Q) ok)) in *.
  assert (M1 : (m == 1)%Q).
  { apply Qle_antisym.
    - apply in_map_iff in GM as (i & <- & Ii). unfold ok in Ii. rewrite filter_In, in_seq, curve_len in Ii. destruct Ii as [Ii _]. destruct (Nat.eq_dec i (length thr)) as [->|D]; [rewrite curve_p_last; lra |]. rewrite curve_p by lia. apply prec_le1.
    - rewrite <- P0, <- E0, <- (curve_p i0 L0). apply GU. apply (in_map (fun i => nth i (fst (curve thr l)) 0%Q)). exact O0. }
  destruct (forallb _ _) eqn:E; [| reflexivity]. exfalso. rewrite forallb_forall in E. specialize (E (length thr)). rewrite Nat.ltb_irrefl in E.
  assert (In (length thr) (positions (fun x => Qeq_bool x m) (fst (curve thr l)))); [| specialize (E H); discriminate].
  unfold positions. rewrite filter_In, in_seq, curve_len, Qeq_bool_iff, curve_p_last. split; [lia | lra].
Qed.
End Threshold.
(** "the recall of the trained classifier will be larger than recall_threshold" fails: a threshold of the same precision but less
    recall is preferred; and 0.5 may separate nothing although another threshold separates perfectly *)
Theorem C232_recall_refuted :
  (exists thr l, let t := choose_threshold (fst (curve thr l)) (snd (curve thr l)) thr (7#10) in
     (exists u, In u thr /\ (rec_at l u == 1)%Q) /\ In t thr /\ (rec_at l t < 7#10)%Q) /\
  (exists thr l, let t := choose_threshold (fst (curve thr l)) (snd (curve thr l)) thr (7#10) in
     (exists u, In u thr /\ rec_at l u == 1 /\ prec_at l u == 1)%Q /\ (rec_at l t == 0)%Q).
Proof.
  split.
  - exists [4#10; 5#10; 6#10; 7#10; 8#10; 9#10], [(9#10, false); (8#10, true); (7#10, false); (6#10, false); (5#10, true); (4#10, true)]. cbv zeta.
    split; [exists (4#10); split; [left; reflexivity | vm_compute; reflexivity] |]. split; [vm_compute; tauto | vm_compute; reflexivity].
  - exists [1#10; 4#10], [(4#10, true); (1#10, false)]. cbv zeta. split; [exists (4#10); split; [right; left; reflexivity | split; vm_compute; reflexivity] | vm_compute; reflexivity].
Qed.
(** the three uses of the threshold: on the curve "at least" is unpredictable; they agree but for a probability equal to it,
    which the test counts as predictable and the prediction as unpredictable *)
Theorem C232_use thr prob : (~ (prob == thr)%Q -> test_unpredictable thr prob = negb (pred_predictable thr prob) /\ Qle_bool thr prob = test_unpredictable thr prob) /\
  ((prob == thr)%Q -> test_unpredictable thr prob = false /\ pred_predictable thr prob = false /\ Qle_bool thr prob = true).
Proof.
  unfold test_unpredictable, pred_predictable. split.
  - intros D. destruct (qlt thr prob) eqn:A.
    + apply qlt_ok in A. assert (B : qlt prob thr = false) by (apply qlt_no; lra). rewrite B. split; [reflexivity |]. apply Qle_bool_iff. lra.
    + apply qlt_no in A. assert (L : (prob < thr)%Q) by (apply Qle_lteq in A as [A|A]; [exact A | exfalso; apply D; exact A]).
      rewrite (proj2 (qlt_ok _ _) L). split; [reflexivity |]. destruct (Qle_bool thr prob) eqn:E; [apply Qle_bool_iff in E; lra | reflexivity].
  - intros E. split; [apply qlt_no; lra |]. split; [apply qlt_no; lra | apply Qle_bool_iff; lra].
Qed.
Example C232_case : let thr := [2#10; 4#10; 6#10; 8#10] in let l := [(2#10, false); (4#10, true); (6#10, false); (8#10, true); (8#10, false); (6#10, true)] in
  let t := choose_threshold (fst (curve thr l)) (snd (curve thr l)) thr (7#10) in (t == 4#10)%Q /\ (rec_at l t == 1)%Q /\ (prec_at l t == 3#5)%Q.
Proof. cbv zeta. split; [vm_compute; reflexivity | split; vm_compute; reflexivity]. Qed.

Print Assumptions C228_split.
Print Assumptions C228_scaled_partial.
Print Assumptions C228_scaled_refuted.
Print Assumptions C228_unseen_refuted.
Print Assumptions C229_tuned.
Print Assumptions C229_best.
Print Assumptions C229_failed_refuted.
Print Assumptions C230_aligned_partial.
Print Assumptions C230_aligned_refuted.
Print Assumptions C231_rows_partial.
Print Assumptions C231_rows_refuted.
Print Assumptions C232_threshold_partial.
Print Assumptions C232_perfect_refuted.
Print Assumptions C232_recall_refuted.
Print Assumptions C232_use.
