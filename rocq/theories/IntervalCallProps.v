(** C284: whole calls of the two-sample interval detectors.  Read with IntervalRunsSpec.v
    ([maximal_run]). *)
From Coq Require Import Reals Lra.
From Verif Require IntervalRunsProps.
From Verif Require Import Common IntervalRunsModel IntervalRunsSpec TestDecisionModel
  IntervalCallModel.
From Coq Require Import List Lia Sorted.
Open Scope R_scope.

(** ** Specification *)
Definition seen (hist : option (list (Z * row))) (data : list (Z * row)) : list (Z * row) :=
  match hist with Some h => h ++ data | None => data end.

(** The variance of the mean of each sample. *)
Definition mean_variance (k : kind) (value variance : R) (count : Z) (v : R) : Prop :=
  match k with
  | RealValued => v = variance / IZR count
  | Proportion => v = value * (1 - value) / IZR count
  | CountKind => v = value / IZR count
  | ArrivalTime => v = value ^ 2 / IZR count
  end.

(** The statistic of one row: how many standard errors the difference is above the effect. *)
Definition statistic_of (relative : bool) (k : kind) (r : row) (x : R) : Prop :=
  exists va vb, mean_variance k (r_a r) (r_va r) (r_na r) va /\ mean_variance k (r_b r) (r_vb r) (r_nb r) vb
  /\ if relative
     then x = (ln (Rmax (r_b r) EPS) - ln (Rmax (r_a r) EPS) - ln (1 + r_effect r))
              / sqrt (va / Rmax (r_a r ^ 2) EPS2 + vb / Rmax (r_b r ^ 2) EPS2)
     else x = (r_b r - r_a r - r_effect r) / sqrt (va + vb).

(** A row the documentation asks for. *)
Definition good_row (k : kind) (r : row) : Prop :=
  (0 < r_na r)%Z /\ (0 < r_nb r)%Z /\ 0 <= r_va r /\ 0 <= r_vb r
  /\ match k with
     | Proportion => 0 <= r_a r <= 1 /\ 0 <= r_b r <= 1
     | ArrivalTime => 0 < r_a r /\ 0 < r_b r
     | _ => True
     end.

Definition rows_of (l : list (Z * row)) : list row := map snd l.

(** ** Lemmas *)
Lemma le_true x y : le x y = true <-> x <= y.
Proof. unfold le. destruct (Rle_dec x y); split; auto; discriminate. Qed.
Lemma lt_true x y : lt x y = true <-> x < y.
Proof. unfold lt. destruct (Rlt_dec x y); split; auto; discriminate. Qed.

Lemma decision_rejects tt c r : decision tt c r = true <-> rejects tt c r.
Proof.
  unfold decision, rejects. destruct tt.
  - destruct (cv_lower c); [apply le_true|split; [discriminate|contradiction]].
  - destruct (cv_upper c); [rewrite le_true; split; intros HH; [apply Rle_ge|apply Rge_le]; exact HH|split; [discriminate|contradiction]].
  - destruct (cv_lower c), (cv_upper c); try (split; [discriminate|contradiction]).
    rewrite Bool.orb_true_iff, !le_true. split; (intros [H|H]; [left; exact H|right; (apply Rle_ge || apply Rge_le); exact H]).
Qed.

Lemma variance_spec k r : mean_variance k (r_a r) (r_va r) (r_na r) (fst (get_variance k r))
  /\ mean_variance k (r_b r) (r_vb r) (r_nb r) (snd (get_variance k r)).
Proof. destruct k; split; reflexivity. Qed.
Lemma test_point_spec relative k tt z r :
  statistic_of relative k r (tr_statistic (test_point relative k tt z r)).
Proof.
  destruct (variance_spec k r) as [Ha Hb]. unfold test_point.
  destruct (get_variance k r) as [va vb]. cbn [fst snd] in *. exists va, vb.
  split; [exact Ha|]. split; [exact Hb|].
  destruct relative; unfold relative_difference, absolute_difference; destruct tt; reflexivity.
Qed.

Lemma abs_crit ppf tt level : exists z, absolute_critical_value (mk_critical_value ppf tt level) = Some z.
Proof. destruct tt; eexists; reflexivity. Qed.

Lemma nth_map_any {A B} (f : A -> B) l i d e : (i < length l)%nat -> nth i (map f l) e = f (nth i l d).
Proof. intros H. rewrite (nth_indep _ e (f d)) by (rewrite map_length; exact H). apply map_nth. Qed.

(** The decisions of a call. *)
Definition mask_of (g : config) (level z : R) (all : list (Z * row)) : list bool :=
  map (decision (g_type g) (mk_critical_value (g_ppf g) (g_type g) level))
    (map (fun r => test_point (g_relative g) (g_kind g) (g_type g) z (snd r)) all).

Lemma call_inv g st hist data consolidate mask_scores pad resp :
  o_response (fit_predict g st hist data consolidate mask_scores pad) = Some resp ->
  exists duration level z reject,
    valid_schema (map snd data) = true
    /\ g_search g (st_duration st) (length (seen hist data)) = Some (duration, level)
    /\ hook (g_kind g) (g_ints g) (map snd (seen hist data)) = true
    /\ absolute_critical_value (mk_critical_value (g_ppf g) (g_type g) level) = Some z
    /\ (if consolidate then get_intervals (map fst (seen hist data)) pad (mask_of g level z (seen hist data)) = reject /\ reject <> None
        else reject = st_reject st)
    /\ o_state (fit_predict g st hist data consolidate mask_scores pad) = MkState (Some duration) reject
    /\ (let all' := map (fun r => (fst r, cache_variance (g_kind g) (snd r))) (seen hist data) in
        match hist with
        | Some _ => o_hist (fit_predict g st hist data consolidate mask_scores pad) = Some all'
                    /\ o_data (fit_predict g st hist data consolidate mask_scores pad) = data
        | None => o_hist (fit_predict g st hist data consolidate mask_scores pad) = None
                    /\ o_data (fit_predict g st hist data consolidate mask_scores pad) = all'
        end)
    /\ match reject with Some l => fits_in (length (seen hist data)) duration l = true | None => True end
    /\ resp = MkResponse (map fst (seen hist data))
         (if mask_scores then map Decision (mask_of g level z (seen hist data))
          else map (fun r => Statistic (tr_statistic r))
                 (map (fun r => test_point (g_relative g) (g_kind g) (g_type g) z (snd r)) (seen hist data)))
         (match reject with
          | Some l => convert_intervals_to_predictions (length (seen hist data)) duration l
          | None => repeat false (length (seen hist data)) end)
         (map (fun r => test_point (g_relative g) (g_kind g) (g_type g) z (snd r)) (seen hist data)).
Proof.
  unfold fit_predict. fold (seen hist data). set (all := seen hist data).
  destruct (valid_schema (map snd data)); cbn [negb]; [|discriminate].
  destruct (g_search g (st_duration st) (length all)) as [[duration level]|]; [|destruct hist; discriminate].
  destruct (hook (g_kind g) (g_ints g) (map snd all)); cbn [negb]; [|destruct hist; discriminate].
  destruct (absolute_critical_value (mk_critical_value (g_ppf g) (g_type g) level)) as [z|] eqn:Ez; [|destruct hist; discriminate].
  fold (mask_of g level z all). intros H. exists duration, level, z.
  destruct consolidate.
  - destruct (get_intervals (map fst all) pad (mask_of g level z all)) as [l|] eqn:El; [|destruct hist; discriminate].
    destruct (get_intervals (map fst all) pad (map negb (mask_of g level z all))) as [l'|]; [|destruct hist; discriminate].
    destruct (fits_in (length all) duration l) eqn:Ef; [|destruct hist; discriminate].
    exists (Some l). destruct hist; injection H as <-; cbn; repeat split; auto; discriminate.
  - destruct (st_reject st) as [l|] eqn:Er.
    + destruct (fits_in (length all) duration l) eqn:Ef; [|destruct hist; discriminate].
      exists (Some l). destruct hist; injection H as <-; cbn; repeat split; auto.
    + exists None. destruct hist; injection H as <-; cbn; repeat split; auto.
Qed.

(** C284: a call that returns has one row per row of history and data, in order.  Each score
    is the statistic of its row, and with consolidate_into_intervals a row is predicted
    exactly when it lies in a maximal run of rejecting rows of at least the duration. *)
Theorem C284_call : forall g st hist data mask_scores pad resp,
  o_response (fit_predict g st hist data true mask_scores pad) = Some resp ->
  let all := seen hist data in
  exists duration level mask,
    g_search g (st_duration st) (length all) = Some (duration, level)
    /\ p_times resp = map fst all
    /\ length (p_results resp) = length all /\ length (p_predicted resp) = length all /\ length mask = length all
    /\ (forall i t r, nth_error all i = Some (t, r) -> exists res,
          nth_error (p_results resp) i = Some res
          /\ statistic_of (g_relative g) (g_kind g) r (tr_statistic res)
          /\ (nth i mask false = true <-> rejects (g_type g) (mk_critical_value (g_ppf g) (g_type g) level) res)
          /\ nth_error (p_scores resp) i
             = Some (if mask_scores then Decision (nth i mask false) else Statistic (tr_statistic res)))
    /\ forall i, nth i (p_predicted resp) false = true <->
         exists s e, maximal_run mask s e /\ (s <= i <= e)%nat /\ (duration <= e - s + 1)%nat.
Proof.
  intros g st hist data mask_scores pad resp H all.
  destruct (call_inv _ _ _ _ _ _ _ _ H) as (d & lv & z & rj & _ & Hs & _ & _ & [Hg Hn] & _ & _ & _ & ->).
  fold all in Hs, Hg |- *. destruct rj as [l|]; [|congruence]. clear Hn.
  set (mask := mask_of g lv z all) in *.
  assert (length mask = length all) as Lm by (unfold mask, mask_of; rewrite !map_length; reflexivity).
  exists d, lv, mask. cbn [p_times p_results p_predicted p_scores].
  destruct (IntervalRunsProps.C02_flags (map fst all) pad mask l d 0 Hg) as [Lp _]. rewrite Lm in Lp.
  split; [exact Hs|]. split; [reflexivity|]. split; [rewrite map_length; reflexivity|].
  split; [exact Lp|]. split; [exact Lm|]. split.
  - intros i t r Hi.
    assert (i < length all)%nat as Hl by (apply nth_error_Some; congruence).
    exists (test_point (g_relative g) (g_kind g) (g_type g) z r).
    assert (nth i mask false = decision (g_type g) (mk_critical_value (g_ppf g) (g_type g) lv)
              (test_point (g_relative g) (g_kind g) (g_type g) z r)) as Em.
    { apply nth_error_nth. unfold mask, mask_of. rewrite !nth_error_map, Hi. reflexivity. }
    split; [rewrite nth_error_map, Hi; reflexivity|]. split; [apply test_point_spec|].
    split; [rewrite Em; apply decision_rejects|].
    destruct mask_scores.
    + rewrite nth_error_map. rewrite (nth_error_nth' mask false) by lia. reflexivity.
    + rewrite !nth_error_map, Hi. reflexivity.
  - intros i. destruct (IntervalRunsProps.C02_flags (map fst all) pad mask l d i Hg) as [_ F].
    rewrite Lm in F. exact F.
Qed.

(** C284 refuted: the scores are not those of the data's time stamps when there is history. *)
Theorem C284_times_refuted : forall g st h data consolidate mask_scores pad resp,
  h <> [] -> o_response (fit_predict g st (Some h) data consolidate mask_scores pad) = Some resp ->
  length (p_times resp) = (length h + length data)%nat /\ length (p_times resp) <> length data.
Proof.
  intros g st h data consolidate mask_scores pad resp Hh H.
  destruct (call_inv _ _ _ _ _ _ _ _ H) as (d & lv & z & rj & _ & _ & _ & _ & _ & _ & _ & _ & ->).
  cbn [p_times]. rewrite map_length. unfold seen. rewrite app_length.
  split; [reflexivity|]. destruct h; [congruence|]. cbn. lia.
Qed.

(** ** The caller's data *)
(** C284 refuted: the variances in the caller's object are overwritten.  For real values they
    are divided by the sample counts at every call, so after [m] calls they are the
    variances over the [m]-th power of the counts. *)
Definition shrunk (m : nat) (r r' : row) : Prop :=
  r_a r' = r_a r /\ r_b r' = r_b r /\ r_effect r' = r_effect r /\ r_na r' = r_na r /\ r_nb r' = r_nb r
  /\ r_va r' = r_va r / IZR (r_na r) ^ m /\ r_vb r' = r_vb r / IZR (r_nb r) ^ m.

(** [m] calls on the same object *)
Inductive calls (g : config) : nat -> state -> list (Z * row) -> list (Z * row) -> Prop :=
| calls_none st data : calls g 0 st data data
| calls_more m st data c s pad resp out :
    o_response (fit_predict g st None data c s pad) = Some resp ->
    calls g m (o_state (fit_predict g st None data c s pad)) (o_data (fit_predict g st None data c s pad)) out ->
    calls g (S m) st data out.

Lemma shrunk_zero r : shrunk 0 r r.
Proof. repeat split; cbn; field. Qed.
Lemma shrunk_step m r r' : r_na r <> 0%Z -> r_nb r <> 0%Z ->
  shrunk m (cache_variance RealValued r) r' -> shrunk (S m) r r'.
Proof.
  intros Na Nb (A & B & C & D & E & F & G). cbn in *. repeat split; auto.
  - rewrite F. cbn. field. split; [apply pow_nonzero|]; apply not_0_IZR; exact Na.
  - rewrite G. cbn. field. split; [apply pow_nonzero|]; apply not_0_IZR; exact Nb.
Qed.

Theorem C284_data_refuted : forall g m st data out,
  g_kind g = RealValued -> calls g m st data out ->
  Forall2 (fun p p' => fst p' = fst p /\ shrunk m (snd p) (snd p')) data out.
Proof.
  intros g m st data out Hk H. induction H as [st data|m st data c s pad resp out Hr Hc IH].
  - induction data as [|p l IHl]; constructor; auto. split; [reflexivity|apply shrunk_zero].
  - destruct (call_inv _ _ _ _ _ _ _ _ Hr) as (d & lv & z & rj & Hv & _ & _ & _ & _ & _ & [_ Hd] & _ & _).
    rewrite Hd in IH. rewrite Hk in IH. cbn [seen] in IH.
    unfold valid_schema in Hv. apply andb_prop in Hv. destruct Hv as [Hv _]. clear - IH Hv.
    revert out IH. induction data as [|p l IHl]; intros out IH; cbn [map] in IH.
    + inversion IH. constructor.
    + inversion IH as [|? p' ? l' [E1 E2] E3]; subst. cbn [fst snd] in E1, E2.
      cbn in Hv. apply andb_prop in Hv. destruct Hv as [H1 H2]. apply andb_prop in H1. destruct H1 as [Ha Hb].
      apply Z.ltb_lt in Ha, Hb. constructor; [|apply IHl; assumption].
      split; [exact E1|]. apply shrunk_step; [lia|lia|exact E2].
Qed.

Lemma sqrt_shrink s n : 0 < n -> 0 < s -> sqrt (s / n) = sqrt s / sqrt n.
Proof. intros Hn Hs. apply sqrt_div; Lra.lra. Qed.

(** C284 refuted: a second call with the same object is not the same call: with [n] values in
    both samples of a row its statistic is multiplied by the square root of [n]. *)
Theorem C284_repeat_refuted : forall g st data c s pad resp1 c2 s2 pad2 resp2 i t r n res1 res2,
  g_kind g = RealValued ->
  let first := fit_predict g st None data c s pad in
  o_response first = Some resp1 ->
  o_response (fit_predict g (o_state first) None (o_data first) c2 s2 pad2) = Some resp2 ->
  nth_error data i = Some (t, r) -> r_na r = n -> r_nb r = n -> 0 < r_va r -> 0 < r_vb r ->
  nth_error (p_results resp1) i = Some res1 -> nth_error (p_results resp2) i = Some res2 ->
  tr_statistic res2 = tr_statistic res1 * sqrt (IZR n).
Proof.
  intros g st data c s pad resp1 c2 s2 pad2 resp2 i t r n res1 res2 Hk first H1 H2 Hi Na Nb Va Vb R1 R2.
  unfold first in *. clear first.
  destruct (call_inv _ _ _ _ _ _ _ _ H1) as (d & lv & z & rj & Hv & _ & _ & _ & _ & _ & [_ Hd] & _ & ->).
  destruct (call_inv _ _ _ _ _ _ _ _ H2) as (d' & lv' & z' & rj' & _ & _ & _ & _ & _ & _ & _ & _ & ->).
  cbn [p_results seen] in R1, R2. rewrite Hd in R2. cbn [seen] in R2.
  rewrite nth_error_map, Hi in R1. rewrite !nth_error_map, Hi in R2. cbn [option_map snd fst] in R1, R2.
  rewrite Hk in R1, R2. injection R1 as <-. injection R2 as <-.
  assert (0 < n)%Z as Hn.
  { unfold valid_schema in Hv. apply andb_prop in Hv. destruct Hv as [Hv _].
    rewrite forallb_forall in Hv. specialize (Hv r).
    assert (In r (map snd data)) as I by (apply in_map_iff; exists (t, r); split; [reflexivity|exact (nth_error_In _ _ Hi)]).
    apply Hv, andb_prop in I. destruct I as [I _]. apply Z.ltb_lt in I. lia. }
  assert (0 < IZR n) as HN by (apply (IZR_lt 0); exact Hn).
  assert (forall x y, 0 < x -> 0 < y -> x / sqrt (y / IZR n) = x / sqrt y * sqrt (IZR n)) as S0.
  { intros x y Hx Hy. rewrite sqrt_shrink by assumption. field.
    split; apply Rgt_not_eq; apply sqrt_lt_R0; assumption. }
  assert (forall x y, 0 < y -> x / sqrt (y / IZR n) = x / sqrt y * sqrt (IZR n)) as SS.
  { intros x y Hy. rewrite sqrt_shrink by assumption. field.
    split; apply Rgt_not_eq; apply sqrt_lt_R0; assumption. }
  unfold test_point, get_variance, cache_variance.
  cbn [fst snd r_a r_b r_va r_vb r_na r_nb r_effect]. rewrite Na, Nb.
  unfold get_variance. cbn [fst snd]. rewrite Na, Nb.
  destruct (g_relative g).
  - set (A := Rmax (r_a r ^ 2) EPS2). set (B := Rmax (r_b r ^ 2) EPS2).
    assert (0 < EPS2) as HE by (unfold EPS2, EPS; apply pow_lt, Rinv_0_lt_compat; Lra.lra).
    assert (0 < A) as HA by (unfold A; eapply Rlt_le_trans; [exact HE|apply Rmax_r]).
    assert (0 < B) as HB by (unfold B; eapply Rlt_le_trans; [exact HE|apply Rmax_r]).
    unfold relative_difference. fold A B.
    replace (r_va r / IZR n / IZR n / A + r_vb r / IZR n / IZR n / B)
      with ((r_va r / IZR n / A + r_vb r / IZR n / B) / IZR n) by (field; repeat split; Lra.lra).
    destruct (g_type g); cbn [bounds tr_statistic]; apply SS;
      (apply Rplus_lt_0_compat; repeat apply Rdiv_lt_0_compat; assumption).
  - unfold absolute_difference.
    replace (r_va r / IZR n / IZR n + r_vb r / IZR n / IZR n)
      with ((r_va r / IZR n + r_vb r / IZR n) / IZR n) by (field; Lra.lra).
    destruct (g_type g); cbn [bounds tr_statistic]; apply SS;
      (apply Rplus_lt_0_compat; apply Rdiv_lt_0_compat; assumption).
Qed.

(** C284: for proportions, counts that are not negative and arrival times a repeated call with
    a given duration returns the same. *)
Lemma test_point_cached relative k tt z r : k <> RealValued ->
  test_point relative k tt z (cache_variance k r) = test_point relative k tt z r.
Proof. intros H. destruct k; [congruence| | |]; reflexivity. Qed.

Lemma map_cached k {B} (f : row -> B) l : (forall r, f (cache_variance k r) = f r) ->
  map (fun r : Z * row => f (snd r)) (map (fun r => (fst r, cache_variance k (snd r))) l)
  = map (fun r => f (snd r)) l.
Proof. intros H. rewrite map_map. apply map_ext. intros r. cbn [snd]. apply H. Qed.

Lemma cached_valid k data : k <> RealValued ->
  (forall p, In p data -> good_row k (snd p) /\ (k = CountKind -> 0 <= r_a (snd p) /\ 0 <= r_b (snd p))) ->
  valid_schema (map snd (map (fun r : Z * row => (fst r, cache_variance k (snd r))) data)) = true.
Proof.
  intros Hk H. unfold valid_schema. rewrite map_map. apply andb_true_intro. split; apply forallb_forall;
    intros r Hr; apply in_map_iff in Hr; destruct Hr as [p [<- Hp]]; cbn [snd];
    destruct (H p Hp) as [(Na & Nb & Va & Vb & G) C]; destruct p as [t r]; cbn [snd] in *.
  - cbn. rewrite (proj2 (Z.ltb_lt _ _) Na), (proj2 (Z.ltb_lt _ _) Nb). reflexivity.
  - assert (0 < IZR (r_na r)) as HA by (apply (IZR_lt 0); exact Na).
    assert (0 < IZR (r_nb r)) as HB by (apply (IZR_lt 0); exact Nb).
    assert (forall x y, 0 <= x -> 0 < y -> 0 <= x / y) as Q0.
    { intros x y Hx Hy. apply Rmult_le_pos; [exact Hx|]. left. apply Rinv_0_lt_compat. exact Hy. }
    unfold cache_variance. cbn [r_va r_vb].
    apply andb_true_intro; split; apply le_true; destruct k; try congruence; cbn [get_variance fst snd]; apply Q0; auto.
    + apply Rmult_le_pos; Lra.lra.
    + apply (proj1 (C eq_refl)).
    + apply pow2_ge_0.
    + apply Rmult_le_pos; Lra.lra.
    + apply (proj2 (C eq_refl)).
    + apply pow2_ge_0.
Qed.

Theorem C284_repeat_partial : forall g st data s pad resp d,
  g_kind g <> RealValued -> st_duration st = Some d ->
  (forall n d' lv, g_search g (Some d) n = Some (d', lv) -> d' = d) ->
  (forall p, In p data -> good_row (g_kind g) (snd p) /\ (g_kind g = CountKind -> 0 <= r_a (snd p) /\ 0 <= r_b (snd p))) ->
  let first := fit_predict g st None data true s pad in
  o_response first = Some resp ->
  o_response (fit_predict g (o_state first) None (o_data first) true s pad) = Some resp.
Proof.
  intros g st data s pad resp d Hk Hd Hsd Hgood first H. unfold first in *. clear first.
  destruct (call_inv _ _ _ _ _ _ _ _ H) as (d' & lv & z & rj & Hv & Hs & Hh & Hz & [Hg Hn] & Hst & [_ Hdata] & _ & _).
  cbn [seen] in *. rewrite Hst, Hdata.
  rewrite Hd in Hs. pose proof (Hsd _ _ _ Hs) as ->.
  rewrite <- H. unfold fit_predict.
  set (data' := map (fun r : Z * row => (fst r, cache_variance (g_kind g) (snd r))) data) in *.
  rewrite Hv. rewrite (cached_valid (g_kind g) data Hk Hgood : valid_schema (map snd data') = true).
  cbn [negb st_duration st_reject]. rewrite Hd.
  assert (length data' = length data) as L by (unfold data'; apply map_length). rewrite L, Hs.
  assert (hook (g_kind g) (g_ints g) (map snd data') = hook (g_kind g) (g_ints g) (map snd data)) as EH.
  { unfold data'. rewrite map_map. cbn [snd]. unfold hook.
    destruct (g_kind g); auto; clear; induction data as [|p l IH]; cbn in *; congruence. }
  rewrite EH, Hh. cbn [negb]. rewrite Hz.
  assert (map (fun r => test_point (g_relative g) (g_kind g) (g_type g) z (snd r)) data'
          = map (fun r => test_point (g_relative g) (g_kind g) (g_type g) z (snd r)) data) as ET.
  { unfold data'. apply (map_cached (g_kind g) (test_point (g_relative g) (g_kind g) (g_type g) z)).
    intros r. apply test_point_cached. exact Hk. }
  rewrite ET.
  assert (map fst data' = map fst data) as EF by (unfold data'; rewrite map_map; reflexivity).
  rewrite EF.
  set (mask := map (decision (g_type g) _) _).
  destruct (get_intervals (map fst data) pad mask) as [l|]; [|reflexivity].
  destruct (get_intervals (map fst data) pad (map negb mask)) as [l'|]; [|reflexivity].
  destruct (fits_in (length data) d l); reflexivity.
Qed.

(** C284 refuted: with consolidate_into_intervals=False the predictions are not the
    placeholder of zeros but those of the last call that consolidated, whatever the new
    data are. *)
Theorem C284_stale_refuted : forall g st hist data s pad resp1 hist2 data2 s2 pad2 resp2,
  (forall d n d' lv, g_search g (Some d) n = Some (d', lv) -> d' = d) ->
  let first := fit_predict g st hist data true s pad in
  o_response first = Some resp1 ->
  o_response (fit_predict g (o_state first) hist2 data2 false s2 pad2) = Some resp2 ->
  length (seen hist2 data2) = length (seen hist data) ->
  p_predicted resp2 = p_predicted resp1.
Proof.
  intros g st hist data s pad resp1 hist2 data2 s2 pad2 resp2 Hsd first H1 H2 HL. unfold first in *. clear first.
  destruct (call_inv _ _ _ _ _ _ _ _ H1) as (d & lv & z & rj & _ & _ & _ & _ & [_ Hn] & Hst & _ & _ & ->).
  rewrite Hst in H2.
  destruct (call_inv _ _ _ _ _ _ _ _ H2) as (d2 & lv2 & z2 & rj2 & _ & Hs2 & _ & _ & Hrj & _ & _ & _ & ->).
  cbn [st_duration st_reject p_predicted] in *. subst rj2. rewrite (Hsd _ _ _ _ Hs2), HL. reflexivity.
Qed.

(** C284: data with a sample count that is not positive or a negative variance are refused and
    nothing changes. *)
Theorem C284_refused : forall g st hist data c s pad t r,
  In (t, r) data -> ((r_na r <= 0)%Z \/ (r_nb r <= 0)%Z \/ r_va r < 0 \/ r_vb r < 0) ->
  fit_predict g st hist data c s pad = MkOutcome None st hist data.
Proof.
  intros g st hist data c s pad t r Hin Hbad. unfold fit_predict.
  assert (valid_schema (map snd data) = false) as ->; [|reflexivity].
  destruct (valid_schema (map snd data)) eqn:E; [|reflexivity]. exfalso.
  unfold valid_schema in E. apply andb_prop in E. destruct E as [E1 E2].
  rewrite forallb_forall in E1, E2.
  assert (In r (map snd data)) as I by (apply in_map_iff; exists (t, r); auto).
  specialize (E1 r I). specialize (E2 r I). apply andb_prop in E1, E2.
  destruct E1 as [A B], E2 as [C D]. apply Z.ltb_lt in A, B. apply le_true in C, D.
  destruct Hbad as [X|[X|[X|X]]]; try lia; Lra.lra.
Qed.

(** C284: values out of range, in the data or in the history, are refused; by then the data
    are in the caller's history object. *)
Theorem C284_range : forall g st hist data c s pad t r,
  In (t, r) (seen hist data) ->
  (g_kind g = Proportion /\ ~ (0 <= r_a r <= 1 /\ 0 <= r_b r <= 1)
   \/ g_kind g = ArrivalTime /\ ~ (0 < r_a r /\ 0 < r_b r)) ->
  valid_schema (map snd data) = true ->
  o_response (fit_predict g st hist data c s pad) = None
  /\ o_hist (fit_predict g st hist data c s pad) = option_map (fun h => h ++ data) hist.
Proof.
  intros g st hist data c s pad t r Hin Hbad Hv. unfold fit_predict. rewrite Hv. cbn [negb].
  fold (seen hist data).
  destruct (g_search g (st_duration st) (length (seen hist data))) as [[d lv]|]; [|destruct hist; split; reflexivity].
  assert (hook (g_kind g) (g_ints g) (map snd (seen hist data)) = false) as ->; [|destruct hist; split; reflexivity].
  assert (In r (map snd (seen hist data))) as I by (apply in_map_iff; exists (t, r); auto).
  destruct (hook (g_kind g) (g_ints g) (map snd (seen hist data))) eqn:E; [|reflexivity]. exfalso.
  destruct Hbad as [[Hk Hb]|[Hk Hb]]; rewrite Hk in E; unfold hook in E; rewrite forallb_forall in E; specialize (E r I).
  - rewrite !Bool.andb_true_iff, !le_true in E. apply Hb. Lra.lra.
  - rewrite !Bool.andb_true_iff, !lt_true in E. apply Hb. exact E.
Qed.

(** C284 refuted: the history is not checked: any sample counts and variances in it are
    accepted, and so are negative counts in a column of integers. *)
Theorem C284_unchecked_refuted : forall g st h data s pad,
  (g_kind g = RealValued \/ g_kind g = CountKind /\ g_ints g = true) ->
  valid_schema (map snd data) = true -> st_reject st = None ->
  g_search g (st_duration st) (length (h ++ data)) <> None ->
  exists resp, o_response (fit_predict g st (Some h) data false s pad) = Some resp
    /\ p_times resp = map fst (h ++ data).
Proof.
  intros g st h data s pad Hk Hv Hr Hs. unfold fit_predict. rewrite Hv. cbn [negb].
  destruct (g_search g (st_duration st) (length (h ++ data))) as [[d lv]|]; [|congruence].
  assert (hook (g_kind g) (g_ints g) (map snd (h ++ data)) = true) as ->.
  { destruct Hk as [->|[-> ->]]; reflexivity. }
  cbn [negb]. destruct (abs_crit (g_ppf g) (g_type g) lv) as [z ->]. rewrite Hr.
  eexists. split; reflexivity.
Qed.

(** C284: a table of rows within range, in order of time, is scored: the call returns. *)
Lemma sorted_nth_le l i j : StronglySorted Z.le l -> (i <= j < length l)%nat -> (nth i l 0 <= nth j l 0)%Z.
Proof.
  intros HS. revert i j. induction HS as [|x l HS IH HF]; intros i j Hij; [cbn in Hij; lia|].
  destruct i as [|i], j as [|j]; cbn [nth]; try lia.
  - rewrite Forall_forall in HF. apply HF. apply nth_In. cbn in Hij. lia.
  - apply IH. cbn in Hij. lia.
Qed.

Lemma intervals_exist time pad mask : mask <> [] -> length mask = length time -> (0 < pad)%Z ->
  StronglySorted Z.le time -> exists l, get_intervals time pad mask = Some l.
Proof.
  intros Hm HL Hp HS. destruct (get_intervals time pad mask) as [l|] eqn:E; [exists l; reflexivity|].
  exfalso. apply (IntervalRunsProps.C02_intervals_raise time pad mask Hm) in E.
  destruct E as (s & e & (A & B & _) & D). pose proof (sorted_nth_le time s e HS ltac:(lia)). lia.
Qed.

Lemma intervals_fit time pad mask d l : get_intervals time pad mask = Some l -> fits_in (length mask) d l = true.
Proof.
  intros H. unfold fits_in. apply forallb_forall. intros i Hi. apply Bool.orb_true_intro. right.
  apply Nat.ltb_lt. destruct (IntervalRunsProps.C02_anomaly_and_caution time pad mask l 0 H) as [A _].
  assert (In (iv_start_idx i, iv_end_idx i) (map idx_pair (anomaly_intervals 0 l))) as Hin.
  { apply in_map_iff. exists i. split; [reflexivity|]. apply filter_In. split; [exact Hi|reflexivity]. }
  apply A in Hin. destruct Hin as [(_ & B & _) _]. exact B.
Qed.

Theorem C284_returns : forall g st hist data mask_scores pad,
  seen hist data <> [] -> (forall p, In p (seen hist data) -> good_row (g_kind g) (snd p)) ->
  (g_kind g = CountKind -> g_ints g = true) ->
  StronglySorted Z.le (map fst (seen hist data)) -> (0 < pad)%Z ->
  g_search g (st_duration st) (length (seen hist data)) <> None ->
  o_response (fit_predict g st hist data true mask_scores pad) <> None.
Proof.
  intros g st hist data ms pad Hne Hgood Hint HS Hp Hs. unfold fit_predict. fold (seen hist data).
  assert (forall p, In p data -> In p (seen hist data)) as Sub.
  { intros p Hin. unfold seen. destruct hist; [apply in_or_app; right; exact Hin|exact Hin]. }
  assert (valid_schema (map snd data) = true) as ->.
  { unfold valid_schema. apply andb_true_intro. split; apply forallb_forall; intros r Hr;
      apply in_map_iff in Hr; destruct Hr as [p [<- Hpp]]; destruct (Hgood p (Sub p Hpp)) as (Na & Nb & Va & Vb & _);
      apply andb_true_intro; split.
    - apply Z.ltb_lt. exact Na.
    - apply Z.ltb_lt. exact Nb.
    - apply le_true. exact Va.
    - apply le_true. exact Vb. }
  cbn [negb]. set (all := seen hist data) in *.
  destruct (g_search g (st_duration st) (length all)) as [[d lv]|]; [|congruence].
  assert (hook (g_kind g) (g_ints g) (map snd all) = true) as ->.
  { unfold hook. destruct (g_kind g); [reflexivity| |apply Hint; reflexivity|]; apply forallb_forall; intros r Hr;
      apply in_map_iff in Hr; destruct Hr as [p [<- Hpp]]; destruct (Hgood p Hpp) as (_ & _ & _ & _ & G).
    - rewrite !Bool.andb_true_iff, !le_true. Lra.lra.
    - rewrite !Bool.andb_true_iff, !lt_true. exact G. }
  cbn [negb]. destruct (abs_crit (g_ppf g) (g_type g) lv) as [z ->].
  fold (mask_of g lv z all). set (mask := mask_of g lv z all).
  assert (length mask = length all) as Lm by (unfold mask, mask_of; rewrite !map_length; reflexivity).
  assert (forall m, length m = length all -> exists l, get_intervals (map fst all) pad m = Some l) as GI.
  { intros m Lm'. apply intervals_exist; auto; [|rewrite map_length; exact Lm'].
    intros ->. destruct all; [congruence|discriminate]. }
  destruct (GI mask Lm) as [l El]. destruct (GI (map negb mask) ltac:(rewrite map_length; exact Lm)) as [l' El'].
  rewrite El, El'. rewrite <- Lm, (intervals_fit _ _ _ d l El). destruct hist; discriminate.
Qed.

(** C284: the count detector refuses columns that are not of integer type. *)
Theorem C284_integers : forall g st hist data consolidate mask_scores pad,
  g_kind g = CountKind -> g_ints g = false ->
  o_response (fit_predict g st hist data consolidate mask_scores pad) = None.
Proof.
  intros g st hist data c s pad Hk Hi. unfold fit_predict. rewrite Hk, Hi. cbn [hook negb].
  destruct (valid_schema (map snd data)); cbn [negb]; [|reflexivity].
  destruct (g_search g (st_duration st) _) as [[d lv]|]; destruct hist; reflexivity.
Qed.

(** Two rows of 16 values, one-sided upper test at 2 standard errors: nine standard errors in
    the first row, none in the second; and the second call with the same object finds 36. *)
Definition case_config : config :=
  MkConfig RealValued true false OneSidedUpper (fun _ => 2) (fun _ _ => Some (1%nat, 1 / 20)).
Definition case_rows : list (Z * row) :=
  [(0%Z, MkRow 0 9 8 8 16 16 0); (60%Z, MkRow 0 0 8 8 16 16 0)].

Lemma case_statistic b : (b - 0 - 0) / sqrt (8 / 16 + 8 / 16) = b.
Proof. replace (8 / 16 + 8 / 16) with 1 by field. rewrite sqrt_1. field. Qed.

Example C284_case : exists resp,
  o_response (fit_predict case_config (MkState None None) None case_rows true false 1) = Some resp
  /\ p_times resp = [0; 60]%Z /\ p_scores resp = [Statistic 9; Statistic 0] /\ p_predicted resp = [true; false]
  /\ o_data (fit_predict case_config (MkState None None) None case_rows true false 1)
     = [(0%Z, MkRow 0 9 (8 / 16) (8 / 16) 16 16 0); (60%Z, MkRow 0 0 (8 / 16) (8 / 16) 16 16 0)].
Proof.
  unfold fit_predict, case_rows. cbn [map snd fst].
  assert (le 0 8 = true) as L8 by (apply le_true; Lra.lra).
  assert (valid_schema [MkRow 0 9 8 8 16 16 0; MkRow 0 0 8 8 16 16 0] = true) as ->.
  { unfold valid_schema. cbn [forallb r_na r_nb r_va r_vb]. rewrite L8. reflexivity. }
  cbn [negb g_search case_config hook g_kind g_type g_ints g_relative g_ppf length
       mk_critical_value absolute_critical_value cv_lower cv_upper].
  unfold test_point, get_variance, absolute_difference.
  cbn [fst snd r_a r_b r_va r_vb r_na r_nb r_effect bounds tr_statistic decision cv_upper].
  rewrite !case_statistic.
  assert (le 2 9 = true) as -> by (apply le_true; Lra.lra).
  assert (le 2 0 = false) as ->.
  { destruct (le 2 0) eqn:E; [apply le_true in E; Lra.lra|reflexivity]. }
  cbn -[Rdiv sqrt Rplus Rminus Rmult]. eexists. repeat split.
Qed.

Print Assumptions C284_call.
Print Assumptions C284_times_refuted.
Print Assumptions C284_data_refuted.
Print Assumptions C284_repeat_refuted.
Print Assumptions C284_repeat_partial.
Print Assumptions C284_stale_refuted.
Print Assumptions C284_refused.
Print Assumptions C284_range.
Print Assumptions C284_unchecked_refuted.

Print Assumptions C284_returns.
Print Assumptions C284_integers.
