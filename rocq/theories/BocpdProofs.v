(** Proofs for the BOCPD model. *)
From Verif Require Import Common BocpdModel BocpdSpec.
From Coq Require Import Lqa Lia FinFun Sorted.
Open Scope nat_scope.

(** ** sums grouped by run length *)
Lemma qsum_map_plus {A} (f g : A -> Q) l : (qsum (map (fun x => f x + g x) l) == qsum (map f l) + qsum (map g l))%Q.
Proof. induction l as [|x t IH]; cbn; [ring|]. rewrite IH. ring. Qed.
Lemma filter_map_comm {A B} (f : A -> B) p l : filter p (map f l) = map f (filter (fun x => p (f x)) l).
Proof. induction l as [|x t IH]; [reflexivity|]. cbn. rewrite IH. destruct (p (f x)); reflexivity. Qed.
Lemma sumn_qsum n f : (sumn n f == qsum (map f (seq 0 n)))%Q.
Proof.
  induction n as [|n IH]; [reflexivity|]. rewrite seq_S, map_app, qsum_app. cbn [sumn map qsum Nat.add]. rewrite IH. ring.
Qed.
Lemma group_by {A} (k : A -> nat) (f : A -> Q) (g : nat -> Q) n (l : list A) :
  (forall x, In x l -> k x < n) ->
  (qsum (map (fun x => f x * g (k x)) l) == sumn n (fun j => g j * qsum (map f (filter (fun x => Nat.eqb (k x) j) l))))%Q.
Proof.
  induction l as [|x t IH]; intros H.
  - cbn [map qsum filter]. symmetry. apply sumn_zero. intros. ring.
  - cbn [map qsum]. rewrite IH by (intros; apply H; right; assumption).
    assert (E : (f x * g (k x) == sumn n (fun j => g j * (if Nat.eqb (k x) j then f x else 0)))%Q).
    { rewrite (sumn_single n _ (k x)).
      - rewrite Nat.eqb_refl. ring.
      - apply H. left. reflexivity.
      - intros i Hi Ne. destruct (Nat.eqb_spec (k x) i); [congruence|ring]. }
    rewrite E, <- sumn_plus. apply sumn_ext. intros j _. cbn [filter]. destruct (Nat.eqb (k x) j); cbn [map qsum]; ring.
Qed.
Lemma run_le c : run c <= length c.
Proof. induction c as [|[] c IH]; cbn; lia. Qed.

Lemma messages_len h pred i : length (messages h pred i) = S i.
Proof.
  induction i as [|i IH]; [reflexivity|]. cbn [messages next_message]. unfold next_message, vmul.
  cbn [length]. rewrite !map_length, combine_length, map_length, seq_length, IH. lia.
Qed.
Lemma vmul_nth a b i : length a = length b -> nth i (vmul a b) 0%Q = (if Nat.ltb i (length a) then (nth i a 0 * nth i b 0)%Q else 0%Q).
Proof.
  unfold vmul. revert b i. induction a as [|x a IH]; intros [|y b] i L; try discriminate; [destruct i; reflexivity|].
  destruct i; [reflexivity|]. cbn [combine map nth length]. rewrite IH by (cbn in L; lia). reflexivity.
Qed.
Lemma vmul_as_map a b : length a = length b -> vmul a b = map (fun i => (nth i a 0 * nth i b 0)%Q) (seq 0 (length a)).
Proof.
  revert b. unfold vmul. induction a as [|x a IH]; intros [|y b] L; try discriminate; [reflexivity|].
  cbn [combine map length seq]. f_equal. rewrite IH by (cbn in L; lia). rewrite <- seq_shift, map_map. reflexivity.
Qed.

Lemma total_run_0 h pred i : (total_run h pred (S i) 0 ==
  qsum (map (fun c => weight h pred c * (pred (S i) (run c) * h)) (histories i)))%Q.
Proof.
  unfold total_run. cbn [histories]. rewrite filter_app, !filter_map_comm. cbn [run]. rewrite map_app, qsum_app, !map_map.
  assert (E1 : filter (fun x : list bool => Nat.eqb 0 0) (histories i) = histories i).
  { clear. induction (histories i) as [|x t IH]; [reflexivity|]. cbn [filter Nat.eqb] in *. rewrite IH. reflexivity. }
  assert (E2 : filter (fun x : list bool => Nat.eqb (S (run x)) 0) (histories i) = []).
  { clear. induction (histories i) as [|x t IH]; [reflexivity|]. cbn [filter Nat.eqb] in *. exact IH. }
  rewrite E1, E2. cbn [map qsum]. rewrite Qplus_0_r. apply qsum_ext. intros c Hc. apply histories_all in Hc.
  cbn [weight length]. rewrite Hc. ring.
Qed.
Lemma total_run_S h pred i r : (total_run h pred (S i) (S r) == total_run h pred i r * (pred (S i) r * (1 - h)))%Q.
Proof.
  unfold total_run. cbn [histories]. rewrite filter_app, !filter_map_comm. cbn [run]. rewrite map_app, qsum_app, !map_map.
  assert (E1 : filter (fun x : list bool => Nat.eqb 0 (S r)) (histories i) = []).
  { clear. induction (histories i) as [|x t IH]; [reflexivity|]. cbn [filter Nat.eqb] in *. exact IH. }
  rewrite E1. cbn [map qsum Nat.eqb]. rewrite Qplus_0_l.
  assert (E : forall l, (forall c, In c l -> length c = i) ->
    (qsum (map (fun x => weight h pred (false :: x)) (filter (fun x => Nat.eqb (run x) r) l))
     == qsum (map (weight h pred) (filter (fun c => Nat.eqb (run c) r) l)) * (pred (S i) r * (1 - h)))%Q).
  { induction l as [|c l IH]; intros Hl; [cbn; ring|]. cbn [filter]. destruct (Nat.eqb_spec (run c) r) as [Er|Er].
    - cbn [map qsum]. rewrite IH by (intros; apply Hl; right; assumption). cbn [weight length].
      rewrite (Hl c (or_introl eq_refl)), Er. ring.
    - apply IH. intros; apply Hl; right; assumption. }
  apply E. intros c Hc. apply histories_all, Hc.
Qed.
Lemma total_run_beyond h pred i r : i < r -> total_run h pred i r = 0%Q.
Proof.
  intros H. unfold total_run.
  replace (filter (fun c => Nat.eqb (run c) r) (histories i)) with (@nil (list bool)); [reflexivity|].
  symmetry. assert (G : forall l, (forall c, In c l -> length c = i) -> filter (fun c => Nat.eqb (run c) r) l = []).
  { induction l as [|c l IH]; intros Hl; [reflexivity|]. cbn [filter].
    pose proof (run_le c). pose proof (Hl c (or_introl eq_refl)).
    destruct (Nat.eqb_spec (run c) r); [lia|]. apply IH. intros; apply Hl; right; assumption. }
  apply G. intros c Hc. apply histories_all, Hc.
Qed.
Lemma total_split h pred i : (total h pred i == sumn (S i) (total_run h pred i))%Q.
Proof.
  unfold total. rewrite <- (qsum_ext (fun c => weight h pred c * (fun _ : nat => 1%Q) (run c))%Q (weight h pred)) by (intros; ring).
  rewrite (group_by run (weight h pred) (fun _ => 1%Q) (S i)).
  - apply sumn_ext. intros. unfold total_run. ring.
  - intros c Hc. apply histories_all in Hc. pose proof (run_le c). lia.
Qed.

(** the messages are the joint weights *)
Lemma messages_nth h pred i r : (nth r (messages h pred i) 0 == total_run h pred i r)%Q.
Proof.
  revert r. induction i as [|i IH]; intros r.
  - destruct r as [|[|r]]; vm_compute; reflexivity.
  - assert (L : length (map (pred (S i)) (seq 0 (S i))) = length (messages h pred i))
      by (rewrite map_length, seq_length, messages_len; reflexivity).
    cbn [messages]. unfold next_message. destruct r as [|r]; cbn [nth].
    + rewrite total_run_0. rewrite (group_by run (weight h pred) (fun j => pred (S i) j * h)%Q (S i)).
      2: { intros c Hc. apply histories_all in Hc. pose proof (run_le c). lia. }
      unfold change_point_prob. rewrite vmul_as_map by exact L. rewrite map_map, map_length, seq_length, <- sumn_qsum.
      apply sumn_ext. intros j Hj. rewrite (nth_indep _ 0%Q (pred (S i) 0)) by (rewrite map_length, seq_length; exact Hj).
      rewrite map_nth, seq_nth by exact Hj. cbn [Nat.add]. rewrite IH. unfold total_run. ring.
    + rewrite total_run_S. destruct (Nat.lt_ge_cases r (S i)) as [Hr|Hr].
      * set (f := fun x : Q => (x * (1 - h))%Q).
        rewrite (nth_indep _ 0%Q (f 0%Q)) by (rewrite map_length; unfold vmul; rewrite map_length, combine_length, L, messages_len; lia).
        rewrite map_nth, vmul_nth by exact L. rewrite map_length, seq_length.
        destruct (Nat.ltb_spec r (S i)); [|lia]. unfold f.
        rewrite (nth_indep _ 0%Q (pred (S i) 0)) by (rewrite map_length, seq_length; exact Hr).
        rewrite map_nth, seq_nth by exact Hr. cbn [Nat.add]. rewrite IH. ring.
      * rewrite nth_overflow by (rewrite map_length; unfold vmul; rewrite map_length, combine_length, L, messages_len; lia).
        rewrite total_run_beyond by lia. ring.
Qed.

Lemma evidence_eq h cp : (0 < h)%Q -> (evidence h cp == cp / h)%Q.
Proof. intros H. unfold evidence. field. lra. Qed.
Lemma hd_nth {A} (d : A) l : hd d l = nth 0 l d.
Proof. destruct l; reflexivity. Qed.
Lemma total_run_0_total h pred i :
  (total h pred (S i) * h == total_run h pred (S i) 0)%Q.
Proof.
  rewrite total_run_0. unfold total. cbn [histories]. rewrite map_app, qsum_app, !map_map.
  assert (E : forall (b : bool) (l : list (list bool)), (forall c, In c l -> length c = i) ->
     (qsum (map (fun x => weight h pred (b :: x)) l) == (if b then h else 1 - h) * qsum (map (fun c => weight h pred c * pred (S i) (run c)) l))%Q).
  { induction l as [|c l IH]; intros Hl; [cbn; ring|]. cbn [map qsum]. rewrite IH by (intros; apply Hl; right; assumption).
    cbn [weight length]. rewrite (Hl c (or_introl eq_refl)). destruct b; ring. }
  rewrite !E by (intros c Hc; apply histories_all, Hc).
  rewrite (qsum_ext (fun c => weight h pred c * (pred (S i) (run c) * h)) (fun c => h * (weight h pred c * pred (S i) (run c))))%Q by (intros; ring).
  rewrite qsum_scale. ring.
Qed.
Lemma evidence_total h pred i : (0 < h)%Q -> (evidence h (hd 0%Q (messages h pred (S i))) == total h pred (S i))%Q.
Proof.
  intros H. rewrite evidence_eq by exact H. rewrite hd_nth, messages_nth, <- total_run_0_total. field. lra.
Qed.

Lemma weight_pos h pred c : (0 < h < 1)%Q -> (forall t r, (0 < pred t r)%Q) -> (0 < weight h pred c)%Q.
Proof.
  intros Hh Hp. induction c as [|b c IH]; [reflexivity|]. cbn [weight].
  apply Qmult_lt_0_compat; [apply Qmult_lt_0_compat; [exact IH|apply Hp]|destruct b; lra].
Qed.
Lemma qsum_pos (l : list Q) : l <> [] -> (forall x, In x l -> 0 < x)%Q -> (0 < qsum l)%Q.
Proof.
  intros N H. destruct l as [|x t]; [congruence|]. cbn [qsum].
  assert (0 < x)%Q by (apply H; left; reflexivity).
  assert (0 <= qsum t)%Q by (apply qsum_nonneg; intros y Hy; apply Qlt_le_weak, H; right; exact Hy). lra.
Qed.
Lemma histories_ne n : histories n <> [].
Proof. intros E. assert (H : In (repeat true n) (histories n)) by (apply histories_all, repeat_length). rewrite E in H. exact H. Qed.
Lemma total_pos h pred i : (0 < h < 1)%Q -> (forall t r, (0 < pred t r)%Q) -> (0 < total h pred i)%Q.
Proof.
  intros Hh Hp. unfold total. apply qsum_pos.
  - intros E. apply map_eq_nil in E. exact (histories_ne i E).
  - intros x Hx. apply in_map_iff in Hx as (c & <- & _). apply weight_pos; assumption.
Qed.
Lemma total_run_nonneg h pred i r : (0 < h < 1)%Q -> (forall t r, (0 < pred t r)%Q) -> (0 <= total_run h pred i r)%Q.
Proof.
  intros Hh Hp. apply qsum_nonneg. intros x Hx. apply in_map_iff in Hx as (c & <- & _). apply Qlt_le_weak, weight_pos; assumption.
Qed.
Lemma run_false n : run (repeat false n) = n.
Proof. induction n; cbn; congruence. Qed.
Lemma run_tf a n : run (repeat false n ++ true :: a) = n.
Proof. induction n; cbn; congruence. Qed.
Lemma total_run_pos h pred i r : (0 < h < 1)%Q -> (forall t r, (0 < pred t r)%Q) -> r <= i -> (0 < total_run h pred i r)%Q.
Proof.
  intros Hh Hp Hr. apply qsum_pos.
  - intros E. apply map_eq_nil in E.
    set (c := repeat false r ++ (if Nat.eqb r i then [] else true :: repeat true (i - r - 1))).
    assert (H : In c (filter (fun c => Nat.eqb (run c) r) (histories i))).
    { apply filter_In. unfold c. destruct (Nat.eqb_spec r i) as [->|Ne].
      - rewrite app_nil_r, run_false, Nat.eqb_refl, histories_all, repeat_length. auto.
      - rewrite run_tf, Nat.eqb_refl, histories_all, app_length, repeat_length. cbn [length]. rewrite repeat_length. split; [lia|reflexivity]. }
    rewrite E in H. exact H.
  - intros x Hx. apply in_map_iff in Hx as (c & <- & _). apply weight_pos; assumption.
Qed.

(** entries of the returned matrix *)
Lemma posterior_len h pred i : length (posterior h pred i) = S i.
Proof. destruct i; [reflexivity|]. cbn [posterior]. rewrite map_length. apply messages_len. Qed.
Lemma pad_nth n l j : nth j (pad n l) 0%Q = nth j l 0%Q.
Proof.
  unfold pad. destruct (Nat.lt_ge_cases j (length l)); [apply app_nth1; assumption|].
  rewrite app_nth2 by assumption. rewrite (nth_overflow l) by assumption.
  destruct (Nat.lt_ge_cases (j - length l) (n - length l)); [apply nth_repeat|apply nth_overflow; rewrite repeat_length; assumption].
Qed.
Lemma pad_len n l : length l <= n -> length (pad n l) = n.
Proof. intros H. unfold pad. rewrite app_length, repeat_length. lia. Qed.
Lemma rt_row h pred T i : i < T -> nth i (rt_posterior h pred T) [] = pad T (posterior h pred i).
Proof.
  intros H. unfold rt_posterior. set (f := fun i => pad T (posterior h pred i)).
  rewrite (nth_indep _ [] (f 0)) by (rewrite map_length, seq_length; exact H).
  rewrite (map_nth f), seq_nth by exact H. reflexivity.
Qed.
Lemma rt_len h pred T : length (rt_posterior h pred T) = T.
Proof. unfold rt_posterior. rewrite map_length. apply seq_length. Qed.
Lemma rt_entry h pred T i r : i < T -> entry (rt_posterior h pred T) i r = nth r (posterior h pred i) 0%Q.
Proof. intros H. unfold entry. rewrite rt_row by exact H. apply pad_nth. Qed.
Lemma posterior_nth h pred i r : (0 < h < 1)%Q -> (forall t r, (0 < pred t r)%Q) ->
  (nth r (posterior h pred i) 0 == total_run h pred i r / total h pred i)%Q.
Proof.
  intros Hh Hp. destruct i as [|i].
  - destruct r as [|[|r]]; vm_compute; reflexivity.
  - cbn [posterior]. pose proof (evidence_total h pred i (proj1 Hh)) as E.
    set (ev := evidence h (hd 0%Q (messages h pred (S i)))) in *.
    set (f := fun x : Q => (x / ev)%Q).
    destruct (Nat.lt_ge_cases r (S (S i))) as [Hr|Hr].
    + rewrite (nth_indep _ 0%Q (f 0%Q)) by (rewrite map_length, messages_len; exact Hr).
      rewrite (map_nth f). unfold f. rewrite messages_nth, E. reflexivity.
    + rewrite nth_overflow by (rewrite map_length, messages_len; exact Hr).
      rewrite total_run_beyond by lia. unfold Qdiv. ring.
Qed.

(** ** change probabilities *)
Lemma set_nth_nth k v l j : nth j (set_nth k v l) 0%Q = if Nat.eqb j k && Nat.ltb k (length l) then v else nth j l 0%Q.
Proof.
  revert k j. induction l as [|x t IH]; intros k j.
  - cbn. destruct j; destruct k; cbn; try reflexivity; destruct (Nat.eqb _ _); reflexivity.
  - destruct k, j; cbn [set_nth nth]; try reflexivity. rewrite IH. reflexivity.
Qed.
Lemma set_nth_len k v l : length (set_nth k v l) = length l.
Proof. revert k. induction l as [|x t IH]; intros [|k]; cbn; auto. Qed.
Lemma fill_row M i : i < length M -> nth i (fill_diagonal M) [] = set_nth i 0%Q (nth i M []).
Proof.
  intros H. unfold fill_diagonal. set (f := fun p : nat * list Q => set_nth (fst p) 0%Q (snd p)).
  rewrite (nth_indep _ [] (f (0, []))) by (rewrite map_length, combine_length, seq_length; lia).
  rewrite (map_nth f), combine_nth by apply seq_length. rewrite seq_nth by exact H. reflexivity.
Qed.
Lemma fill_entry h pred T i j : i < T ->
  entry (fill_diagonal (rt_posterior h pred T)) i j = if Nat.eqb j i then 0%Q else entry (rt_posterior h pred T) i j.
Proof.
  intros H. unfold entry. rewrite fill_row by (rewrite rt_len; exact H). rewrite set_nth_nth.
  replace (Nat.ltb i (length (nth i (rt_posterior h pred T) []))) with true.
  - rewrite andb_true_r. reflexivity.
  - symmetry. apply Nat.ltb_lt. rewrite rt_row by exact H. rewrite pad_len; [exact H|]. rewrite posterior_len. lia.
Qed.
Lemma qmax2_spec a b : (a <= qmax2 a b)%Q /\ (b <= qmax2 a b)%Q /\ (qmax2 a b = a \/ qmax2 a b = b).
Proof.
  unfold qmax2. destruct (Qle_bool a b) eqn:E.
  - apply Qle_bool_iff in E. split; [exact E|]. split; [apply Qle_refl|auto].
  - assert (~ (a <= b)%Q) by (intros H; apply Qle_bool_iff in H; congruence).
    split; [apply Qle_refl|]. split; [lra|auto].
Qed.
Lemma vmax_spec l : l <> [] -> In (vmax l) l /\ forall x, In x l -> (x <= vmax l)%Q.
Proof.
  induction l as [|x t IH]; intros N; [congruence|]. destruct t as [|y t].
  - cbn. split; [auto|]. intros z [<-|[]]. apply Qle_refl.
  - destruct IH as [I1 I2]; [discriminate|]. change (vmax (x :: y :: t)) with (qmax2 x (vmax (y :: t))).
    destruct (qmax2_spec x (vmax (y :: t))) as (A & B & C). split.
    + destruct C as [->| ->]; [left; reflexivity|right; exact I1].
    + intros z [<-|Hz]; [exact A|]. apply Qle_trans with (vmax (y :: t)); [apply I2, Hz|exact B].
Qed.
Lemma where_above_spec thr l i : In i (where_above thr l) <-> i < length l /\ (thr < nth i l 0)%Q.
Proof.
  unfold where_above. rewrite filter_In, in_seq. split.
  - intros [H1 H2]. split; [lia|]. destruct (Qle_bool _ _) eqn:E; [discriminate|].
    apply Qnot_le_lt. intros H. apply Qle_bool_iff in H. congruence.
  - intros [H1 H2]. split; [lia|]. destruct (Qle_bool _ _) eqn:E; [|reflexivity].
    apply Qle_bool_iff in E. lra.
Qed.
Lemma sorted_seq_filter p a n : Sorted.StronglySorted lt (filter p (seq a n)).
Proof.
  revert a. induction n as [|n IH]; intros a; [constructor|]. cbn [seq filter]. destruct (p a); [|apply IH].
  constructor; [apply IH|]. apply Forall_forall. intros x Hx. apply filter_In in Hx as [Hx _]. apply in_seq in Hx. lia.
Qed.
Lemma agg_prob_nth h pred T i : i < T ->
  let M := rt_posterior h pred T in
  nth i (fst (agg_cppprob T M)) 0%Q = vmax (map (fun k => entry (fill_diagonal M) (i + k) k) (seq 0 (T - i))).
Proof.
  intros H M. unfold agg_cppprob. cbn [fst].
  set (f := fun i => vmax (map (fun k => entry (fill_diagonal M) (i + k) k) (seq 0 (T - i)))).
  rewrite (nth_indep _ 0%Q (f 0)) by (rewrite map_length, seq_length; exact H).
  rewrite (map_nth f), seq_nth by exact H. reflexivity.
Qed.
Lemma agg_prob_spec h pred T i : i < T ->
  let M := rt_posterior h pred T in let c := nth i (fst (agg_cppprob T M)) 0%Q in
  (i = 0 -> c = 0%Q)
  /\ (1 <= i -> (forall k, i + k < T -> (entry M (i + k) k <= c)%Q) /\ exists k, i + k < T /\ c = entry M (i + k) k).
Proof.
  intros H M c. pose proof (agg_prob_nth h pred T i H) as E. cbv zeta in E. fold M c in E.
  destruct (vmax_spec (map (fun k => entry (fill_diagonal M) (i + k) k) (seq 0 (T - i)))) as [V1 V2].
  { intros N. apply map_eq_nil in N. destruct (T - i) eqn:Z; [lia|discriminate]. }
  rewrite <- E in V1, V2. apply in_map_iff in V1 as (k0 & Ek & Hk). apply in_seq in Hk. split.
  - intros ->. rewrite <- Ek. cbn [Nat.add]. unfold M. rewrite fill_entry by lia. rewrite Nat.eqb_refl. reflexivity.
  - intros Hi. split.
    + intros k Hk'.
      assert (F : entry (fill_diagonal M) (i + k) k = entry M (i + k) k).
      { unfold M. rewrite fill_entry by exact Hk'. destruct (Nat.eqb_spec k (i + k)); [lia|reflexivity]. }
      apply V2. rewrite <- F. apply in_map_iff. exists k. split; [reflexivity|apply in_seq; lia].
    + exists k0. split; [lia|]. rewrite <- Ek. unfold M. rewrite fill_entry by lia.
      destruct (Nat.eqb_spec k0 (i + k0)); [lia|reflexivity].
Qed.
Lemma lag_probs_nth T lag M i : lag < T -> i < T ->
  nth i (lag_probs T lag M) 0%Q = if Nat.eqb i 0 then 0%Q else if Nat.ltb (i + lag) T then entry M (i + lag) lag else 0%Q.
Proof.
  intros HL Hi. unfold lag_probs. rewrite set_nth_nth. rewrite app_length, map_length, seq_length, repeat_length.
  replace (Nat.ltb 0 (T - lag + lag)) with true by (symmetry; apply Nat.ltb_lt; lia). rewrite andb_true_r.
  destruct (Nat.eqb i 0); [reflexivity|]. set (f := fun i0 => entry M i0 lag).
  destruct (Nat.ltb_spec (i + lag) T) as [H|H].
  - rewrite app_nth1 by (rewrite map_length, seq_length; lia).
    rewrite (nth_indep _ 0%Q (f 0)) by (rewrite map_length, seq_length; lia).
    rewrite (map_nth f), seq_nth by lia. unfold f. f_equal; lia.
  - rewrite app_nth2 by (rewrite map_length, seq_length; lia). apply nth_repeat.
Qed.

(** ** sums of rows *)
Lemma sumn_nth l n : length l <= n -> (sumn n (fun j => nth j l 0) == qsum l)%Q.
Proof.
  revert n. induction l as [|x t IH]; intros n H.
  - apply sumn_zero. intros i _. destruct i; reflexivity.
  - destruct n as [|n]; [cbn in H; lia|]. rewrite sumn_S_first. cbn [nth qsum]. rewrite IH by (cbn in H; lia). reflexivity.
Qed.
Lemma posterior_sum h pred i : (0 < h < 1)%Q -> (forall t r, (0 < pred t r)%Q) -> (qsum (posterior h pred i) == 1)%Q.
Proof.
  intros Hh Hp. rewrite <- (sumn_nth _ (S i)) by (rewrite posterior_len; lia).
  rewrite (sumn_ext _ _ (fun r => total_run h pred i r * / total h pred i)%Q) by (intros; apply posterior_nth; assumption).
  rewrite sumn_scale_r, <- total_split. pose proof (total_pos h pred i Hh Hp). field. lra.
Qed.
Lemma qsum_repeat0 n : (qsum (repeat 0%Q n) == 0)%Q.
Proof. induction n; cbn; [reflexivity|]. rewrite IHn. ring. Qed.
Lemma rt_row_sum h pred T i : (0 < h < 1)%Q -> (forall t r, (0 < pred t r)%Q) -> i < T ->
  (qsum (nth i (rt_posterior h pred T) []) == 1)%Q.
Proof.
  intros Hh Hp H. rewrite rt_row by exact H. unfold pad. rewrite qsum_app, qsum_repeat0, posterior_sum by assumption. ring.
Qed.
Lemma set_nth_sum k l : (qsum (set_nth k 0 l) == qsum l - nth k l 0)%Q.
Proof. revert k. induction l as [|x t IH]; intros [|k]; cbn [set_nth qsum nth]; [ring|ring|ring|]. rewrite IH. ring. Qed.

(** ** posterior predictive *)
Lemma predictive_step h pred i : (0 < h < 1)%Q -> (forall t r, (0 < pred t r)%Q) ->
  (qsum (vmul (map (pred (S i)) (seq 0 (S i))) (posterior h pred i)) == total h pred (S i) / total h pred i)%Q.
Proof.
  intros Hh Hp. rewrite vmul_as_map by (rewrite map_length, seq_length, posterior_len; reflexivity).
  rewrite map_length, seq_length, <- sumn_qsum. pose proof (total_pos h pred i Hh Hp) as P.
  rewrite (sumn_ext _ _ (fun r => (pred (S i) r * total_run h pred i r) * / total h pred i)%Q).
  2: { intros r Hr. rewrite posterior_nth by assumption. rewrite (nth_indep _ 0%Q (pred (S i) 0)) by (rewrite map_length, seq_length; exact Hr).
       rewrite map_nth, seq_nth by exact Hr. cbn [Nat.add]. unfold Qdiv. ring. }
  rewrite sumn_scale_r. unfold Qdiv. apply Qmult_comp; [|reflexivity].
  rewrite <- (Qmult_inj_r _ _ h) by lra. rewrite total_run_0_total, total_run_0.
  rewrite (group_by run (weight h pred) (fun j => pred (S i) j * h)%Q (S i)).
  2: { intros c Hc. apply histories_all in Hc. pose proof (run_le c). lia. }
  rewrite <- sumn_scale_r. apply sumn_ext. intros r _. unfold total_run. ring.
Qed.
Lemma predictive_total h pred T : (0 < h < 1)%Q -> (forall t r, (0 < pred t r)%Q) -> 2 <= T ->
  (posterior_predictive h pred T == total h pred (T - 1) / total h pred 1)%Q.
Proof.
  intros Hh Hp. induction T as [|i IH]; intros H; [lia|]. cbn [posterior_predictive].
  pose proof (total_pos h pred 1 Hh Hp) as P1.
  destruct (Nat.ltb_spec 1 i) as [Hi|Hi].
  - rewrite IH by lia. destruct i as [|i]; [lia|]. replace (S i - 1) with i by lia. replace (S (S i) - 1) with (S i) by lia.
    rewrite predictive_step by assumption. pose proof (total_pos h pred i Hh Hp) as P2. field. split; lra.
  - assert (i = 1) as -> by lia. cbn [posterior_predictive Nat.ltb Nat.leb]. change (2 - 1) with 1. field. lra.
Qed.

(** ** sufficient statistics *)
Lemma nk_feed_snoc lam xs x s : nk_feed lam (xs ++ [x]) s = nk_update lam x (nk_feed lam xs s).
Proof. revert s. induction xs as [|y t IH]; intros s; [reflexivity|]. cbn. apply IH. Qed.
Lemma suffix_app n (a b : list Q) : length b = n -> suffix n (a ++ b) = b.
Proof.
  intros <-. unfold suffix. rewrite app_length. replace (length a + length b - length b) with (length a) by lia.
  rewrite skipn_app, skipn_all, Nat.sub_diag. reflexivity.
Qed.
Lemma firstn_app_l {A} (a b : list A) n : length b = n -> firstn (length (a ++ b) - n) (a ++ b) = a.
Proof.
  intros <-. rewrite app_length. replace (length a + length b - length b) with (length a) by lia.
  rewrite firstn_app, firstn_all, Nat.sub_diag. cbn. apply app_nil_r.
Qed.
Lemma upd_suffix_app n f (a b : list Q) : length b = n -> upd_suffix n f (a ++ b) = a ++ map f b.
Proof.
  intros H. unfold upd_suffix. rewrite firstn_app_l by exact H. f_equal. f_equal.
  change (skipn (length (a ++ b) - n) (a ++ b)) with (suffix n (a ++ b)). apply suffix_app, H.
Qed.
Lemma repeat_snoc {A} (x : A) n : repeat x (S n) = repeat x n ++ [x].
Proof. induction n; [reflexivity|]. cbn in *. rewrite <- IHn. reflexivity. Qed.
Lemma set_suffix_suffix n v l : length v = n -> n <= length l -> suffix n (set_suffix n v l) = v /\ length (set_suffix n v l) = length l.
Proof.
  intros H1 H2. unfold set_suffix. split; [apply suffix_app, H1|]. rewrite app_length, firstn_length. lia.
Qed.
Definition nk_inv (maxT : nat) (lam0 lam : Q) (xs : list Q) (s : nk) : Prop :=
  let k := length xs in
  nk_n s = k /\ length (nk_mean s) = maxT /\ length (nk_var s) = maxT
  /\ exists P N, nk_prec s = repeat lam0 (maxT - k) ++ P /\ nk_num s = repeat 0%Q (maxT - k) ++ N
    /\ length P = k /\ length N = k
    /\ (forall r, r < k -> (nth r P 0 == lam0 + inject_Z (Z.of_nat (S r)) * lam)%Q
                        /\ (nth r N 0 == lam * qsum (lastn (S r) xs))%Q)
    /\ (1 <= k -> suffix k (nk_mean s) = map (fun p => (fst p / snd p)%Q) (combine N P)
                /\ suffix k (nk_var s) = map (fun p => (1 / p + 1 / lam)%Q) P).
Lemma lastn_snoc (xs : list Q) x r : lastn (S r) (xs ++ [x]) = lastn r xs ++ [x].
Proof.
  unfold lastn. rewrite app_length. cbn [length]. replace (length xs + 1 - S r) with (length xs - r) by lia.
  rewrite skipn_app. replace (length xs - r - length xs) with 0 by lia. reflexivity.
Qed.
Lemma nk_inv_feed maxT mu0 lam0 lam xs : length xs <= maxT -> nk_inv maxT lam0 lam xs (nk_feed lam xs (nk_init maxT mu0 lam0)).
Proof.
  induction xs as [|x xs IH] using rev_ind; intros H.
  - split; [reflexivity|]. cbn [nk_feed nk_init nk_mean nk_var]. rewrite !repeat_length. split; [reflexivity|]. split; [reflexivity|].
    exists [], []. cbn [nk_prec nk_num length]. rewrite Nat.sub_0_r, !app_nil_r.
    split; [reflexivity|]. split; [reflexivity|]. split; [reflexivity|]. split; [reflexivity|]. split; [intros r Hr; lia|lia].
  - rewrite app_length in H. cbn [length] in H. destruct (IH ltac:(lia)) as (E0 & E1 & E2 & P & N & EP & EN & LP & LN & V & _).
    rewrite nk_feed_snoc. set (s := nk_feed lam xs (nk_init maxT mu0 lam0)) in *. set (k := length xs) in *.
    assert (R : forall v : Q, repeat v (maxT - k) = repeat v (maxT - S k) ++ [v]).
    { intros v. replace (maxT - k) with (S (maxT - S k)) by lia. apply repeat_snoc. }
    assert (EP' : nk_prec s = repeat lam0 (maxT - S k) ++ (lam0 :: P)) by (rewrite EP, R, <- app_assoc; reflexivity).
    assert (EN' : nk_num s = repeat 0%Q (maxT - S k) ++ (0%Q :: N)) by (rewrite EN, R, <- app_assoc; reflexivity).
    unfold nk_inv. rewrite app_length. fold k. cbn [length]. replace (k + 1) with (S k) by lia. unfold nk_update. rewrite E0.
    set (prec := upd_suffix (S k) (fun p => (p + lam)%Q) (nk_prec s)). set (num := upd_suffix (S k) (fun p => (p + x * lam)%Q) (nk_num s)).
    assert (Ep : prec = repeat lam0 (maxT - S k) ++ map (fun p => (p + lam)%Q) (lam0 :: P)).
    { unfold prec. rewrite EP'. apply upd_suffix_app. cbn. lia. }
    assert (En : num = repeat 0%Q (maxT - S k) ++ map (fun p => (p + x * lam)%Q) (0%Q :: N)).
    { unfold num. rewrite EN'. apply upd_suffix_app. cbn. lia. }
    set (P' := map (fun p => (p + lam)%Q) (lam0 :: P)) in *. set (N' := map (fun p => (p + x * lam)%Q) (0%Q :: N)) in *.
    assert (LP' : length P' = S k) by (unfold P'; rewrite map_length; cbn; lia).
    assert (LN' : length N' = S k) by (unfold N'; rewrite map_length; cbn; lia).
    assert (Sp : suffix (S k) prec = P') by (rewrite Ep; apply suffix_app, LP').
    assert (Sn : suffix (S k) num = N') by (rewrite En; apply suffix_app, LN').
    rewrite Sp, Sn. cbn [nk_n nk_mean nk_var nk_prec nk_num].
    destruct (set_suffix_suffix (S k) (map (fun p => (fst p / snd p)%Q) (combine N' P')) (nk_mean s)) as [M1 M2];
      [rewrite map_length, combine_length; lia|lia|].
    destruct (set_suffix_suffix (S k) (map (fun p => (1 / p + 1 / lam)%Q) P') (nk_var s)) as [W1 W2];
      [rewrite map_length; lia|lia|].
    split; [reflexivity|]. split; [rewrite M2; exact E1|]. split; [rewrite W2; exact E2|].
    exists P', N'. split; [exact Ep|]. split; [exact En|]. split; [exact LP'|]. split; [exact LN'|]. split; [|split; [exact M1|exact W1]].
    intros r Hr.
    assert (G : forall (c : Q) (d : Q) (l : list Q), r < length (d :: l) -> (nth r (map (fun p => (p + c)%Q) (d :: l)) 0 == nth r (d :: l) 0 + c)%Q).
    { intros c d l Hl. set (f := fun p : Q => (p + c)%Q). rewrite (nth_indep _ 0%Q (f 0%Q)) by (rewrite map_length; exact Hl).
      rewrite (map_nth f). reflexivity. }
    unfold P', N'. rewrite (G lam lam0 P), (G (x * lam)%Q 0%Q N) by (cbn [length]; lia). rewrite lastn_snoc.
    destruct r as [|r]; cbn [nth].
    + split; [change (inject_Z (Z.of_nat 1)) with 1%Q; ring|].
      unfold lastn. rewrite Nat.sub_0_r, skipn_all. cbn [app qsum]. ring.
    + destruct (V r ltac:(lia)) as [V1 V2]. rewrite V1, V2, qsum_app. cbn [qsum]. split; [|ring].
      rewrite (Nat2Z.inj_succ (S r)). unfold Z.succ. rewrite inject_Z_plus. change (inject_Z 1) with 1%Q. ring.
Qed.
Lemma nk_predicts maxT mu0 lam0 lam xs r : length xs <= maxT -> r < length xs ->
  let s := nk_feed lam xs (nk_init maxT mu0 lam0) in
  let prec := (lam0 + inject_Z (Z.of_nat (S r)) * lam)%Q in
  (nth r (nk_pred_mean (length xs) s) 0 == (lam * qsum (lastn (S r) xs)) / prec)%Q
  /\ (nth r (nk_pred_var (length xs) s) 0 == 1 / prec + 1 / lam)%Q
  /\ length (nk_pred_mean (length xs) s) = length xs.
Proof.
  intros H Hr s prec. destruct (nk_inv_feed maxT mu0 lam0 lam xs H) as (E0 & E1 & E2 & P & N & _ & _ & LP & LN & V & W).
  fold s in E0, E1, E2, W. destruct (W ltac:(lia)) as [W1 W2]. destruct (V r Hr) as [V1 V2].
  unfold nk_pred_mean, nk_pred_var, nk_slice. rewrite E0. unfold suffix in W1, W2. rewrite W1, W2.
  rewrite firstn_all2 by (rewrite map_length, combine_length; lia). rewrite firstn_all2 by (rewrite map_length; lia).
  set (f := fun p : Q * Q => (fst p / snd p)%Q). set (g := fun p : Q => (1 / p + 1 / lam)%Q).
  rewrite (nth_indep _ 0%Q (f (0%Q, 0%Q))) by (rewrite map_length, combine_length; lia).
  rewrite (nth_indep (map g P) 0%Q (g 0%Q)) by (rewrite map_length; lia).
  rewrite (map_nth f), (map_nth g), combine_nth by lia. unfold f, g. cbn [fst snd]. rewrite V1, V2.
  split; [reflexivity|]. split; [reflexivity|]. rewrite map_length, combine_length. lia.
Qed.
Lemma po_feed_snoc a b xs x s : po_feed a b (xs ++ [x]) s = po_update a b x (po_feed a b xs s).
Proof. revert s. induction xs as [|y t IH]; intros s; [reflexivity|]. cbn. apply IH. Qed.
Lemma po_feed_state a b xs : po_t (po_feed a b xs po_init) = length xs /\ po_events (po_feed a b xs po_init) = rev xs.
Proof.
  induction xs as [|x xs [I1 I2]] using rev_ind; [split; reflexivity|]. rewrite po_feed_snoc. cbn [po_update po_t po_events].
  rewrite I1, I2, app_length, rev_app_distr. cbn [length rev app]. split; [lia|reflexivity].
Qed.
Lemma qsum_rev l : (qsum (rev l) == qsum l)%Q.
Proof. induction l as [|x t IH]; [reflexivity|]. cbn [rev qsum]. rewrite qsum_app, IH. cbn [qsum]. ring. Qed.
Lemma firstn_rev_lastn {A} k (l : list A) : firstn k (rev l) = rev (lastn k l).
Proof. unfold lastn. rewrite firstn_rev. reflexivity. Qed.
Lemma po_predicts a b xs r : r < length xs ->
  let s := po_feed a b xs po_init in
  (nth r (po_n s) 0 == a + qsum (lastn (S r) xs))%Q
  /\ (nth r (po_p s) 0 == (inject_Z (Z.of_nat (S r)) + b) / (inject_Z (Z.of_nat (S r)) + 1 + b))%Q
  /\ length (po_n s) = length xs /\ length (po_p s) = length xs.
Proof.
  intros H s. destruct xs as [|x xs _] using rev_ind; [cbn in H; lia|].
  destruct (po_feed_state a b xs) as [I1 I2]. unfold s. rewrite po_feed_snoc. unfold po_update. rewrite I1, I2. cbn [po_n po_p].
  rewrite app_length in *. cbn [length] in *. replace (x :: rev xs) with (rev (xs ++ [x])) by (rewrite rev_app_distr; reflexivity).
  set (f := fun k : nat => (a + qsum (firstn k (rev (xs ++ [x]))))%Q).
  set (g := fun k : nat => ((inject_Z (Z.of_nat k) + b) / (inject_Z (Z.of_nat k) + 1 + b))%Q).
  rewrite (nth_indep _ 0%Q (f 0)) by (rewrite map_length, seq_length; lia). rewrite (nth_indep (map g _) 0%Q (g 0)) by (rewrite map_length, seq_length; lia).
  rewrite (map_nth f), (map_nth g), seq_nth by lia. unfold f, g. cbn [Nat.add].
  rewrite firstn_rev_lastn, qsum_rev. split; [reflexivity|]. split; [reflexivity|]. rewrite !map_length, !seq_length. lia.
Qed.
