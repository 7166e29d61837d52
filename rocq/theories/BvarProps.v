(** Bayesian VAR. *)
From Coq Require Import List ZArith Reals Bool Arith Lia Lra.
From Verif Require Import HeuristicSpec HeuristicProps LsqModel LsqProofs StlfProps BvarModel.
Import ListNotations.
Open Scope nat_scope.

(** ** Specification *)
(** the coefficients of equation [i]: of variable [j] at lag [l], of the time, and the constant *)
Definition coef (m p : nat) (mu : list R) (i j l : nat) : R := nth (i * (m * p + 2) + j * p + (l - 1)) mu 0%R.
Definition slope (m p : nat) (mu : list R) (i : nat) : R := nth (i * (m * p + 2) + m * p) mu 0%R.
Definition const (m p : nat) (mu : list R) (i : nat) : R := nth (i * (m * p + 2) + m * p + 1) mu 0%R.
(** the value equation [i] gives at step [t], when the time variable is [x] *)
Definition equation (m p : nat) (mu : list R) (y : list (list R)) (x : R) (t i : nat) : R :=
  (total m (fun j => total p (fun l => coef m p mu i j (S l) * nth j (nth (t - S l)%nat y []) 0)) + slope m p mu i * x + const m p mu i)%R.

(** ** Proofs *)
Lemma flat_len {A} (f : nat -> list A) w s n : (forall j, length (f j) = w) -> length (flat_map f (seq s n)) = n * w.
Proof. intros L. revert s. induction n as [|n IH]; intros s; [reflexivity|]. cbn [seq flat_map]. rewrite app_length, L, IH. lia. Qed.
Lemma flat_nth {A} (f : nat -> list A) w n j l d : (forall j, length (f j) = w) -> j < n -> l < w -> nth (j * w + l) (flat_map f (seq 0 n)) d = nth l (f j) d.
Proof.
  intros L Hj Hl. assert (G : forall s j, j < n -> nth (j * w + l) (flat_map f (seq s n)) d = nth l (f (s + j)) d).
  { clear j Hj. induction n as [|n IH]; intros s j Hj; [lia|]. cbn [seq flat_map]. destruct j as [|j].
    - rewrite app_nth1 by (rewrite L; lia). rewrite Nat.add_0_r. reflexivity.
    - rewrite app_nth2 by (rewrite L; lia). rewrite L. replace (S j * w + l - w) with (j * w + l) by lia. rewrite IH by lia. f_equal. f_equal. lia. }
  rewrite G by exact Hj. reflexivity.
Qed.
Lemma total_add a b f : total (a + b) f = (total a f + total b (fun i => f (a + i)%nat))%R.
Proof. induction b as [|b IH]; [rewrite Nat.add_0_r; cbn; ring|]. rewrite Nat.add_succ_r. cbn [total]. rewrite IH. ring. Qed.
Lemma total_blocks m p f : total (m * p) f = total m (fun j => total p (fun l => f (j * p + l))).
Proof. induction m as [|m IH]; [reflexivity|]. replace (S m * p) with (m * p + p) by lia. rewrite total_add, IH. reflexivity. Qed.
Lemma dotl_total l r : length l <= length r -> dotl l r = total (length l) (fun k => nth k l 0 * nth k r 0)%R.
Proof.
  unfold dotl. revert r. induction l as [|x l IH]; intros [|y r] L; [reflexivity..|cbn in L; lia|]. cbn [combine map fold_right fst snd]. rewrite IH by (cbn in L; lia). change (length (x :: l)) with (1 + length l). rewrite total_add. cbn. ring.
Qed.
Lemma dotl_zeros n l r : dotl (repeat 0%R n ++ l) r = dotl l (skipn n r).
Proof. revert r. induction n as [|n IH]; intros r; [reflexivity|]. cbn [repeat app]. destruct r as [|y r]; [unfold dotl; cbn; rewrite combine_nil; reflexivity|]. cbn [skipn]. rewrite <- IH. unfold dotl. cbn. ring. Qed.
Lemma dotl_end n l r : dotl (l ++ repeat 0%R n) r = dotl l r.
Proof.
  revert r. induction l as [|x l IH]; intros [|y r]; [destruct (repeat 0%R n); reflexivity| |reflexivity|].
  - cbn [app]. rewrite <- (app_nil_r (repeat 0%R n)). rewrite dotl_zeros. reflexivity.
  - unfold dotl in *. cbn. rewrite IH. reflexivity.
Qed.
Lemma block_dot m z mu i : i < m -> length mu = m * length z -> dotl (block_row m z i) mu = total (length z) (fun k => nth k z 0 * nth (i * length z + k)%nat mu 0)%R.
Proof.
  intros Hi L. unfold block_row. rewrite dotl_zeros, dotl_end, dotl_total by (rewrite skipn_length; nia). apply total_ext. intros k _. rewrite nth_skip. reflexivity.
Qed.
Lemma z_facts m p x y t : p <= t -> t <= length y -> exists z, construct_z m p x y t = Some z /\ length z = m * p + 2 /\
  (forall j l, j < m -> l < p -> nth (j * p + l) z 0%R = nth j (nth (t - S l) y []) 0%R) /\ nth (m * p) z 0%R = nth t x 0%R /\ nth (m * p + 1) z 0%R = 1%R.
Proof.
  intros Hp Ht. unfold construct_z. destruct (Nat.ltb_spec t p) as [C|_]; [lia|]. eexists. split; [reflexivity|]. set (f := fun j => rev _). assert (L : forall j, length (f j) = p) by (intros j; unfold f; rewrite rev_length, map_length, firstn_length, skipn_length; lia).
  assert (LF : length (flat_map f (seq 0 m)) = m * p) by (apply flat_len; exact L). split; [rewrite app_length, LF; cbn; lia|]. split; [|split].
  - intros j l Hj Hl. rewrite app_nth1 by (rewrite LF; nia). rewrite (flat_nth f p) by assumption. unfold f. rewrite rev_nth by (rewrite map_length, firstn_length, skipn_length; lia). rewrite map_length, firstn_length, skipn_length, Nat.min_l by lia.
    assert (E : forall k, k < p -> nth k (map (fun v => nth j v 0%R) (firstn p (skipn (t - p) y))) 0%R = nth j (nth (t - p + k) y []) 0%R).
    { intros k Hk. rewrite (nth_indep _ 0%R (nth j (@nil R) 0%R)) by (rewrite map_length, firstn_length, skipn_length; lia). rewrite (map_nth (fun v => nth j v 0%R)). f_equal. rewrite nth_firstn' by exact Hk. apply nth_skip. }
    rewrite E by lia. f_equal. f_equal. lia.
  - rewrite app_nth2 by (rewrite LF; lia). rewrite LF, Nat.sub_diag. reflexivity.
  - rewrite app_nth2 by (rewrite LF; lia). rewrite LF. replace (m * p + 1 - m * p) with 1 by lia. reflexivity.
Qed.
Lemma evaluate_spec m p mu x y t : p <= t -> t <= length y -> length mu = m * (m * p + 2) ->
  exists v, evaluate m p mu x y t = Some v /\ length v = m /\ forall i, i < m -> nth i v 0%R = equation m p mu y (nth t x 0%R) t i.
Proof.
  intros Hp Ht L. destruct (z_facts m p x y t Hp Ht) as (z & E & LZ & ZL & ZX & Z1). unfold evaluate. rewrite E. eexists. split; [reflexivity|]. unfold apply_z. split; [rewrite map_length, seq_length; reflexivity|]. intros i Hi. rewrite nth_map_seq by exact Hi. rewrite block_dot by (rewrite ?LZ; assumption). rewrite LZ.
  rewrite total_add, total_blocks. cbn [total]. rewrite Nat.add_0_r, ZX, Z1. unfold equation, slope, const. rewrite !Nat.add_assoc, Rplus_0_l, <- Rplus_assoc.
  f_equal; [|ring]. f_equal; [|ring]. apply total_ext. intros j Hj. apply total_ext. intros l Hl. rewrite ZL by assumption. unfold coef. replace (S l - 1) with l by lia. rewrite Nat.add_assoc. apply Rmult_comm.
Qed.
Lemma look_spec m p data mu : p <= length data -> length mu = m * (m * p + 2) -> forall n x y step, length x = length y -> p <= length y ->
  exists v, look_ahead m p data mu x y step n = Some v /\ length v = n /\
    forall k i, k < n -> i < m -> nth i (nth k v []) 0%R = equation m p mu (y ++ v) (nth (length data - 1) (X data) 0 + INR (step + k))%R (length y + k) i.
Proof.
  intros Hd L. induction n as [|n IH]; intros x y step E Hp; [exists []; repeat split; intros; lia|]. cbn [look_ahead]. set (x' := x ++ [_]). assert (LX : length x' - 1 = length y) by (unfold x'; rewrite app_length; cbn; lia). rewrite LX.
  destruct (evaluate_spec m p mu x' y (length y) Hp (le_n _) L) as (v & EV & LV & V). rewrite EV. destruct (IH x' (y ++ [v]) (S step)) as (w & EW & LW & W); [unfold x'; rewrite !app_length; cbn; lia|rewrite app_length; lia|]. rewrite EW. exists (v :: w). split; [reflexivity|]. split; [cbn; lia|].
  intros [|k] i Hk Hi.
  - cbn [nth]. rewrite V by exact Hi. unfold x'. rewrite app_nth2 by lia. rewrite E, Nat.sub_diag, !Nat.add_0_r. cbn [nth]. unfold equation. f_equal. f_equal. apply total_ext. intros j _. apply total_ext. intros l Hl. rewrite app_nth1 by lia. reflexivity.
  - cbn [nth]. rewrite W by lia. rewrite app_length, <- app_assoc. cbn [length app]. f_equal; [f_equal; f_equal; lia|lia].
Qed.
Lemma ahead_len next t n : length (ahead_times next t n) = n.
Proof. revert t. induction n as [|n IH]; intros t; [reflexivity|]. cbn. rewrite IH. reflexivity. Qed.
Lemma ahead_nth next t n k : k < n -> nth k (ahead_times next t n) 0%Z = after next (S k) t.
Proof. revert t k. induction n as [|n IH]; intros t k Hk; [lia|]. destruct k as [|k]; [reflexivity|]. cbn [ahead_times nth]. rewrite IH by lia. reflexivity. Qed.
Lemma all_len {A} (l : list (option A)) r : all l = Some r -> length r = length l.
Proof. revert r. induction l as [|[a|] l IH]; intros r E; cbn in E; [injection E as <-; reflexivity| |discriminate]. destruct (all l) as [w|]; [|discriminate]. injection E as <-. cbn. rewrite (IH w eq_refl). reflexivity. Qed.
Lemma all_nth {A} (l : list (option A)) r k d : all l = Some r -> k < length l -> nth k l None = Some (nth k r d).
Proof. revert r k. induction l as [|[a|] l IH]; intros r k E Hk; cbn in E; [cbn in Hk; lia| |discriminate]. destruct (all l) as [w|] eqn:EW; [|discriminate]. injection E as <-. destruct k; [reflexivity|]. cbn. apply IH; [reflexivity|cbn in Hk; lia]. Qed.
Lemma all_some {A} (l : list (option A)) : (forall k, k < length l -> nth k l None <> None) -> exists r, all l = Some r.
Proof. induction l as [|o l IH]; intros H; [exists []; reflexivity|]. destruct o as [a|]; [|exfalso; apply (H 0); [cbn; lia|reflexivity]]. destruct IH as [r E]; [intros k Hk; apply (H (S k)); cbn; lia|]. exists (a :: r). cbn. rewrite E. reflexivity. Qed.
Lemma training_spec m p data mu : p <= length data -> length mu = m * (m * p + 2) ->
  exists kept, training m p data mu = Some kept /\ length kept = length data - p /\ forall k i, k < length data - p -> i < m -> nth i (nth k kept []) 0%R = equation m p mu data (INR (p + k)) (p + k) i.
Proof.
  intros Hp L. unfold training, T. assert (N : forall k, k < length data - p -> exists v, nth k (map (evaluate m p mu (X data) data) (seq p (length data - p))) None = Some v /\ forall i, i < m -> nth i v 0%R = equation m p mu data (INR (p + k)) (p + k) i).
  { intros k Hk. destruct (evaluate_spec m p mu (X data) data (p + k)) as (v & E & LV & V); [lia|lia|exact L|]. exists v. split.
    - rewrite (nth_indep _ None (evaluate m p mu (X data) data 0)) by (rewrite map_length, seq_length; exact Hk). rewrite (map_nth (evaluate m p mu (X data) data)), seq_nth by exact Hk. exact E.
    - intros i Hi. rewrite V by exact Hi. f_equal. unfold X, T. rewrite nth_map_seq by lia. reflexivity. }
  destruct (all_some (map (evaluate m p mu (X data) data) (seq p (length data - p)))) as [kept E]. { rewrite map_length, seq_length. intros k Hk. destruct (N k Hk) as (v & -> & _). discriminate. }
  exists kept. split; [exact E|]. split; [rewrite (all_len _ _ E), map_length, seq_length; reflexivity|]. intros k i Hk Hi. destruct (N k Hk) as (v & EV & V). rewrite (all_nth _ _ k [] E) in EV by (rewrite map_length, seq_length; exact Hk). injection EV as <-. apply V, Hi.
Qed.

Section Columns.
Variable m : nat.
Definition columns (ts : list Z) (vals : list (list R)) : list (list (Z * R)) := map (fun i => map (fun q => (fst q, nth i (snd q) 0%R)) (combine ts vals)) (seq 0 m).
Lemma columns_nth ts vals i k : length ts = length vals -> i < m -> k < length ts -> nth k (nth i (columns ts vals) []) (0%Z, 0%R) = (nth k ts 0%Z, nth i (nth k vals []) 0%R).
Proof.
  intros L Hi Hk. unfold columns. rewrite nth_map_seq by exact Hi. set (g := fun q : Z * list R => (fst q, nth i (snd q) 0%R)). rewrite (nth_indep _ (0%Z, 0%R) (g (0%Z, []))) by (rewrite map_length, combine_length; lia). rewrite (map_nth g), combine_nth by exact L. reflexivity.
Qed.
Lemma columns_len ts vals i : length ts = length vals -> i < m -> length (nth i (columns ts vals) []) = length ts.
Proof. intros L Hi. unfold columns. rewrite nth_map_seq by exact Hi. rewrite map_length, combine_length. lia. Qed.

End Columns.

Section Calls.
Variable next : Z -> Z.
Variable m p : nat.
Variable data : list (list R).
Variable times : list Z.
Variable mu : list R.
Hypothesis times_len : length times = length data.
Hypothesis p_small : p <= length data.
Hypothesis mu_len : length mu = m * (m * p + 2).
Notation columns := (columns m).
Notation predict := (BvarModel.predict next m p data times mu).
Notation run := (BvarModel.run next m p data times mu).
Definition ahead (n : nat) : list (list R) := match look_ahead m p data mu (X data) data (length data) n with Some v => v | None => [] end.
Lemma X_len : length (X data) = length data. Proof. unfold X, T. rewrite map_length, seq_length. reflexivity. Qed.
Lemma ahead_facts n : look_ahead m p data mu (X data) data (length data) n = Some (ahead n) /\ length (ahead n) = n /\
  forall k i, k < n -> i < m -> nth i (nth k (ahead n) []) 0%R = equation m p mu (data ++ ahead n) (nth (length data - 1) (X data) 0 + INR (length data + k))%R (length data + k) i.
Proof. unfold ahead. destruct (look_spec m p data mu p_small mu_len n (X data) data (length data) X_len p_small) as (v & E & L & F). rewrite E. auto. Qed.
Lemma predict_plain kept n : n <> 0 -> predict kept n false = (kept, Some (columns (ahead_times next (last times 0%Z) n) (ahead n))).
Proof.
  intros N. unfold BvarModel.predict. destruct (Nat.eqb_spec n 0) as [|_]; [contradiction|]. cbn [andb]. destruct (ahead_facts n) as (E & L & _). unfold T. rewrite E. cbv zeta. cbn [app]. rewrite ahead_len, L, Nat.eqb_refl. reflexivity.
Qed.
Lemma predict_hist kept n : predict kept n true = (kept ++ ahead n, if length data - p =? length kept then Some (columns (skipn p times ++ ahead_times next (last times 0%Z) n) (kept ++ ahead n)) else None).
Proof.
  unfold BvarModel.predict. rewrite andb_false_r. destruct (ahead_facts n) as (E & L & _). unfold T. rewrite E. cbv zeta. rewrite firstn_all2 by (rewrite skipn_length; lia). rewrite !app_length, ahead_len, skipn_length, L, times_len.
  destruct (Nat.eqb_spec (length data - p + n) (length kept + n)), (Nat.eqb_spec (length data - p) (length kept)); try lia; reflexivity.
Qed.
(** ** C181: the forecasts *)
(** The fitted values are those of the equations at the times of the data, one for every time but the first [p]. *)
Theorem C181_fitted : forall kept n, training m p data mu = Some kept ->
  exists out, snd (predict kept n true) = Some out /\ forall i, i < m -> length (nth i out []) = length data - p + n /\
    forall k, k < length data - p -> nth k (nth i out []) (0%Z, 0%R) = (nth (p + k) times 0%Z, equation m p mu data (INR (p + k)) (p + k) i).
Proof.
  intros kept n E. destruct (training_spec m p data mu p_small mu_len) as (kept' & E' & L & F). rewrite E in E'. injection E' as <-. rewrite predict_hist, L, Nat.eqb_refl. cbn [snd]. eexists. split; [reflexivity|]. destruct (ahead_facts n) as (_ & LA & _).
  assert (LL : length (skipn p times ++ ahead_times next (last times 0%Z) n) = length (kept ++ ahead n)) by (rewrite !app_length, ahead_len, skipn_length, times_len, L, LA; reflexivity).
  intros i Hi. split; [rewrite columns_len by assumption; rewrite app_length, ahead_len, skipn_length, times_len; reflexivity|]. intros k Hk. rewrite columns_nth by (rewrite ?app_length, ?ahead_len, ?skipn_length, ?times_len; try assumption; lia). rewrite !app_nth1 by (rewrite ?skipn_length, ?L, ?times_len; lia). rewrite nth_skip, F by assumption. reflexivity.
Qed.
(** C181 (partial): if no equation depends on the time, the forecasts are those of the equations, each applied to the
    data and the forecasts before it, at the grid times after the data. *)
Theorem C181_ahead_partial : forall kept n, n <> 0 -> (forall i, i < m -> slope m p mu i = 0%R) ->
  exists out vals, snd (predict kept n false) = Some out /\ length vals = n /\ forall i, i < m -> length (nth i out []) = n /\
    forall k, k < n -> nth k (nth i out []) (0%Z, 0%R) = (after next (S k) (last times 0%Z), nth i (nth k vals []) 0%R) /\
      nth i (nth k vals []) 0%R = equation m p mu (data ++ vals) (INR (length data + k)) (length data + k) i.
Proof.
  intros kept n N S0. rewrite predict_plain by exact N. cbn [snd]. destruct (ahead_facts n) as (_ & LA & F). eexists _, (ahead n). split; [reflexivity|]. split; [exact LA|]. intros i Hi. split; [rewrite columns_len by (rewrite ?ahead_len; auto); apply ahead_len|]. intros k Hk. split.
  - rewrite columns_nth by (rewrite ?ahead_len; auto). rewrite ahead_nth by exact Hk. reflexivity.
  - rewrite F by assumption. unfold equation. rewrite S0 by exact Hi. ring.
Qed.
(** In general the time put into the equations for forecast [k], step [T + k], is [2 T - 1 + k]: every forecast is off
    by the trend over [T - 1] steps, on top of the errors in the forecasts before it. *)
Theorem C181_time_refuted : forall kept n, n <> 0 -> data <> [] ->
  exists out vals, snd (predict kept n false) = Some out /\ length vals = n /\ forall i, i < m ->
    forall k, k < n -> snd (nth k (nth i out []) (0%Z, 0%R)) = nth i (nth k vals []) 0%R /\
      (nth i (nth k vals []) 0 - equation m p mu (data ++ vals) (INR (length data + k)) (length data + k) i = slope m p mu i * INR (length data - 1))%R.
Proof.
  intros kept n N D. rewrite predict_plain by exact N. cbn [snd]. destruct (ahead_facts n) as (_ & LA & F). eexists _, (ahead n). split; [reflexivity|]. split; [exact LA|]. intros i Hi k Hk. split.
  - rewrite columns_nth by (rewrite ?ahead_len; auto). reflexivity.
  - rewrite F by assumption. assert (LD : length data <> 0) by (destruct data; [contradiction|discriminate]). unfold X at 1, T. rewrite nth_map_seq by lia. unfold equation. cbn [plus]. ring.
Qed.

(** ** C182: calls of predict *)
(** Without history every call gets the answer of the first one, whatever was called before. *)
Theorem C182_again : forall kept kept' n before, let answers := run kept (before ++ [(n, false)]) in
  length answers = S (length before) /\ last answers None = snd (predict kept' n false).
Proof.
  intros kept kept' n before. cbv zeta. revert kept. induction before as [|[s h] before IH]; intros kept.
  - cbn [app BvarModel.run]. destruct n as [|n]; [split; reflexivity|]. rewrite !predict_plain by discriminate. split; reflexivity.
  - cbn [app BvarModel.run]. destruct (predict kept s h) as [kept'' r]. destruct (IH kept'') as [L E]. split; [cbn; rewrite L; reflexivity|]. rewrite <- E. destruct (run kept'' (before ++ [(n, false)])) as [|a l] eqn:ER; [cbn in L; discriminate|reflexivity].
Qed.
(** Asking for fewer steps gives the first of the forecasts. *)
Lemma look_prefix : forall n k x y step v, look_ahead m p data mu x y step (n + k) = Some v -> look_ahead m p data mu x y step n = Some (firstn n v).
Proof.
  induction n as [|n IH]; intros k x y step v E; [reflexivity|]. cbn [plus look_ahead] in *. destruct (evaluate m p mu _ y _) as [u|]; [|discriminate]. destruct (look_ahead m p data mu _ _ (S step) (n + k)) as [w|] eqn:EW; [|discriminate]. injection E as <-. rewrite (IH _ _ _ _ _ EW). reflexivity.
Qed.
Lemma ahead_prefix n k : ahead n = firstn n (ahead (n + k)).
Proof. destruct (ahead_facts (n + k)) as (E & _). apply look_prefix in E. unfold ahead at 1. rewrite E. reflexivity. Qed.
Theorem C182_prefix : forall kept n k, n <> 0 -> exists out out', snd (predict kept n false) = Some out /\ snd (predict kept (n + k) false) = Some out' /\
  forall i, i < m -> nth i out [] = firstn n (nth i out' []).
Proof.
  intros kept n k N. rewrite !predict_plain by lia. do 2 eexists. split; [reflexivity|]. split; [reflexivity|]. intros i Hi. destruct (ahead_facts n) as (_ & L & _). destruct (ahead_facts (n + k)) as (_ & L' & _).
  apply nth_ext with (d := (0%Z, 0%R)) (d' := (0%Z, 0%R)); rewrite columns_len by (rewrite ?ahead_len; auto); rewrite ahead_len; [rewrite firstn_length, columns_len by (rewrite ?ahead_len; auto); rewrite ahead_len; lia|].
  intros j Hj. rewrite nth_firstn' by exact Hj. rewrite !columns_nth by (rewrite ?ahead_len; try lia; auto). rewrite !ahead_nth by lia. rewrite (ahead_prefix n k). rewrite nth_firstn' by exact Hj. reflexivity.
Qed.
(** A first call with history gives the fitted values and then the same forecasts. *)
Theorem C182_history : forall kept n, n <> 0 -> training m p data mu = Some kept ->
  exists out out', snd (predict kept n false) = Some out /\ snd (predict kept n true) = Some out' /\ forall i, i < m -> nth i out [] = skipn (length data - p) (nth i out' []).
Proof.
  intros kept n N E. destruct (training_spec m p data mu p_small mu_len) as (kept' & E' & L & _). rewrite E in E'. injection E' as <-. rewrite predict_plain by exact N. rewrite predict_hist, L, Nat.eqb_refl. cbn [snd]. do 2 eexists. split; [reflexivity|]. split; [reflexivity|]. intros i Hi. unfold columns. rewrite !nth_map_seq by exact Hi. rewrite skipn_map. f_equal.
  assert (G : forall (A B : Type) (a a' : list A) (b b' : list B), length a = length b -> skipn (length a) (combine (a ++ a') (b ++ b')) = combine a' b') by (induction a as [|u a IHa]; intros a' [|w b] b' Q; try discriminate; [reflexivity|]; cbn; apply IHa; injection Q; auto).
  replace (length data - p) with (length (skipn p times)) by (rewrite skipn_length, times_len; reflexivity). rewrite G; [reflexivity|]. rewrite skipn_length, times_len, L. reflexivity.
Qed.
(** But a second call with history always raises, as the first one has put its forecasts among the fitted values. *)
Theorem C182_again_refuted : forall kept n n', n <> 0 -> training m p data mu = Some kept ->
  exists out, run kept [(n, true); (n', true)] = [Some out; None].
Proof.
  intros kept n n' N E. destruct (training_spec m p data mu p_small mu_len) as (kept' & E' & L & _). rewrite E in E'. injection E' as <-. destruct (ahead_facts n) as (_ & LA & _). cbn [BvarModel.run]. rewrite predict_hist. rewrite predict_hist. rewrite L, Nat.eqb_refl, app_length, L, LA. destruct (Nat.eqb_spec (length data - p) (length data - p + n)); [lia|]. eexists. reflexivity.
Qed.
End Calls.

(** ** C183: the prior *)
(** The prior mean says that every variable stays as it was: one for its own first lag, zero for all others. *)
Theorem C183_mean : forall m p i, i < m -> 0 < p ->
  (forall j l, j < m -> 1 <= l <= p -> coef m p (mu_prior m p) i j l = if (i =? j) && (l =? 1) then 1%R else 0%R) /\
  slope m p (mu_prior m p) i = 0%R /\ const m p (mu_prior m p) i = 0%R /\ length (mu_prior m p) = m * (m * p + 2).
Proof.
  intros m p i Hi Hp. unfold coef, slope, const, mu_prior. set (f := fun i => map _ _). assert (W : width m p = m * p + 2) by (unfold width; lia). assert (L : forall j, length (f j) = m * p + 2) by (intros j; unfold f; rewrite map_length, seq_length; exact W).
  assert (N : forall k, k < m * p + 2 -> nth (i * (m * p + 2) + k) (flat_map f (seq 0 m)) 0%R = if k =? p * i then 1%R else 0%R). { intros k Hk. rewrite (flat_nth f (m * p + 2)) by assumption. unfold f. rewrite nth_map_seq by lia. reflexivity. }
  split; [|split; [|split]].
  - intros j l Hj Hl. rewrite <- Nat.add_assoc, N by nia. destruct (Nat.eqb_spec i j) as [->|NE].
    + destruct (Nat.eqb_spec l 1), (Nat.eqb_spec (j * p + (l - 1)) (p * j)); try reflexivity; nia.
    + destruct (Nat.eqb_spec (j * p + (l - 1)) (p * i)) as [E|]; [|reflexivity]. exfalso. apply NE. assert (H1 : j * p <= i * p) by nia. assert (H2 : i * p < (j + 1) * p) by nia. nia.
  - rewrite N by lia. destruct (Nat.eqb_spec (m * p) (p * i)); [nia|reflexivity].
  - rewrite <- Nat.add_assoc, N by lia. destruct (Nat.eqb_spec (m * p + 1) (p * i)); [nia|reflexivity].
  - apply flat_len. exact L.
Qed.
(** The prior variances: tighter by a power of the lag; for other variables times the ratio of the variances. *)
Theorem C183_variance : forall m p data q i, i < m ->
  (forall j l, j < m -> 1 <= l <= p -> coef m p (v_prior m p data q) i j l =
     (phi_0 q / Rpower (INR l) (phi_3 q) * (if (i =? j)%nat then 1 else phi_1 q * (variance data j / variance data i)))%R) /\
  slope m p (v_prior m p data q) i = (phi_0 q * phi_2 q)%R /\ const m p (v_prior m p data q) i = (phi_0 q * phi_2 q)%R.
Proof.
  intros m p data q i Hi. unfold coef, slope, const, v_prior. set (f := fun i => flat_map _ _ ++ _). assert (LG : forall i', length (flat_map (fun j => map (fun lag => sigma_ijl data q i' (Some (j, lag))) (seq 1 p)) (seq 0 m)) = m * p) by (intros i'; apply flat_len; intros j; rewrite map_length, seq_length; reflexivity).
  assert (L : forall j, length (f j) = m * p + 2) by (intros j; unfold f; rewrite app_length, LG; cbn; lia).
  split; [|split].
  - intros j l Hj Hl. rewrite <- Nat.add_assoc. rewrite (flat_nth f (m * p + 2)) by (try assumption; nia). unfold f. rewrite app_nth1 by (rewrite LG; nia). rewrite (flat_nth _ p) by (try assumption; try lia; intros; rewrite map_length, seq_length; reflexivity).
    rewrite (nth_indep _ 0%R (sigma_ijl data q i (Some (j, 0)))) by (rewrite map_length, seq_length; lia). rewrite (map_nth (fun lag => sigma_ijl data q i (Some (j, lag)))), seq_nth by lia. replace (1 + (l - 1)) with l by lia. unfold sigma_ijl, h. destruct (i =? j); unfold Rdiv; ring.
  - rewrite (flat_nth f (m * p + 2)) by (try assumption; lia). unfold f. rewrite app_nth2 by (rewrite LG; lia). rewrite LG, Nat.sub_diag. reflexivity.
  - rewrite <- Nat.add_assoc. rewrite (flat_nth f (m * p + 2)) by (try assumption; lia). unfold f. rewrite app_nth2 by (rewrite LG; lia). rewrite LG. replace (m * p + 1 - m * p) with 1 by lia. reflexivity.
Qed.
(** The prior depends on the units, the wrong way: when variable [j] is measured in a unit [c] times smaller, its
    coefficients in the other equations get smaller by [c], but their prior variance gets larger by the square. *)
Definition rescale (j : nat) (c : R) (data : list (list R)) : list (list R) := map (fun y => map (fun k => if k =? j then (c * nth k y 0)%R else nth k y 0%R) (seq 0 (length y))) data.
Lemma lsum_scale c l : lsum (map (fun v => c * v)%R l) = (c * lsum l)%R.
Proof. unfold lsum. induction l as [|x l IH]; [cbn; ring|]. cbn [map fold_right]. rewrite IH. ring. Qed.
Lemma var_scale c l : var (map (fun v => c * v)%R l) = (c ^ 2 * var l)%R.
Proof.
  unfold var, mean. rewrite lsum_scale, map_length, map_map. set (u := (lsum l / INR (length l))%R). replace (c * lsum l / INR (length l))%R with (c * u)%R by (unfold u, Rdiv; ring).
  replace (map (fun x => (c * x - c * u) ^ 2)%R l) with (map (fun v => c ^ 2 * v)%R (map (fun x => (x - u) ^ 2)%R l)) by (rewrite map_map; apply map_ext; intros; ring). rewrite lsum_scale. unfold Rdiv. ring.
Qed.
Lemma variance_rescale j c data k : (forall y, In y data -> k < length y) -> variance (rescale j c data) k = if k =? j then (c ^ 2 * variance data k)%R else variance data k.
Proof.
  intros L. unfold variance, rescale. rewrite map_map. destruct (Nat.eqb_spec k j) as [->|N].
  - rewrite <- var_scale, map_map. f_equal. apply map_ext_in. intros y Hy. rewrite nth_map_seq by (apply L, Hy). rewrite Nat.eqb_refl. reflexivity.
  - f_equal. apply map_ext_in. intros y Hy. rewrite nth_map_seq by (apply L, Hy). destruct (Nat.eqb_spec k j); [contradiction|reflexivity].
Qed.
Theorem C183_units_refuted : forall m p data q i j l c, i < m -> j < m -> i <> j -> 1 <= l <= p -> (forall y, In y data -> length y = m) ->
  coef m p (v_prior m p (rescale j c data) q) i j l = (c ^ 2 * coef m p (v_prior m p data q) i j l)%R.
Proof.
  intros m p data q i j l c Hi Hj N Hl L. destruct (C183_variance m p data q i Hi) as (V & _). destruct (C183_variance m p (rescale j c data) q i Hi) as (V' & _). rewrite V, V' by assumption. destruct (Nat.eqb_spec i j); [contradiction|]. rewrite !variance_rescale by (intros y Hy; rewrite (L y Hy); assumption). rewrite Nat.eqb_refl. destruct (Nat.eqb_spec i j); [contradiction|]. unfold Rdiv. ring.
Qed.

(** ** Cases *)
Definition two : list (list R) := [[1; 2]; [2; 3]; [3; 5]]%R.
(** each variable is its own last value, plus half the time for the first *)
Definition some_mu : list R := [1; 0; 1 / 2; 0;  0; 1; 0; 0]%R.
Example C181_case : length some_mu = 2 * (2 * 1 + 2) /\ slope 2 1 some_mu 0 = (1 / 2)%R /\ training 2 1 two some_mu <> None /\
  equation 2 1 some_mu two (INR 2) 2 0 = 3%R /\ equation 2 1 some_mu two (INR 3) 3 1 = 5%R.
Proof.
  split; [reflexivity|]. split; [reflexivity|]. split; [|unfold equation, coef, slope, const; cbn; split; lra].
  destruct (training_spec 2 1 two some_mu) as (kept & E & _); [cbn; lia|reflexivity|]. rewrite E. discriminate.
Qed.
(** the first forecast of the first variable: 3 + 5 / 2 instead of 3 + 3 / 2 *)
Example C182_case : exists out, snd (predict (fun t => (t + 1)%Z) 2 1 two [0; 1; 2]%Z some_mu [] 1 false) = Some out /\ nth 0 (nth 0 out []) (0%Z, 0%R) = (3%Z, 11 / 2)%R.
Proof.
  rewrite predict_plain by (cbn; try lia; reflexivity). eexists. split; [reflexivity|]. rewrite columns_nth by (cbn; try lia; reflexivity). destruct (ahead_facts 2 1 two some_mu ltac:(cbn; lia) eq_refl 1) as (_ & _ & G). rewrite G by lia. f_equal. unfold equation, coef, slope, const, X, T. cbn. lra.
Qed.
Example C183_case : coef 2 3 (mu_prior 2 3) 1 1 1 = 1%R /\ coef 2 3 (mu_prior 2 3) 1 0 1 = 0%R /\ variance two 1 = (14 / 9)%R /\ (forall y, In y two -> length y = 2).
Proof.
  destruct (C183_mean 2 3 1) as (C & _); [lia|lia|]. split; [rewrite C by lia; reflexivity|]. split; [rewrite C by lia; reflexivity|]. split; [unfold variance, var, mean, lsum; cbn; lra|]. intros y [<-|[<-|[<-|[]]]]; reflexivity.
Qed.

Print Assumptions C181_fitted.
Print Assumptions C181_ahead_partial.
Print Assumptions C181_time_refuted.
Print Assumptions C182_again.
Print Assumptions C182_prefix.
Print Assumptions C182_history.
Print Assumptions C182_again_refuted.
Print Assumptions C183_mean.
Print Assumptions C183_variance.
Print Assumptions C183_units_refuted.
