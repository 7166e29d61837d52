(** Theorems about the nowcasting features (C135, C136, C137). *)
From Verif Require Import Common FeatModel FeatSpec FeatProofs.
Open Scope nat_scope.

(** ** C135: no look-ahead *)
Lemma causal_comp F G : causal F -> causal G -> causal (fun s => F (G s)).
Proof. intros HF HG s. destruct (HF (G s)) as [L1 S1], (HG s) as [L2 S2]. split; [congruence|]. intros k. now rewrite S2, S1. Qed.
Lemma causal_map2 f F G : causal F -> causal G -> causal (fun s => map2 f (F s) (G s)).
Proof.
  intros HF HG s. destruct (HF s) as [L1 S1], (HG s) as [L2 S2]. split.
  - rewrite map2_length, L1, L2. lia.
  - intros k. rewrite S1, S2. apply map2_firstn.
Qed.
Lemma causal_id : causal (fun s => s).
Proof. intros s. split; reflexivity. Qed.
Lemma causal_map f : causal (map f).
Proof. intros s. split; [apply map_length|]. intros k. apply map_firstn. Qed.
Lemma causal_shift n : causal (shift n).
Proof. intros s. split; [apply shift_length|]. intros k. apply shift_firstn. Qed.
Lemma causal_diff n : causal (diff n).
Proof. apply (causal_map2 qsub (fun s => s) (shift n)); [apply causal_id|apply causal_shift]. Qed.
Lemma causal_rolling agg n : causal (rolling agg n).
Proof. intros s. split; [apply rolling_go_length|]. intros k. apply rolling_go_firstn. Qed.
Lemma causal_ewm a b m : causal (ewm a b m).
Proof. intros s. unfold ewm. split; [apply ewm_go_length|]. intros k. apply ewm_go_firstn. Qed.
Lemma causal_span n m : causal (ewm_span n m).
Proof. unfold ewm_span. apply causal_ewm. Qed.
Definition trix_tail (t : column) : column := match t with [] => [] | _ => Some 0%Q :: roc_pairs t end.
Lemma roc_pairs_length : forall t, length (roc_pairs t) = length t - 1.
Proof.
  induction t as [|x t IH]; [reflexivity|]. destruct t as [|y t]; [reflexivity|].
  change (roc_pairs (x :: y :: t)) with (qdiv (qsub y x) x :: roc_pairs (y :: t)). cbn [length]. rewrite IH. cbn. lia.
Qed.
Lemma roc_pairs_firstn : forall k t, roc_pairs (firstn (S k) t) = firstn k (roc_pairs t).
Proof.
  induction k as [|k IH]; intros t.
  - destruct t as [|x [|y t]]; reflexivity.
  - destruct t as [|x [|y t]]; [reflexivity|reflexivity|].
    change (firstn (S (S k)) (x :: y :: t)) with (x :: firstn (S k) (y :: t)).
    specialize (IH (y :: t)). change (firstn (S k) (y :: t)) with (y :: firstn k t) in *.
    change (roc_pairs (x :: y :: firstn k t)) with (qdiv (qsub y x) x :: roc_pairs (y :: firstn k t)).
    rewrite IH. reflexivity.
Qed.
Lemma causal_trix_tail : causal trix_tail.
Proof.
  intros s. split.
  - destruct s as [|x s]; [reflexivity|]. unfold trix_tail. cbn [length]. rewrite roc_pairs_length. cbn. lia.
  - intros [|k]; [destruct s; reflexivity|]. destruct s as [|x s]; [reflexivity|].
    change (firstn (S k) (trix_tail (x :: s))) with (Some 0%Q :: firstn k (roc_pairs (x :: s))).
    rewrite <- roc_pairs_firstn. reflexivity.
Qed.
Lemma causal_ext F G : (forall s, F s = G s) -> causal F -> causal G.
Proof. intros E H s. rewrite <- !E. destruct (H s) as [L K]. split; [exact L|]. intros k. rewrite <- E. apply K. Qed.

(** Every feature keeps the rows and uses no later row; for the rate of change this needs n >= 1. *)
Theorem C135_causal : forall n m, 
  causal (LAG n) /\ causal (MOM n) /\ causal (ROC (S n)) /\ causal (MA n) /\ causal (EMA n) /\
  causal (MACD n m) /\ causal (MACDsign n m) /\ causal (MACDdiff n m) /\ causal (TRIX n) /\ causal (TSI n m) /\ causal (RSI n).
Proof.
  intros n m.
  assert (HM : causal (MACD n m)).
  { unfold MACD. apply (causal_map2 qsub (ewm_span n (m - 1)) (ewm_span m (m - 1))); apply causal_span. }
  assert (HS : causal (MACDsign n m)).
  { unfold MACDsign. apply (causal_comp (ewm_span 9 8) (MACD n m)); [apply causal_span|exact HM]. }
  split; [unfold LAG; apply causal_shift|]. split; [unfold MOM; apply causal_diff|].
  split. { unfold ROC. apply (causal_map2 qdiv (diff n) (shift n)); [apply causal_diff|apply causal_shift]. }
  split. { unfold MA. destruct n; [apply (causal_map (fun _ => None))|apply causal_rolling]. }
  split; [unfold EMA; apply causal_span|]. split; [exact HM|]. split; [exact HS|].
  split. { unfold MACDdiff. apply (causal_map2 qsub (MACD n m) (MACDsign n m)); assumption. }
  split.
  { apply (causal_ext (fun s => trix_tail (ewm_span n (n - 1) (ewm_span n (n - 1) (ewm_span n (n - 1) s))))).
    - intros s. unfold TRIX, trix_tail. destruct s as [|x s]; [reflexivity|].
      assert (L : length (ewm_span n (n - 1) (ewm_span n (n - 1) (ewm_span n (n - 1) (x :: s)))) = S (length s)).
      { rewrite !(fun t => proj1 (causal_span n (n - 1) t)). reflexivity. }
      destruct (ewm_span n (n - 1) (ewm_span n (n - 1) (ewm_span n (n - 1) (x :: s)))); [cbn in L; lia|reflexivity].
    - apply (causal_comp trix_tail (fun s => ewm_span n (n - 1) (ewm_span n (n - 1) (ewm_span n (n - 1) s)))); [apply causal_trix_tail|].
      apply (causal_comp (ewm_span n (n - 1)) (fun s => ewm_span n (n - 1) (ewm_span n (n - 1) s))); [apply causal_span|].
      apply (causal_comp (ewm_span n (n - 1)) (ewm_span n (n - 1))); apply causal_span. }
  split.
  { unfold TSI. cbv zeta. apply (causal_map2 qdiv (fun s => ewm_span m (m - 1) (ewm_span n (n - 1) (diff 1 s)))
             (fun s => ewm_span m (m - 1) (ewm_span n (n - 1) (map (option_map Qabs) (diff 1 s))))).
    - apply (causal_comp (ewm_span m (m - 1)) (fun s => ewm_span n (n - 1) (diff 1 s))); [apply causal_span|].
      apply (causal_comp (ewm_span n (n - 1)) (diff 1)); [apply causal_span|apply causal_diff].
    - apply (causal_comp (ewm_span m (m - 1)) (fun s => ewm_span n (n - 1) (map (option_map Qabs) (diff 1 s)))); [apply causal_span|].
      apply (causal_comp (ewm_span n (n - 1)) (fun s => map (option_map Qabs) (diff 1 s))); [apply causal_span|].
      apply (causal_comp (map (option_map Qabs)) (diff 1)); [apply causal_map|apply causal_diff]. }
  unfold RSI. cbv zeta. set (a := (1 / inject_Z (Z.of_nat n))%Q).
  apply (causal_map2 rsi_of (fun s => ewm a false n (map up_move (diff 1 s))) (fun s => ewm a false n (map down_move (diff 1 s)))).
  - apply (causal_comp (ewm a false n) (fun s => map up_move (diff 1 s))); [apply causal_ewm|].
    apply (causal_comp (map up_move) (diff 1)); [apply causal_map|apply causal_diff].
  - apply (causal_comp (ewm a false n) (fun s => map down_move (diff 1 s))); [apply causal_ewm|].
    apply (causal_comp (map down_move) (diff 1)); [apply causal_map|apply causal_diff].
Qed.
(** With n = 0 the rate of change is computed from the next row. *)
Theorem C135_roc_refuted : ~ causal (ROC 0).
Proof. intros H. destruct (H [Some 1%Q; Some 2%Q]) as [_ K]. specialize (K 1). vm_compute in K. discriminate. Qed.
(** On a frame that lost its first k rows (index k, k+1, ...), RSI puts on row i the value of row i + k, if there is one. *)
Theorem C135_rsi_refuted : forall n k s i, i < length s ->
  row (join_by_label (seq k (length s)) (RSI n s)) i = row (RSI n s) (i + k).
Proof.
  intros n k s i H. unfold join_by_label, row.
  rewrite (nth_indep _ None (nth 0 (RSI n s) None)) by (rewrite map_length, seq_length; exact H).
  change (nth 0 (RSI n s) None) with ((fun l => nth l (RSI n s) None) 0). rewrite map_nth, seq_nth by exact H. f_equal. lia.
Qed.
Example C135_rsi_case : let s := [Some 1; Some 3; Some 2; Some 5]%Q in
  map (option_map Qred) (join_by_label (seq 1 4) (RSI 2 s)) = [Some 100; Some 50; Some (175 # 2); None]%Q /\ map (option_map Qred) (RSI 2 s) = [None; Some 100; Some 50; Some (175 # 2)]%Q.
Proof. vm_compute. split; reflexivity. Qed.

(** ** C136: the formulas *)
(** LAG: the value n rows before; MOM: the difference to it. *)
Theorem C136_lag : forall n s i, i < length s -> row (LAG n s) i = if i <? n then None else row s (i - n).
Proof. intros n s i H. apply shift_nth. exact H. Qed.
Theorem C136_mom : forall n s i, i < length s ->
  row (MOM n s) i = match (if i <? n then None else row s (i - n)), row s i with Some a, Some b => Some (b - a)%Q | _, _ => None end.
Proof.
  intros n s i H. unfold row, MOM, diff. rewrite (map2_nth qsub s (shift n s) i None None) by (rewrite ?shift_length; exact H).
  rewrite shift_nth by exact H. unfold qsub. destruct (if i <? n then None else nth (i - n) s None), (nth i s None); reflexivity.
Qed.
(** MA: the mean of the rows i-n+1 .. i, missing if there are fewer or one of them is missing. *)
Theorem C136_ma : forall n s i, 1 <= n -> i < length s ->
  (forall w, n <= S i -> (forall j, j < n -> row s (S i - n + j) = Some (nth j w 0%Q)) -> length w = n ->
     exists v, row (MA n s) i = Some v /\ (v * inject_Z (Z.of_nat n) == qsum w)%Q) /\
  ((S i < n \/ exists j, S i - n <= j <= i /\ row s j = None) -> row (MA n s) i = None).
Proof.
  intros n s i N H. destruct n as [|n]; [lia|]. split.
  - intros w L W E. exists (qsum w / inject_Z (Z.of_nat (length w)))%Q. split.
    + unfold row, MA. apply (rolling_some mean (S n) s i w H L).
      apply (nth_ext _ _ None None).
      * rewrite firstn_length, skipn_length, map_length, E. lia.
      * rewrite firstn_length, skipn_length. intros j J. rewrite nth_firstn_lt by lia. rewrite nth_skipn_add.
        rewrite (nth_indep (map Some w) None (Some 0%Q)) by (rewrite map_length; lia). rewrite map_nth. apply W. lia.
    + rewrite E. field. intros X. unfold Qeq, inject_Z in X. cbn in X. lia.
  - intros C. unfold row, MA. apply rolling_none; [exact H|exact C|lia].
Qed.
Theorem C136_ma_zero : forall s i, row (MA 0 s) i = None.
Proof. intros s. induction s as [|x s IH]; intros [|i]; try reflexivity. apply IH. Qed.
(** ROC n compares with the value n - 1 rows before ... *)
Theorem C136_roc_partial : forall n s i, 1 <= n -> i < length s ->
  row (ROC n s) i = match (if i <? n - 1 then None else row s (i - (n - 1))), row s i with
                    | Some a, Some b => if Qeq_bool a 0 then None else Some ((b - a) / a)%Q
                    | _, _ => None
                    end.
Proof.
  intros n s i N H. destruct n as [|n]; [lia|]. replace (S n - 1) with n by lia. unfold row, ROC.
  rewrite (map2_nth qdiv (diff n s) (shift n s) i None None) by (unfold diff; rewrite ?map2_length, ?shift_length; lia).
  unfold diff. rewrite (map2_nth qsub s (shift n s) i None None) by (rewrite ?shift_length; exact H).
  rewrite shift_nth by exact H. destruct (if i <? n then None else nth (i - n) s None), (nth i s None); reflexivity.
Qed.
(** ... not with the value n rows before, as documented; ROC 1 is always zero. *)
Theorem C136_roc_refuted : forall s i v, i < length s -> row (ROC 1 s) i = Some v -> (v == 0)%Q.
Proof.
  intros s i v H E. rewrite C136_roc_partial in E by (try exact H; lia). cbn [Nat.sub Nat.ltb Nat.leb] in E. rewrite Nat.sub_0_r in E.
  destruct (row s i) as [a|]; [|discriminate]. destruct (Qeq_bool a 0) eqn:Z; [discriminate|]. injection E as <-.
  assert (~ a == 0)%Q by (intros X; apply Qeq_bool_iff in X; congruence). field. assumption.
Qed.
Example C136_case : let s := [Some 1; Some 2; None; Some 4; Some 6; Some 8]%Q in
  map (option_map Qred) (ROC 2 s) = [None; Some 1; None; None; Some (1 # 2); Some (1 # 3)]%Q /\ map (option_map Qred) (MA 2 s) = [None; Some (3 # 2); None; None; Some 5; Some 7]%Q.
Proof. vm_compute. split; reflexivity. Qed.

(** ** C137: exponential averages *)
Section Decay.
Variables (alpha : Q).
Let w := (1 - alpha)%Q.
Lemma weights_S s k : (weights w s (S k) == w * weights w s k + presence (row s (S k)))%Q.
Proof.
  unfold weights. cbn [sumn].
  rewrite Nat.sub_diag. cbn [qpow].
  assert (E : (sumn (S k) (fun j => qpow w (S k - j) * presence (row s j)) == w * sumn (S k) (fun j => qpow w (k - j) * presence (row s j)))%Q).
  { rewrite <- sumn_scale. apply sumn_ext. intros j J. replace (S k - j) with (S (k - j)) by lia. cbn [qpow]. ring. }
  cbn [sumn] in E |- *. rewrite E. ring.
Qed.
Lemma weighted_S s k : (weighted_sum w s (S k) == w * weighted_sum w s k + value_or_0 (row s (S k)))%Q.
Proof.
  unfold weighted_sum. cbn [sumn].
  rewrite Nat.sub_diag. cbn [qpow].
  assert (E : (sumn (S k) (fun j => qpow w (S k - j) * value_or_0 (row s j)) == w * sumn (S k) (fun j => qpow w (k - j) * value_or_0 (row s j)))%Q).
  { rewrite <- sumn_scale. apply sumn_ext. intros j J. replace (S k - j) with (S (k - j)) by lia. cbn [qpow]. ring. }
  cbn [sumn] in E |- *. rewrite E. ring.
Qed.
Lemma ewm_invariant : (0 < alpha)%Q -> (alpha < 1)%Q -> forall s k, k < length s ->
  (present s k = 0 -> exists o, after alpha true (S k) s = (None, o, 0) /\ (o == 1)%Q /\ (weights w s k == 0)%Q /\ (weighted_sum w s k == 0)%Q) /\
  (1 <= present s k -> exists v o, after alpha true (S k) s = (Some v, o, present s k) /\ (o == weights w s k)%Q /\ (0 < o)%Q /\ (v * o == weighted_sum w s k)%Q).
Proof.
  intros A0 A1 s. assert (W : (0 < w)%Q) by (unfold w; lra).
  induction k as [|k IH]; intros H.
  - rewrite after_S by exact H. unfold after. cbn [firstn fold_left present]. unfold weights, weighted_sum. cbn [sumn Nat.sub qpow].
    unfold ewm_step. destruct (row s 0) as [c|]; cbn [presence value_or_0].
    + split; [lia|]. intros _. exists c, 1%Q. split; [reflexivity|]. repeat split; try lra.
    + split; [|lia]. intros _. exists 1%Q. split; [reflexivity|]. repeat split; lra.
  - destruct (IH ltac:(lia)) as [I0 I1]. rewrite after_S by exact H. cbn [present].
    destruct (present s k) as [|p] eqn:P.
    + destruct (I0 eq_refl) as (o & E & O1 & W0 & B0). rewrite E. unfold ewm_step.
      destruct (row s (S k)) as [c|] eqn:R; cbn [Nat.add].
      * split; [lia|]. intros _. exists c, o. split; [reflexivity|]. rewrite weights_S, weighted_S, R, W0, B0, O1. cbn [presence value_or_0]. repeat split; lra.
      * split; [|lia]. intros _. exists o. split; [reflexivity|]. rewrite weights_S, weighted_S, R, W0, B0. cbn [presence value_or_0]. repeat split; lra.
    + destruct I1 as (v & o & E & O1 & OP & B). { lia. } rewrite E. unfold ewm_step.
      assert (PW : (0 < o * w)%Q) by nra.
      destruct (row s (S k)) as [c|] eqn:R; cbn [Nat.add]; (split; [lia|]); intros _.
      * eexists. eexists. split; [reflexivity|]. unfold new_wt. fold w. rewrite weights_S, weighted_S, R, <- O1, <- B. cbn [presence value_or_0].
        split; [ring|]. split; [lra|]. field. lra.
      * eexists. eexists. split; [reflexivity|]. fold w. rewrite weights_S, weighted_S, R, <- O1, <- B. cbn [presence value_or_0].
        split; [ring|]. split; [exact PW|]. ring.
Qed.
End Decay.
Lemma span_range n : 2 <= n -> (0 < span n)%Q /\ (span n < 1)%Q.
Proof.
  intros H. unfold span. assert (3 <= inject_Z (Z.of_nat (n + 1)))%Q.
  { change 3%Q with (inject_Z 3). rewrite <- Zle_Qle. lia. }
  split.
  - apply Qlt_shift_div_l; lra.
  - apply Qlt_shift_div_r; lra.
Qed.
(** EMA n, n >= 2: from the (n-1)-th value on, the average of the values so far in which a value k rows back weighs
    ((n-1)/(n+1))^k; before, missing. *)
Theorem C137_ema : forall n s i, 2 <= n -> i < length s ->
  (present s i < n - 1 -> row (EMA n s) i = None) /\
  (n - 1 <= present s i -> exists v, row (EMA n s) i = Some v /\
     (0 < weights (1 - 2 / inject_Z (Z.of_nat (n + 1))) s i)%Q /\
     (v * weights (1 - 2 / inject_Z (Z.of_nat (n + 1))) s i == weighted_sum (1 - 2 / inject_Z (Z.of_nat (n + 1))) s i)%Q).
Proof.
  intros n s i N H. destruct (span_range n N) as [A0 A1]. unfold row, EMA, ewm_span. rewrite ewm_nth by exact H.
  destruct (ewm_invariant (span n) A0 A1 s i H) as [I0 I1].
  destruct (present s i) as [|p] eqn:P.
  - destruct (I0 eq_refl) as (o & E & _). rewrite E. cbn [ewm_out]. split; [|lia]. intros _. destruct (Nat.max (n - 1) 1 <=? 0); reflexivity.
  - destruct I1 as (v & o & E & O & OP & B); [lia|]. rewrite E. cbn [ewm_out]. split; intros L.
    + rewrite (proj2 (Nat.leb_gt _ _)) by lia. reflexivity.
    + rewrite (proj2 (Nat.leb_le _ _)) by lia. exists v. split; [reflexivity|]. fold (span n). rewrite <- O. split; [exact OP|exact B].
Qed.
Example C137_case : map (option_map Qred) (EMA 3 [Some 1; None; Some 4; Some 2]%Q) = [None; None; Some (17 # 5); Some (33 # 13)]%Q.
Proof. vm_compute. reflexivity. Qed.

(** Averages stay within the range of the values. *)
Lemma ewm_convex alpha adjust minp lo hi : (0 < alpha)%Q -> (alpha <= 1)%Q -> forall s st,
  within lo hi s -> (let '(v, o, _) := st in (0 <= o)%Q /\ forall x, v = Some x -> (lo <= x <= hi)%Q) ->
  within lo hi (ewm_go alpha adjust minp st s).
Proof.
  intros A0 A1. induction s as [|x s IH]; intros st W I v; [intros []|].
  assert (W' : within lo hi s) by (intros y Y; apply W; now right).
  assert (I' : let '(u, o, _) := ewm_step alpha adjust st x in (0 <= o)%Q /\ forall z, u = Some z -> (lo <= z <= hi)%Q).
  { destruct st as [[u o] n]. destruct I as [O I]. unfold ewm_step. 
    assert (OW : (0 <= o * (1 - alpha))%Q) by nra.
    destruct u as [u|], x as [c|].
    - assert (NW : (0 < new_wt alpha adjust)%Q) by (unfold new_wt; destruct adjust; lra).
      assert (U := I u eq_refl). assert (C : (lo <= c <= hi)%Q) by (apply W; now left).
      split; [destruct adjust; lra|]. intros z Z. injection Z as <-.
      split; [apply Qle_shift_div_l|apply Qle_shift_div_r]; try lra; nra.
    - split; [exact OW|]. exact I.
    - split; [exact O|]. intros z Z. injection Z as <-. apply W. now left.
    - split; [exact O|]. discriminate. }
  cbn [ewm_go]. intros [E|E].
  - destruct (ewm_step alpha adjust st x) as [[u o] n]. cbn [ewm_out] in E. destruct (Nat.max minp 1 <=? n); [|discriminate]. now apply I'.
  - exact (IH _ W' I' v E).
Qed.
Lemma span_range1 n : 1 <= n -> (0 < span n)%Q /\ (span n <= 1)%Q.
Proof.
  intros H. unfold span. assert (2 <= inject_Z (Z.of_nat (n + 1)))%Q.
  { change 2%Q with (inject_Z 2). rewrite <- Zle_Qle. lia. }
  split.
  - apply Qlt_shift_div_l; lra.
  - apply Qle_shift_div_r; lra.
Qed.
Theorem C137_within : forall n lo hi s, 1 <= n -> within lo hi s -> within lo hi (EMA n s).
Proof.
  intros n lo hi s N W. destruct (span_range1 n N) as [A0 A1].
  apply (ewm_convex (span n) true (n - 1) lo hi A0 A1 s _ W). split; [lra|]. discriminate.
Qed.
(** So the averages of a constant series are that constant, and its MACD columns are zero. *)
Theorem C137_constant : forall n c s v, 1 <= n -> (forall x, In (Some x) s -> x == c)%Q -> In (Some v) (EMA n s) -> (v == c)%Q.
Proof.
  intros n c s v N H I. assert (W : within c c s) by (intros x X; rewrite (H x X); lra).
  pose proof (C137_within n c c s N W v I). lra.
Qed.
Lemma map2_in {A B C} (f : A -> B -> C) : forall a b z, In z (map2 f a b) -> exists x y, In x a /\ In y b /\ z = f x y.
Proof.
  induction a as [|x a IH]; intros [|y b] z H; try contradiction. destruct H as [<-|H].
  - exists x, y. repeat split; now left.
  - destruct (IH b z H) as (x' & y' & X & Y & E). exists x', y'. split; [now right|]; split; [now right|exact E].
Qed.
Theorem C137_macd_constant : forall n m c s v, 1 <= n -> 1 <= m -> (forall x, In (Some x) s -> x == c)%Q ->
  In (Some v) (MACD n m s) \/ In (Some v) (MACDsign n m s) \/ In (Some v) (MACDdiff n m s) -> (v == 0)%Q.
Proof.
  intros n m c s v N M H.
  assert (HM : forall v, In (Some v) (MACD n m s) -> (v == 0)%Q).
  { intros z Z. apply map2_in in Z as (x & y & X & Y & E). destruct x as [x|], y as [y|]; try discriminate. injection E as ->.
    assert (W : within c c s) by (intros t T; rewrite (H t T); lra).
    destruct (span_range1 n N) as [A0 A1], (span_range1 m M) as [B0 B1].
    assert (I : (0 <= 1)%Q /\ forall x, @None Q = Some x -> (c <= x <= c)%Q) by (split; [lra|discriminate]).
    pose proof (ewm_convex (span n) true (m - 1) c c A0 A1 s (None, 1%Q, 0) W I x X).
    pose proof (ewm_convex (span m) true (m - 1) c c B0 B1 s (None, 1%Q, 0) W I y Y). lra. }
  assert (HS : forall v, In (Some v) (MACDsign n m s) -> (v == 0)%Q).
  { intros z Z. assert (W : within 0 0 (MACD n m s)) by (intros t T; rewrite (HM t T); lra).
    destruct (span_range1 9 ltac:(lia)) as [A0 A1].
    assert (I : (0 <= 1)%Q /\ forall x, @None Q = Some x -> (0 <= x <= 0)%Q) by (split; [lra|discriminate]).
    pose proof (ewm_convex (span 9) true 8 0 0 A0 A1 (MACD n m s) (None, 1%Q, 0) W I z Z). lra. }
  intros [V|[V|V]]; [now apply HM|now apply HS|].
  apply map2_in in V as (x & y & X & Y & E). destruct x as [x|], y as [y|]; try discriminate. injection E as ->.
  rewrite (HM x X), (HS y Y). lra.
Qed.
(** MACDdiff is the difference of the other two columns, on every row. *)
Theorem C137_macd_diff : forall n m s i, i < length s ->
  row (MACDdiff n m s) i = match row (MACD n m s) i, row (MACDsign n m s) i with Some a, Some b => Some (a - b)%Q | _, _ => None end.
Proof.
  intros n m s i H. destruct (C135_causal n m) as (_ & _ & _ & _ & _ & M & S1 & _).
  unfold row, MACDdiff. rewrite (map2_nth qsub _ _ i None None); [reflexivity| |].
  - now rewrite (proj1 (M s)).
  - now rewrite (proj1 (S1 s)).
Qed.

Print Assumptions C135_causal.
Print Assumptions C135_roc_refuted.
Print Assumptions C135_rsi_refuted.
Print Assumptions C136_lag.
Print Assumptions C136_mom.
Print Assumptions C136_ma.
Print Assumptions C136_ma_zero.
Print Assumptions C136_roc_partial.
Print Assumptions C136_roc_refuted.
Print Assumptions C137_ema.
Print Assumptions C137_within.
Print Assumptions C137_constant.
Print Assumptions C137_macd_constant.
Print Assumptions C137_macd_diff.
