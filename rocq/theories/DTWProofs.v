(** Lemmas for C20-C23. *)
From Verif Require Import Common DTWModel DTWSpec.
Open Scope nat_scope.

(** *** extended numbers *)
Lemma elt_le a b : elt a b = false <-> le_inf b a.
Proof.
  destruct a as [x|], b as [y|]; cbn; split; intros H; try tauto; try discriminate; try reflexivity.
  - apply negb_false_iff, Qle_bool_iff in H. exact H.
  - apply negb_false_iff, Qle_bool_iff. exact H.
Qed.
Lemma elt_lt a b : elt a b = true -> le_inf a b.
Proof.
  destruct a as [x|], b as [y|]; cbn; intros H; try tauto; try discriminate.
  apply negb_true_iff in H. destruct (Qlt_le_dec x y) as [L|L]; [apply Qlt_le_weak, L|].
  apply Qle_bool_iff in L. congruence.
Qed.
Lemma le_inf_trans a b c : le_inf a b -> le_inf b c -> le_inf a c.
Proof. destruct a, b, c; cbn; try tauto. intros; eapply Qle_trans; eassumption. Qed.
Lemma le_inf_refl a : le_inf a a.
Proof. destruct a; cbn; [apply Qle_refl|exact I]. Qed.
Lemma emin_spec a b : (emin a b = a \/ emin a b = b) /\ le_inf (emin a b) a /\ le_inf (emin a b) b.
Proof.
  unfold emin. destruct (elt b a) eqn:E.
  - split; [right; reflexivity|]. split; [apply elt_lt, E|apply le_inf_refl].
  - split; [left; reflexivity|]. split; [apply le_inf_refl|apply elt_le, E].
Qed.

(** *** paths as an inductive predicate *)
Section Paths.
  Variables (band : cell -> Prop) (s1 s2 : list Q).
  Local Notation cost i j := (sq_diff s1 s2 i j).

  Inductive reach : nat -> nat -> list cell -> Prop :=
  | r_start : band (0, 0) -> reach 0 0 [(0, 0)]
  | r_down i j p : reach i j p -> band (S i, j) -> reach (S i) j (p ++ [(S i, j)])
  | r_right i j p : reach i j p -> band (i, S j) -> reach i (S j) (p ++ [(i, S j)])
  | r_diag i j p : reach i j p -> band (S i, S j) -> reach (S i) (S j) (p ++ [(S i, S j)]).

  Lemma cost_snoc p i j : (path_cost s1 s2 (p ++ [(i, j)]) == path_cost s1 s2 p + cost i j)%Q.
  Proof.
    unfold path_cost. rewrite map_app, qsum_app. cbn [map qsum fst snd]. unfold sq_diff. cbv zeta. ring.
  Qed.
  Lemma cost_nonneg i j : (0 <= cost i j)%Q.
  Proof. unfold sq_diff. cbv zeta. set (d := (nth i s1 0 - nth j s2 0)%Q). nra. Qed.

  Lemma reach_ends i j p : reach i j p -> exists q, p = q ++ [(i, j)].
  Proof. intros H. destruct H; [exists []; reflexivity| | |]; eexists; reflexivity. Qed.
  Lemma reach_band i j p : reach i j p -> Forall band p.
  Proof.
    induction 1; [repeat constructor; assumption| | |]; apply Forall_app; (split; [assumption|]);
      repeat constructor; assumption.
  Qed.
  Lemma reach_hd i j p : reach i j p -> hd_error p = Some (0, 0).
  Proof. induction 1 as [|i j p H IH B|i j p H IH B|i j p H IH B]; [reflexivity| | |];
    (destruct p; [discriminate|exact IH]). Qed.

  Lemma snoc_inj {A} (p q : list A) x y : p ++ [x] = q ++ [y] -> p = q /\ x = y.
  Proof. apply app_inj_tail. Qed.
  Lemma steps_snoc p x : (forall l a b r, p = l ++ a :: b :: r -> path_step a b) ->
    (forall q y, p = q ++ [y] -> path_step y x) ->
    forall l a b r, p ++ [x] = l ++ a :: b :: r -> path_step a b.
  Proof.
    intros H1 H2 l a b r E. destruct (@exists_last _ (b :: r)) as (r' & z & R); [discriminate|].
    destruct r' as [|b' r'].
    - cbn in R. injection R as -> ->. change (l ++ [a; z]) with (l ++ [a] ++ [z]) in E.
      rewrite app_assoc in E. apply snoc_inj in E as [E ->]. apply (H2 l). exact E.
    - cbn in R. injection R as <- ->. rewrite app_comm_cons, app_comm_cons, app_assoc in E.
      apply snoc_inj in E as [E _]. apply (H1 l a b r'). exact E.
  Qed.
  Lemma reach_steps i j p : reach i j p -> forall l a b r, p = l ++ a :: b :: r -> path_step a b.
  Proof.
    induction 1 as [|i j p H IH B|i j p H IH B|i j p H IH B].
    - intros l a b r E. destruct l as [|? [|? ?]]; discriminate.
    - apply steps_snoc; [exact IH|]. intros q y E. destruct (reach_ends _ _ _ H) as [q' ->].
      apply snoc_inj in E as [_ <-]. left. reflexivity.
    - apply steps_snoc; [exact IH|]. intros q y E. destruct (reach_ends _ _ _ H) as [q' ->].
      apply snoc_inj in E as [_ <-]. right. left. reflexivity.
    - apply steps_snoc; [exact IH|]. intros q y E. destruct (reach_ends _ _ _ H) as [q' ->].
      apply snoc_inj in E as [_ <-]. right. right. reflexivity.
  Qed.
  Lemma reach_path i j p : reach i j p -> warping_path band (S i) (S j) p.
  Proof.
    intros H. split; [eapply reach_hd; eassumption|]. split.
    - destruct (reach_ends _ _ _ H) as [q E]. exists q. rewrite E. cbn [Nat.sub]. rewrite !Nat.sub_0_r. reflexivity.
    - split; [eapply reach_steps; eassumption|eapply reach_band; eassumption].
  Qed.
  Lemma path_reach p : forall i j, warping_path band (S i) (S j) p -> reach i j p.
  Proof.
    induction p as [|x p IH] using rev_ind; intros i j (Hh & (q & Hq) & Hs & Hb); [discriminate|].
    cbn [Nat.sub] in Hq. rewrite !Nat.sub_0_r in Hq. apply snoc_inj in Hq as [-> ->].
    apply Forall_app in Hb as [Hb Hx]. apply Forall_inv in Hx.
    destruct (list_eq_dec (fun a b : cell => ltac:(decide equality; apply Nat.eq_dec)) q []) as [->|N].
    - cbn in Hh. injection Hh as -> ->. apply r_start. exact Hx.
    - destruct (exists_last N) as (q' & (a, b) & ->).
      assert (Hr : reach a b (q' ++ [(a, b)])).
      { apply IH. split; [|split; [|split]].
        - destruct q'; exact Hh.
        - exists q'. cbn [Nat.sub]. rewrite !Nat.sub_0_r. reflexivity.
        - intros l u v r E. apply (Hs l u v (r ++ [(i, j)])). rewrite E, <- app_assoc. reflexivity.
        - exact Hb. }
      assert (St : path_step (a, b) (i, j)).
      { apply (Hs q' (a, b) (i, j) []). rewrite <- app_assoc. reflexivity. }
      destruct St as [E|[E|E]]; cbn [fst snd] in E; injection E as -> ->;
        [apply r_down|apply r_right|apply r_diag]; assumption.
  Qed.

  (** [v] is the least cost of reaching (i, j) *)
  Definition best (i j : nat) (v : option Q) : Prop := least_cost s1 s2 (reach i j) v.

  Lemma best_none_or i j v p : best i j v -> reach i j p -> exists d, v = Some d /\ (d <= path_cost s1 s2 p)%Q.
  Proof.
    destruct v as [d|]; cbn; intros H R; [exists d; split; [reflexivity|apply H, R]|].
    exfalso. eapply H, R.
  Qed.
  Lemma best_le i j v p : best i j v -> reach i j p -> le_inf v (Some (path_cost s1 s2 p)).
  Proof. intros H R. destruct (best_none_or _ _ _ _ H R) as (d & -> & L). exact L. Qed.

  (** the three predecessors of a table position, as table values *)
  Definition pred_ok (i j : nat) (v : option Q) (di dj : nat) : Prop :=
    (di <= i /\ dj <= j -> best (i - di) (j - dj) v).

  Lemma best_cell i j (u l d : option Q) :
    band (i, j) ->
    (* up, left, diagonal; a missing row or column is infinite, except the corner *)
    (match i with O => u = None | S i' => best i' j u end) ->
    (match j with O => l = None | S j' => best i j' l end) ->
    (match i, j with O, O => d = Some 0%Q | S i', S j' => best i' j' d | _, _ => d = None end) ->
    best i j (option_map (Qplus (cost i j)) (emin (emin u l) d)).
  Proof.
    intros B Hu Hl Hd.
    destruct (emin_spec u l) as (E1 & L1 & L2). destruct (emin_spec (emin u l) d) as (E2 & L3 & L4).
    set (m := emin (emin u l) d) in *.
    assert (Lu : le_inf m u) by exact (le_inf_trans _ _ _ L3 L1).
    assert (Ll : le_inf m l) by exact (le_inf_trans _ _ _ L3 L2).
    assert (Cases : m = u \/ m = l \/ m = d) by (destruct E2 as [E2|E2]; [destruct E1 as [E1|E1]; rewrite E1 in E2|]; tauto).
    assert (Lower : forall p, reach i j p -> le_inf (option_map (Qplus (cost i j)) m) (Some (path_cost s1 s2 p))).
    { intros p R. inversion R; subst.
      - rewrite Hd in L4. destruct m as [x|]; cbn in L4 |- *; [|contradiction].
        unfold path_cost. cbn [map qsum fst snd]. unfold sq_diff. cbv zeta. lra.
      - pose proof (le_inf_trans _ _ _ Lu (best_le _ _ _ _ Hu H)) as X.
        destruct m as [x|]; cbn in X |- *; [|contradiction]. rewrite cost_snoc. lra.
      - pose proof (le_inf_trans _ _ _ Ll (best_le _ _ _ _ Hl H)) as X.
        destruct m as [x|]; cbn in X |- *; [|contradiction]. rewrite cost_snoc. lra.
      - pose proof (le_inf_trans _ _ _ L4 (best_le _ _ _ _ Hd H)) as X.
        destruct m as [x|]; cbn in X |- *; [|contradiction]. rewrite cost_snoc. lra. }
    unfold best, least_cost. destruct m as [x|] eqn:Em; cbn [option_map].
    - split.
      + destruct Cases as [C|[C|C]]; subst.
        * destruct i as [|i']; [discriminate|]. destruct Hu as [(p & R & E) _].
          exists (p ++ [(S i', j)]). split; [apply r_down; assumption|]. rewrite cost_snoc, E. ring.
        * destruct j as [|j']; [discriminate|]. destruct Hl as [(p & R & E) _].
          exists (p ++ [(i, S j')]). split; [apply r_right; assumption|]. rewrite cost_snoc, E. ring.
        * destruct i as [|i'], j as [|j']; try discriminate.
          -- injection Hd as ->. exists [(0, 0)]. split; [apply r_start, B|].
             unfold path_cost. cbn [map qsum fst snd]. unfold sq_diff. cbv zeta. ring.
          -- destruct Hd as [(p & R & E) _].
             exists (p ++ [(S i', S j')]). split; [apply r_diag; assumption|]. rewrite cost_snoc, E. ring.
      + intros p R. exact (Lower p R).
    - intros p R. exact (Lower p R).
  Qed.
  Lemma best_out i j : ~ band (i, j) -> best i j None.
  Proof. intros N p R. destruct (reach_ends _ _ _ R) as [q ->]. apply reach_band in R. apply Forall_app in R as [_ R]. apply Forall_inv in R. contradiction. Qed.
End Paths.

(** *** filling the table *)
Definition bandn (w n2 : nat) (c : cell) : Prop := fst c <= snd c + w /\ snd c < fst c + w /\ snd c < n2.
Lemma band_range_in w n2 i j : In j (band_range w n2 i) <-> bandn w n2 (i, j).
Proof. unfold band_range, bandn. cbn [fst snd]. rewrite in_seq. lia. Qed.

Section Fill.
  Variables (s1 s2 : list Q) (w : nat).
  Local Notation n2 := (length s2).
  Local Notation B := (bandn w n2).
  Local Notation best := (best B s1 s2).

  (** rows up to [i] are final, later rows untouched *)
  Definition rows_ok (i : nat) (T : table) : Prop :=
    T 0 0 = Some 0%Q /\ (forall b, T 0 (S b) = None) /\ (forall a, T (S a) 0 = None)
    /\ (forall a b, a < i -> best a b (T (S a) (S b)))
    /\ (forall a b, i <= a -> T (S a) (S b) = None).

  Lemma set_same T i j v : set_cell T i j v i j = v.
  Proof. unfold set_cell. rewrite !Nat.eqb_refl. reflexivity. Qed.
  Lemma set_other T i j v a b : (a, b) <> (i, j) -> set_cell T i j v a b = T a b.
  Proof.
    intros H. unfold set_cell. destruct (Nat.eqb_spec a i), (Nat.eqb_spec b j); try reflexivity.
    subst. congruence.
  Qed.

  (** within row [i], columns lo..lo+k-1 are done *)
  Definition row_part (i lo k : nat) (T0 T : table) : Prop :=
    (forall a b, a <> S i -> T a b = T0 a b)
    /\ T (S i) 0 = None
    /\ (forall b, lo <= b < lo + k -> best i b (T (S i) (S b)))
    /\ (forall b, b < lo \/ lo + k <= b -> T (S i) (S b) = None).

  Lemma row_part_fold i T0 : rows_ok i T0 ->
    forall k, i - w + k <= Nat.max (i - w) (Nat.min n2 (i + w)) ->
      row_part i (i - w) k T0 (fold_left (dtw_cell s1 s2 i) (seq (i - w) k) T0).
  Proof.
    intros (H00 & H0 & Hc & Hr & Hn). induction k as [|k IH]; intros Hk.
    - cbn. split; [reflexivity|]. split; [apply Hc|]. split; [intros; lia|]. intros b _. apply Hn. lia.
    - rewrite seq_S, fold_left_app. cbn [fold_left].
      specialize (IH ltac:(lia)). set (T := fold_left (dtw_cell s1 s2 i) (seq (i - w) k) T0) in *.
      destruct IH as (P1 & P2 & P3 & P4). set (lo := i - w) in *. set (j := lo + k) in *.
      assert (Bj : B (i, j)). { apply band_range_in. unfold band_range. rewrite in_seq. fold lo. lia. }
      assert (Hv : best i j (option_map (Qplus (sq_diff s1 s2 i j))
                     (emin (emin (T i (S j)) (T (S i) j)) (T i j)))).
      { apply best_cell; [exact Bj| | |].
        - destruct i as [|i']; [rewrite P1 by lia; apply H0|]. rewrite P1 by lia. apply Hr. lia.
        - destruct j as [|j'] eqn:Ej; [exact P2|].
          destruct (le_lt_dec lo j') as [L|L].
          + apply P3. lia.
          + rewrite P4 by lia. apply best_out. intros C. apply band_range_in in C.
            unfold band_range in C. rewrite in_seq in C. fold lo in C. lia.
        - destruct i as [|i']; [rewrite P1 by lia|rewrite P1 by lia].
          + destruct j as [|j']; [exact H00|apply H0].
          + destruct j as [|j']; [apply Hc|]. apply Hr. lia. }
      unfold dtw_cell at 1. split; [|split; [|split]].
      + intros a b Ha. rewrite set_other by congruence. apply P1, Ha.
      + rewrite set_other by congruence. exact P2.
      + intros b Hb. destruct (Nat.eq_dec b j) as [->|N]; [rewrite set_same; exact Hv|].
        rewrite set_other by congruence. apply P3. lia.
      + intros b Hb. rewrite set_other by (intros E; injection E as ->; lia). apply P4. lia.
  Qed.

  Lemma rows_step i T : rows_ok i T -> rows_ok (S i) (dtw_row s1 s2 w T i).
  Proof.
    intros H. unfold dtw_row, band_range. cbv zeta.
    pose proof (row_part_fold i T H (Nat.min n2 (i + w) - (i - w)) ltac:(lia)) as (P1 & P2 & P3 & P4).
    set (T' := fold_left _ _ T) in *. destruct H as (H00 & H0 & Hc & Hr & Hn).
    split; [rewrite P1 by lia; exact H00|]. split; [intros b; rewrite P1 by lia; apply H0|].
    split; [intros a; destruct (Nat.eq_dec a i) as [->|]; [exact P2|rewrite P1 by lia; apply Hc]|].
    split.
    - intros a b Ha. destruct (Nat.eq_dec a i) as [->|]; [|rewrite P1 by lia; apply Hr; lia].
      destruct (in_dec Nat.eq_dec b (band_range w n2 i)) as [I|I].
      + unfold band_range in I. rewrite in_seq in I. apply P3. lia.
      + rewrite P4.
        * apply best_out. intros C. apply I, band_range_in, C.
        * unfold band_range in I. rewrite in_seq in I. lia.
    - intros a b Ha. rewrite P1 by lia. apply Hn. lia.
  Qed.
  Lemma rows_all n : rows_ok n (fold_left (dtw_row s1 s2 w) (seq 0 n) init_table).
  Proof.
    induction n as [|n IH].
    - cbn. repeat split; try reflexivity; intros; lia.
    - rewrite seq_S, fold_left_app. cbn [fold_left Nat.add]. apply rows_step, IH.
  Qed.
End Fill.

Lemma least_cost_iff s1 s2 (P P' : list cell -> Prop) r :
  (forall p, P p <-> P' p) -> least_cost s1 s2 P r -> least_cost s1 s2 P' r.
Proof.
  intros H. destruct r as [d|]; cbn.
  - intros [(p & Hp & E) L]. split; [exists p; split; [apply H, Hp|exact E]|]. intros q Hq. apply L, H, Hq.
  - intros N p Hp. apply (N p), H, Hp.
Qed.

(** a path to the last pair never leaves the rectangle *)
Lemma reach_bounds band i j p : reach band i j p -> Forall (fun c => fst c <= i /\ snd c <= j) p.
Proof.
  induction 1 as [|i j p H IH B|i j p H IH B|i j p H IH B]; [repeat constructor; cbn; lia| | |];
    (apply Forall_app; split; [eapply Forall_impl; [|exact IH]; cbn; intros; lia|repeat constructor; cbn; lia]).
Qed.
Lemma warping_bounds band n1 n2 p : 0 < n1 -> 0 < n2 -> warping_path band n1 n2 p ->
  Forall (fun c => fst c < n1 /\ snd c < n2) p.
Proof.
  intros H1 H2 H. destruct n1 as [|a]; [lia|]. destruct n2 as [|b]; [lia|].
  apply path_reach in H. apply reach_bounds in H. eapply Forall_impl; [|exact H]. cbn. intros; lia.
Qed.

Lemma c20_best s1 s2 w : s1 <> [] -> s2 <> [] ->
  least_cost s1 s2 (warping_path (in_band (band_width s1 s2 w)) (length s1) (length s2)) (dtw s1 s2 w).
Proof.
  intros N1 N2. unfold dtw. set (w' := band_width s1 s2 w).
  pose proof (rows_all s1 s2 w' (length s1)) as (_ & _ & _ & R & _).
  destruct s1 as [|x t1] eqn:E1; [congruence|]. destruct s2 as [|y t2] eqn:E2; [congruence|].
  rewrite <- E1, <- E2 in *. assert (L1 : length s1 = S (length t1)) by (rewrite E1; reflexivity).
  assert (L2 : length s2 = S (length t2)) by (rewrite E2; reflexivity).
  specialize (R (length t1) (length t2) ltac:(lia)). rewrite <- L1, <- L2 in R.
  eapply least_cost_iff; [|exact R]. intros p. split.
  - intros H. apply reach_path in H. rewrite <- L1, <- L2 in H.
    destruct H as (A & B & C & D). split; [exact A|]. split; [exact B|]. split; [exact C|].
    eapply Forall_impl; [|exact D]. unfold bandn, in_band. cbn. intros c; tauto.
  - intros H. assert (P1 : 0 < length s1) by lia. assert (P2 : 0 < length s2) by lia.
    pose proof (warping_bounds _ _ _ _ P1 P2 H) as Bd.
    apply path_reach. rewrite <- L1, <- L2.
    destruct H as (A & B & C & D). split; [exact A|]. split; [exact B|]. split; [exact C|].
    rewrite Forall_forall in *. intros c Hc. specialize (Bd c Hc). specialize (D c Hc).
    unfold bandn, in_band in *. tauto.
Qed.

(** *** the empty series *)
Lemma dtw_nil_nil w : dtw [] [] w = Some 0%Q.
Proof. reflexivity. Qed.
Lemma dtw_nil_l y t w : dtw [] (y :: t) w = None.
Proof. reflexivity. Qed.
Lemma dtw_nil_r x t w : dtw (x :: t) [] w = None.
Proof.
  unfold dtw. pose proof (rows_all (x :: t) [] (band_width (x :: t) [] w) (length (x :: t))) as (_ & _ & H & _).
  apply (H (length t)).
Qed.

(** *** LB_Keogh *)
Lemma list_min_le l x : In x l -> exists m, list_min l = Some m /\ (m <= x)%Q.
Proof.
  induction l as [|y t IH]; [contradiction|]. intros [->|H]; cbn [list_min].
  - destruct (list_min t) as [m|]; [|exists x; split; [reflexivity|lra]].
    destruct (Qle_bool x m) eqn:E; eexists; (split; [reflexivity|]); [lra|].
    destruct (Qlt_le_dec m x) as [L|L]; [lra|]. apply Qle_bool_iff in L. congruence.
  - destruct (IH H) as (m & -> & L). destruct (Qle_bool y m) eqn:E; eexists; (split; [reflexivity|]); [|exact L].
    apply Qle_bool_iff in E. lra.
Qed.
Lemma list_max_ge l x : In x l -> exists m, list_max l = Some m /\ (x <= m)%Q.
Proof.
  induction l as [|y t IH]; [contradiction|]. intros [->|H]; cbn [list_max].
  - destruct (list_max t) as [m|]; [|exists x; split; [reflexivity|lra]].
    destruct (Qle_bool m x) eqn:E; eexists; (split; [reflexivity|]); [lra|].
    destruct (Qlt_le_dec x m) as [L|L]; [lra|]. apply Qle_bool_iff in L. congruence.
  - destruct (IH H) as (m & -> & L). destruct (Qle_bool m y) eqn:E; eexists; (split; [reflexivity|]); [|exact L].
    apply Qle_bool_iff in E. lra.
Qed.
Lemma keogh_window_in s2 w i j : bandn w (length s2) (i, j) -> In (nth j s2 0%Q) (keogh_window s2 w i).
Proof.
  unfold bandn. cbn [fst snd]. intros (A & B & C). unfold keogh_window. cbv zeta.
  set (lo := i - w).
  replace (nth j s2 0%Q) with (nth (j - lo) (firstn (i + w - lo) (skipn lo s2)) 0%Q).
  - apply nth_In. rewrite firstn_length, skipn_length. lia.
  - assert (F : forall (l : list Q) k n d, k < n -> nth k (firstn n l) d = nth k l d).
    { induction l as [|x t IH]; intros k n d H; [destruct n; reflexivity|].
      destruct n; [lia|]. cbn. destruct k; [reflexivity|]. apply IH. lia. }
    rewrite F by lia.
    assert (G : forall (l : list Q) m k d, nth k (skipn m l) d = nth (m + k) l d).
    { induction l as [|x t IH]; intros m k d; [rewrite skipn_nil; destruct k, (m + _); destruct m; reflexivity|].
      destruct m; [reflexivity|]. cbn [skipn Nat.add nth]. apply IH. }
    rewrite G. f_equal. lia.
Qed.
Lemma keogh_term_le s1 s2 w i j : bandn w (length s2) (i, j) ->
  exists d, keogh_term s2 w i (nth i s1 0%Q) = Some d /\ (d <= sq_diff s1 s2 i j)%Q.
Proof.
  intros B. pose proof (keogh_window_in _ _ _ _ B) as I.
  destruct (list_min_le _ _ I) as (lo & E1 & L1). destruct (list_max_ge _ _ I) as (up & E2 & L2).
  unfold keogh_term. rewrite E1, E2. eexists. split; [reflexivity|].
  unfold sq_diff. cbv zeta. set (x := nth i s1 0%Q) in *. set (y := nth j s2 0%Q) in *. clearbody x y. clear B I E1 E2.
  assert (SQ : forall a b, (a <= b -> 0 <= a -> a * a <= b * b)%Q) by (intros; nra).
  assert (SY : ((x - y) * (x - y) == (y - x) * (y - x))%Q) by ring.
  destruct (Qle_bool x up) eqn:Q1.
  - destruct (Qle_bool lo x) eqn:Q2; [clear; set (z := (x - y)%Q); clearbody z; nra|].
    assert (x < lo)%Q by (destruct (Qlt_le_dec x lo) as [L|L]; [exact L|apply Qle_bool_iff in L; congruence]).
    rewrite SY. setoid_replace ((x - lo) * (x - lo))%Q with ((lo - x) * (lo - x))%Q by ring. apply SQ; lra.
  - assert (up < x)%Q by (destruct (Qlt_le_dec up x) as [L|L]; [exact L|apply Qle_bool_iff in L; congruence]).
    apply SQ; lra.
Qed.

(** the bound of a prefix of s1 *)
Definition term (s2 : list Q) (w : nat) (s1 : list Q) (i : nat) : Q :=
  match keogh_term s2 w i (nth i s1 0%Q) with Some d => d | None => 0%Q end.
Lemma keogh_from_sum s2 w s1 : forall rest ind acc,
  (forall i, ind <= i < ind + length rest -> keogh_term s2 w i (nth i s1 0%Q) <> None) ->
  (forall i, i < length rest -> nth i rest 0%Q = nth (ind + i) s1 0%Q) ->
  exists b, keogh_from s2 w ind rest acc = Some b
    /\ (b == acc + sumn (length rest) (fun i => term s2 w s1 (ind + i)))%Q.
Proof.
  induction rest as [|x t IH]; intros ind acc H N; cbn [keogh_from length].
  - exists acc. split; [reflexivity|]. cbn. ring.
  - pose proof (N 0 ltac:(cbn; lia)) as N0. cbn [nth] in N0. rewrite Nat.add_0_r in N0. rewrite N0.
    destruct (keogh_term s2 w ind (nth ind s1 0%Q)) as [d|] eqn:E; [|exfalso; apply (H ind); [cbn [length]; lia|exact E]].
    destruct (IH (S ind) (acc + d)%Q) as (b & Eb & HS).
    + intros i Hi. apply H. cbn [length]. lia.
    + intros i Hi. specialize (N (S i) ltac:(cbn [length]; lia)). cbn [nth] in N. rewrite N. f_equal. lia.
    + exists b. split; [exact Eb|]. rewrite HS, sumn_S_first.
      replace (ind + 0) with ind by lia. unfold term at 2. rewrite E.
      rewrite (sumn_ext (length t) (fun i => term s2 w s1 (ind + S i)) (fun i => term s2 w s1 (S ind + i))).
      * ring.
      * intros i _. replace (ind + S i) with (S ind + i) by lia. reflexivity.
Qed.
Lemma keogh_path w s1 s2 i j p : reach (bandn w (length s2)) i j p ->
  (sumn (S i) (term s2 w s1) <= path_cost s1 s2 p)%Q.
Proof.
  assert (T : forall i j, bandn w (length s2) (i, j) -> (term s2 w s1 i <= sq_diff s1 s2 i j)%Q).
  { intros a b B. destruct (keogh_term_le s1 s2 w a b B) as (d & E & L). unfold term. rewrite E. exact L. }
  induction 1 as [B|i j p H IH B|i j p H IH B|i j p H IH B].
  - cbn [sumn]. specialize (T _ _ B). unfold path_cost. cbn [map qsum fst snd]. unfold sq_diff in T. cbv zeta in T. lra.
  - rewrite cost_snoc. cbn [sumn] in *. specialize (T _ _ B). lra.
  - rewrite cost_snoc. pose proof (cost_nonneg s1 s2 i (S j)). lra.
  - rewrite cost_snoc. cbn [sumn] in *. specialize (T _ _ B). lra.
Qed.

Lemma band_width_eq s1 s2 w : length s1 = length s2 -> band_width s1 s2 w = w.
Proof. intros H. unfold band_width. lia. Qed.

Lemma lb_defined s1 s2 w : length s1 = length s2 -> 1 <= w ->
  exists b, lb_keogh s1 s2 w = Some b /\ (b == sumn (length s1) (term s2 w s1))%Q.
Proof.
  intros L Hw. unfold lb_keogh.
  destruct (keogh_from_sum s2 w s1 s1 0 0%Q) as (b & E & HS).
  - intros i Hi C. destruct (keogh_term_le s1 s2 w i i) as (d & Ed & _); [|congruence].
    unfold bandn. cbn [fst snd]. lia.
  - reflexivity.
  - exists b. split; [exact E|]. rewrite HS, Qplus_0_l. apply sumn_ext. intros; reflexivity.
Qed.
Lemma c21_bound s1 s2 w : length s1 = length s2 -> 1 <= w ->
  exists b, lb_keogh s1 s2 w = Some b /\ le_inf (Some b) (dtw s1 s2 w).
Proof.
  intros L Hw. destruct (lb_defined s1 s2 w L Hw) as (b & E & HS). exists b. split; [exact E|].
  destruct s1 as [|x t1].
  - destruct s2; [|discriminate]. cbn. cbn in HS. rewrite HS. lra.
  - destruct s2 as [|y t2]; [discriminate|].
    pose proof (c20_best (x :: t1) (y :: t2) w ltac:(discriminate) ltac:(discriminate)) as C.
    rewrite band_width_eq in C by exact L.
    destruct (dtw (x :: t1) (y :: t2) w) as [d|]; [|exact I]. cbn [le_inf].
    destruct C as [(p & P & Ep) _]. rewrite <- Ep.
    pose proof (warping_bounds _ (length (x :: t1)) (length (y :: t2)) p ltac:(cbn; lia) ltac:(cbn; lia) P) as Bd.
    assert (R : reach (bandn w (length (y :: t2))) (length t1) (length t2) p).
    { apply path_reach. destruct P as (A & B & C & D). split; [exact A|]. split; [exact B|]. split; [exact C|].
      rewrite Forall_forall in *. intros c Hc. specialize (Bd c Hc). specialize (D c Hc).
      unfold bandn, in_band in *. tauto. }
    apply (keogh_path w (x :: t1)) in R. rewrite HS. exact R.
Qed.

(** *** self distance *)
Lemma diag_reach (band : cell -> Prop) n : (forall i, i <= n -> band (i, i)) -> exists p, reach band n n p
  /\ forall c, In c p -> fst c = snd c.
Proof.
  induction n as [|n IH]; intros H.
  - exists [(0, 0)]. split; [apply r_start, H; lia|]. intros c [<-|[]]. reflexivity.
  - destruct IH as (p & R & D); [intros; apply H; lia|].
    exists (p ++ [(S n, S n)]). split; [apply r_diag; [exact R|apply H; lia]|].
    intros c Hc. apply in_app_iff in Hc as [Hc|[<-|[]]]; [apply D, Hc|reflexivity].
Qed.
Lemma path_cost_nonneg s1 s2 p : (0 <= path_cost s1 s2 p)%Q.
Proof. unfold path_cost. apply qsum_nonneg. intros x Hx. apply in_map_iff in Hx as (c & <- & _). cbv zeta.
  set (z := (_ - _)%Q). clearbody z. nra. Qed.
Lemma path_cost_diag s p : (forall c, In c p -> fst c = snd c) -> (path_cost s s p == 0)%Q.
Proof.
  induction p as [|c t IH]; intros H; [reflexivity|]. unfold path_cost in *. cbn [map qsum].
  rewrite IH by (intros; apply H; right; assumption). rewrite (H c) by (left; reflexivity). cbv zeta. ring.
Qed.
Lemma dtw_finite s1 s2 w : length s1 = length s2 -> 1 <= w -> exists d, dtw s1 s2 w = Some d.
Proof.
  intros L Hw. destruct s1 as [|x t1]; [destruct s2; [|discriminate]; eexists; reflexivity|].
  destruct s2 as [|y t2]; [discriminate|].
  pose proof (c20_best (x :: t1) (y :: t2) w ltac:(discriminate) ltac:(discriminate)) as C.
  rewrite band_width_eq in C by exact L.
  destruct (dtw (x :: t1) (y :: t2) w) as [d|]; [eexists; reflexivity|]. exfalso.
  destruct (diag_reach (in_band w) (length t1)) as (p & R & _).
  - intros i _. unfold in_band. cbn. lia.
  - apply reach_path in R. apply (C p). cbn [length] in *. injection L as L. rewrite <- L. exact R.
Qed.
Lemma c23_self s w : 1 <= w -> exists d, dtw s s w = Some d /\ (d == 0)%Q.
Proof.
  intros Hw. destruct (dtw_finite s s w eq_refl Hw) as [d E]. exists d. split; [exact E|].
  destruct s as [|x t]; [rewrite dtw_nil_nil in E; injection E as <-; reflexivity|].
  pose proof (c20_best (x :: t) (x :: t) w ltac:(discriminate) ltac:(discriminate)) as C.
  rewrite band_width_eq in C by reflexivity. rewrite E in C. destruct C as [(p & _ & Ep) Lo].
  destruct (diag_reach (in_band w) (length t)) as (q & R & D).
  - intros i _. unfold in_band. cbn. lia.
  - apply reach_path in R. specialize (Lo q R). rewrite (path_cost_diag _ _ D) in Lo.
    pose proof (path_cost_nonneg (x :: t) (x :: t) p). lra.
Qed.
Lemma c23_zero_width x t : dtw (x :: t) (x :: t) 0 = None.
Proof.
  pose proof (c20_best (x :: t) (x :: t) 0 ltac:(discriminate) ltac:(discriminate)) as C.
  rewrite band_width_eq in C by reflexivity. destruct (dtw (x :: t) (x :: t) 0) as [d|]; [|reflexivity].
  exfalso. destruct C as [(p & (A & _ & _ & D) & _) _]. destruct p as [|c p]; [discriminate|].
  apply Forall_inv in D. unfold in_band in D. cbn in A. injection A as ->. cbn in D. lia.
Qed.

(** *** symmetry of a full band *)
Definition flip (c : cell) : cell := (snd c, fst c).
Lemma flip_path (b1 b2 : cell -> Prop) n1 n2 p :
  (forall c, fst c < n1 -> snd c < n2 -> b2 (flip c)) -> 0 < n1 -> 0 < n2 ->
  warping_path b1 n1 n2 p -> warping_path b2 n2 n1 (map flip p).
Proof.
  intros Hb P1 P2 H. pose proof (warping_bounds _ _ _ _ P1 P2 H) as Bd.
  destruct H as (A & (q & B) & C & D). split; [|split; [|split]].
  - destruct p; [discriminate|]. cbn in A. injection A as ->. reflexivity.
  - exists (map flip q). rewrite B, map_app. reflexivity.
  - intros l a b r E.
    assert (X : exists l' a' b' r', p = l' ++ a' :: b' :: r' /\ a = flip a' /\ b = flip b').
    { apply map_eq_app in E as (l1 & l2 & -> & _ & E).
      destruct l2 as [|a' [|b' r']]; try discriminate. cbn in E. injection E as <- <- _.
      exists l1, a', b', r'. repeat split. }
    destruct X as (l' & a' & b' & r' & Ep & -> & ->).
    destruct (C _ _ _ _ Ep) as [->|[->| ->]]; unfold path_step, flip; cbn; auto.
  - rewrite Forall_forall in *. intros c Hc. apply in_map_iff in Hc as (c' & <- & Hc).
    specialize (Bd c' Hc). apply Hb; apply Bd.
Qed.
Lemma flip_cost s1 s2 p : (path_cost s2 s1 (map flip p) == path_cost s1 s2 p)%Q.
Proof.
  unfold path_cost. rewrite map_map. apply qsum_ext. intros c _. unfold flip. cbn [fst snd]. cbv zeta. ring.
Qed.
Lemma c23_wide s1 s2 w : length s1 <= w -> length s2 <= w -> eq_inf (dtw s1 s2 w) (dtw s2 s1 w).
Proof.
  intros H1 H2. destruct s1 as [|x t1], s2 as [|y t2].
  - cbn. reflexivity.
  - rewrite dtw_nil_l, dtw_nil_r. exact I.
  - rewrite dtw_nil_l, dtw_nil_r. exact I.
  - set (s1 := x :: t1) in *. set (s2 := y :: t2) in *.
    assert (P1 : 0 < length s1) by (cbn; lia). assert (P2 : 0 < length s2) by (cbn; lia).
    pose proof (c20_best s1 s2 w ltac:(discriminate) ltac:(discriminate)) as C.
    pose proof (c20_best s2 s1 w ltac:(discriminate) ltac:(discriminate)) as C'.
    assert (W1 : band_width s1 s2 w = w) by (unfold band_width; lia).
    assert (W2 : band_width s2 s1 w = w) by (unfold band_width; lia).
    rewrite W1 in C. rewrite W2 in C'.
    assert (F1 : forall p, warping_path (in_band w) (length s1) (length s2) p ->
                   warping_path (in_band w) (length s2) (length s1) (map flip p)).
    { intros p. apply flip_path; try assumption. intros c ? ?. unfold in_band, flip. cbn. lia. }
    assert (F2 : forall p, warping_path (in_band w) (length s2) (length s1) p ->
                   warping_path (in_band w) (length s1) (length s2) (map flip p)).
    { intros p. apply flip_path; try assumption. intros c ? ?. unfold in_band, flip. cbn. lia. }
    destruct (dtw s1 s2 w) as [d|], (dtw s2 s1 w) as [d'|]; cbn [eq_inf]; try exact I.
    + destruct C as [(p & Pp & Ep) L]. destruct C' as [(q & Pq & Eq) L'].
      specialize (L _ (F2 q Pq)). specialize (L' _ (F1 p Pp)). rewrite flip_cost in L, L'. lra.
    + destruct C as [(p & Pp & _) _]. apply (C' _ (F1 p Pp)).
    + destruct C' as [(q & Pq & _) _]. apply (C _ (F2 q Pq)).
Qed.
