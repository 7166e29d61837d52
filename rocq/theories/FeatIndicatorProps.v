(** Theorems about the bounded indicators and the column names (C138, C139). *)
From Coq Require Import String.
From Verif Require Import Common FeatModel FeatSpec FeatProofs FeatProps.
Open Scope nat_scope.

Lemma upper_bound : forall s : column, exists hi, forall v, In (Some v) s -> (v <= hi)%Q.
Proof.
  induction s as [|x s (hi & IH)]; [exists 0%Q; intros v []|]. destruct x as [x|].
  - exists (if Qle_bool x hi then hi else x). intros v [E|E].
    + injection E as <-. destruct (Qle_bool x hi) eqn:B; [now apply Qle_bool_iff|lra].
    + specialize (IH v E). destruct (Qle_bool x hi) eqn:B; [exact IH|].
      assert (~ (x <= hi)%Q) by (intros X; apply Qle_bool_iff in X; congruence). lra.
  - exists hi. intros v [E|E]; [discriminate|now apply IH].
Qed.
Lemma ewm_nonneg alpha adjust minp s : (0 < alpha)%Q -> (alpha <= 1)%Q -> (forall v, In (Some v) s -> (0 <= v)%Q) ->
  forall v, In (Some v) (ewm alpha adjust minp s) -> (0 <= v)%Q.
Proof.
  intros A0 A1 H v I. destruct (upper_bound s) as (hi & B).
  assert (W : within 0 hi s) by (intros x X; split; [now apply H|now apply B]).
  assert (J : (0 <= 1)%Q /\ forall x, @None Q = Some x -> (0 <= x <= hi)%Q) by (split; [lra|discriminate]).
  apply (ewm_convex alpha adjust minp 0 hi A0 A1 s (None, 1%Q, 0) W J v I).
Qed.
Lemma inv_range n : 1 <= n -> (0 < 1 / inject_Z (Z.of_nat n))%Q /\ (1 / inject_Z (Z.of_nat n) <= 1)%Q.
Proof.
  intros H. assert (1 <= inject_Z (Z.of_nat n))%Q. { change 1%Q with (inject_Z 1). rewrite <- Zle_Qle. lia. }
  split; [apply Qlt_shift_div_l; lra|apply Qle_shift_div_r; lra].
Qed.
Lemma up_nonneg s v : In (Some v) (map up_move s) -> (0 <= v)%Q.
Proof.
  intros I. apply in_map_iff in I as ([d|] & E & _); cbn in E; injection E as <-; [|lra].
  destruct (Qle_bool d 0) eqn:B; [lra|]. assert (~ (d <= 0)%Q) by (intros X; apply Qle_bool_iff in X; congruence). lra.
Qed.
Lemma down_nonneg s v : In (Some v) (map down_move s) -> (0 <= v)%Q.
Proof.
  intros I. apply in_map_iff in I as ([d|] & E & _); cbn in E; injection E as <-; [|lra].
  destruct (Qle_bool 0 d) eqn:B; [lra|]. assert (~ (0 <= d)%Q) by (intros X; apply Qle_bool_iff in X; congruence). lra.
Qed.
Lemma rsi_value u d : (0 <= u)%Q -> (0 < d)%Q -> (0 <= 100 - 100 / (1 + u / d))%Q /\ (100 - 100 / (1 + u / d) < 100)%Q.
Proof.
  intros U D. assert (R : (0 <= u / d)%Q) by (apply Qle_shift_div_l; lra).
  assert (X : (100 / (1 + u / d) <= 100)%Q) by (apply Qle_shift_div_r; lra).
  assert (Y : (0 < 100 / (1 + u / d))%Q) by (apply Qlt_shift_div_l; lra). lra.
Qed.
(** ** C138 *)
(** The relative strength index lies between 0 and 100. *)
Theorem C138_rsi_range : forall n s, 1 <= n -> within 0 100 (RSI n s).
Proof.
  intros n s N v I. unfold RSI in I. cbv zeta in I. apply map2_in in I as (x & y & X & Y & E).
  destruct (inv_range n N) as [A0 A1]. destruct y as [d|]; [|discriminate]. cbn in E.
  destruct (Qeq_bool d 0) eqn:Z; [injection E as ->; lra|]. destruct x as [u|]; [|discriminate].
  injection E as ->.
  assert (U : (0 <= u)%Q) by (apply (ewm_nonneg _ false n _ A0 A1 (up_nonneg (diff 1 s)) u X)).
  assert (D : (0 <= d)%Q) by (apply (ewm_nonneg _ false n _ A0 A1 (down_nonneg (diff 1 s)) d Y)).
  assert (~ d == 0)%Q by (intros Q0; apply Qeq_bool_iff in Q0; congruence).
  destruct (rsi_value u d); lra.
Qed.
Lemma row_map f (s : column) i : i < length s -> row (map f s) i = f (row s i).
Proof.
  intros H. unfold row. rewrite (nth_indep _ None (f None)) by (rewrite map_length; exact H). apply map_nth.
Qed.
(** plain exponential averages of a column without missing values *)
Lemma ewm_plain alpha s : (0 < alpha)%Q -> (alpha < 1)%Q -> (forall v, In v s -> v <> None) -> (forall v, In (Some v) s -> (0 <= v)%Q) ->
  forall k, k < length s -> exists v o, after alpha false (S k) s = (Some v, o, S k) /\ (o == 1)%Q /\ (0 <= v)%Q /\
    ((v == 0)%Q <-> forall j x, j <= k -> row s j = Some x -> (x == 0)%Q).
Proof.
  intros A0 A1 H P. induction k as [|k IH]; intros L.
  - rewrite after_S by exact L. unfold after. cbn [firstn fold_left]. 
    destruct (row s 0) as [c|] eqn:R; [|now destruct (H (row s 0)); [apply nth_In|]].
    exists c, 1%Q. cbn [ewm_step]. split; [reflexivity|]. split; [reflexivity|].
    split; [apply P; rewrite <- R; apply nth_In; exact L|]. split.
    + intros Z j x J E. replace j with 0 in E by lia. rewrite R in E. injection E as <-. exact Z.
    + intros Z. now apply (Z 0).
  - destruct IH as (v & o & E & O & V & I); [lia|]. rewrite after_S by exact L. rewrite E.
    destruct (row s (S k)) as [c|] eqn:R; [|now destruct (H (row s (S k))); [apply nth_In|]].
    assert (C : (0 <= c)%Q) by (apply P; rewrite <- R; apply nth_In; exact L).
    cbn [ewm_step]. unfold new_wt. eexists. eexists. split; [reflexivity|]. split; [reflexivity|].
    set (z := ((o * (1 - alpha) * v + alpha * c) / (o * (1 - alpha) + alpha))%Q).
    assert (Z : (z == (1 - alpha) * v + alpha * c)%Q).
    { unfold z. rewrite O. field. lra. }
    rewrite Z. split; [nra|]. split.
    + intros Q0 j x J X. assert (V0 : (v == 0)%Q) by nra. assert (C0 : (c == 0)%Q) by nra.
      destruct (Nat.eq_dec j (S k)) as [->|NE].
      * rewrite R in X. injection X as <-. exact C0.
      * apply (proj1 I V0 j x); [lia|exact X].
    + intros A. assert (V0 : (v == 0)%Q). { apply I. intros j x J X. apply (A j x); [lia|exact X]. }
      assert (C0 : (c == 0)%Q) by (apply (A (S k)); [lia|exact R]). rewrite V0, C0. ring.
Qed.
(** It is there from row n - 1 on, and is 100 exactly if no value so far was below the one before: a constant series has the
    index 100 (as if it only rose). *)
Theorem C138_rsi_full : forall n s i, 2 <= n -> i < length s ->
  (i < n - 1 -> row (RSI n s) i = None) /\
  (n - 1 <= i -> exists v, row (RSI n s) i = Some v /\
     ((v == 100)%Q <-> forall j a b, j < i -> row s j = Some a -> row s (S j) = Some b -> (a <= b)%Q)).
Proof.
  intros n s i N H. destruct (inv_range n) as [A0 A1]; [lia|].
  assert (A2 : (1 / inject_Z (Z.of_nat n) < 1)%Q).
  { assert (2 <= inject_Z (Z.of_nat n))%Q. { change 2%Q with (inject_Z 2). rewrite <- Zle_Qle. lia. } apply Qlt_shift_div_r; lra. }
  unfold RSI. cbv zeta. set (al := (1 / inject_Z (Z.of_nat n))%Q) in *.
  assert (LD : length (diff 1 s) = length s) by (unfold diff; rewrite map2_length, shift_length; lia).
  set (u := map up_move (diff 1 s)). set (d := map down_move (diff 1 s)).
  assert (Lu : length u = length s) by (unfold u; now rewrite map_length).
  assert (Ld : length d = length s) by (unfold d; now rewrite map_length).
  unfold row at 1. unfold row at 1.
  rewrite (map2_nth rsi_of (ewm al false n u) (ewm al false n d) i None None) by (rewrite (proj1 (causal_ewm al false n _)); lia).
  rewrite !ewm_nth by lia.
  assert (Nu : forall v, In v u -> v <> None).
  { intros v I. apply in_map_iff in I as ([q|] & E & _); cbn in E; rewrite <- E; discriminate. }
  assert (Nd : forall v, In v d -> v <> None).
  { intros v I. apply in_map_iff in I as ([q|] & E & _); cbn in E; rewrite <- E; discriminate. }
  destruct (ewm_plain al u A0 A2 Nu (up_nonneg (diff 1 s)) i) as (uv & uo & Eu & _ & U & _); [lia|].
  destruct (ewm_plain al d A0 A2 Nd (down_nonneg (diff 1 s)) i) as (dv & do & Ed & _ & D & ID); [lia|].
  rewrite Eu, Ed. cbn [ewm_out]. replace (Nat.max n 1) with n by lia. split; intros L.
  - rewrite (proj2 (Nat.leb_gt _ _)) by lia. reflexivity.
  - rewrite (proj2 (Nat.leb_le _ _)) by lia. cbn [rsi_of].
    assert (K : (dv == 0)%Q <-> forall j a b, j < i -> row s j = Some a -> row s (S j) = Some b -> (a <= b)%Q).
    { rewrite ID. split.
      - intros Z j a b J Ra Rb. specialize (Z (S j)).
        assert (E : row d (S j) = down_move (Some (b - a)%Q)).
        { unfold d. rewrite row_map by lia. f_equal. unfold row, diff. rewrite (map2_nth qsub s (shift 1 s) (S j) None None) by (rewrite ?shift_length; lia).
          rewrite shift_nth by lia. cbn [Nat.ltb Nat.leb]. replace (S j - 1) with j by lia. unfold row in Ra, Rb. now rewrite Ra, Rb. }
        rewrite E in Z. cbn in Z. specialize (Z _ ltac:(lia) eq_refl).
        destruct (Qle_bool 0 (b - a)) eqn:B; [apply Qle_bool_iff in B; lra|].
        assert (~ (0 <= b - a)%Q) by (intros X; apply Qle_bool_iff in X; congruence). lra.
      - intros Z j x J R. unfold d in R. rewrite row_map in R by lia. unfold row, diff in R.
        rewrite (map2_nth qsub s (shift 1 s) j None None) in R by (rewrite ?shift_length; lia). rewrite shift_nth in R by lia.
        destruct j as [|j].
        + cbn in R. destruct (nth 0 s None); cbn in R; injection R as <-; reflexivity.
        + cbn [Nat.ltb Nat.leb] in R. replace (S j - 1) with j in R by lia.
          destruct (nth (S j) s None) as [b|] eqn:Eb; [|cbn in R; injection R as <-; reflexivity].
          destruct (nth j s None) as [a|] eqn:Ea; [|cbn in R; injection R as <-; reflexivity].
          specialize (Z j a b ltac:(lia) Ea Eb). cbn in R. rewrite (proj2 (Qle_bool_iff _ _)) in R by lra. injection R as <-. reflexivity. }
    destruct (Qeq_bool dv 0) eqn:Q0.
    + exists 100%Q. split; [reflexivity|]. split; [intros _; apply K; now apply Qeq_bool_iff|reflexivity].
    + assert (ND : ~ (dv == 0)%Q) by (intros X; apply Qeq_bool_iff in X; congruence).
      eexists. split; [reflexivity|]. destruct (rsi_value uv dv U) as [R1 R2]; [lra|]. split; [lra|].
      intros X. apply K in X. contradiction.
Qed.
Example C138_rsi_case : map (option_map Qred) (RSI 2 [Some 5; Some 5; Some 5]%Q) = [None; Some 100; Some 100]%Q.
Proof. vm_compute. reflexivity. Qed.
(** one column bounded by another *)
Definition bounded_by (x y : option Q) : Prop :=
  match x, y with Some x, Some y => (Qabs x <= y)%Q | None, None => True | _, _ => False end.
Lemma ewm_bounded alpha adjust minp : (0 < alpha)%Q -> (alpha <= 1)%Q -> forall s a, Forall2 bounded_by s a -> forall v v' o n,
  bounded_by v v' -> (0 <= o)%Q ->
  Forall2 bounded_by (ewm_go alpha adjust minp (v, o, n) s) (ewm_go alpha adjust minp (v', o, n) a).
Proof.
  intros A0 A1 s a F. induction F as [|x y s a B F IH]; intros v v' o n V O; [constructor|].
  cbn [ewm_go].
  assert (ST : exists w w' o' n', ewm_step alpha adjust (v, o, n) x = (w, o', n') /\ ewm_step alpha adjust (v', o, n) y = (w', o', n') /\ bounded_by w w' /\ (0 <= o')%Q).
  { assert (OW : (0 <= o * (1 - alpha))%Q) by nra.
    destruct v as [v|], v' as [v'|], x as [x|], y as [y|]; cbn [bounded_by] in V, B; try contradiction; cbn [ewm_step].
    - do 4 eexists. split; [reflexivity|]. split; [reflexivity|].
      assert (NW : (0 < new_wt alpha adjust)%Q) by (unfold new_wt; destruct adjust; lra).
      set (W := new_wt alpha adjust) in *. set (P := (o * (1 - alpha))%Q) in *. split; [|destruct adjust; unfold W, P, new_wt in *; lra].
      cbn [bounded_by]. apply Qabs_Qle_condition in V. apply Qabs_Qle_condition in B. apply Qabs_Qle_condition.
      assert (E : (- ((P * v' + W * y) / (P + W)) == (- (P * v' + W * y)) / (P + W))%Q) by (field; lra). rewrite E.
      split; (apply Qle_shift_div_l; [lra|]); rewrite Qmult_comm, Qmult_div_r by lra; nra.
    - do 4 eexists. split; [reflexivity|]. split; [reflexivity|]. split; [exact V|exact OW].
    - do 4 eexists. split; [reflexivity|]. split; [reflexivity|]. split; [exact B|exact O].
    - do 4 eexists. split; [reflexivity|]. split; [reflexivity|]. split; [exact I|exact O]. }
  destruct ST as (w & w' & o' & n' & E1 & E2 & BW & O'). rewrite E1, E2. constructor; [|now apply IH].
  cbn [ewm_out]. destruct (Nat.max minp 1 <=? n'); [exact BW|exact I].
Qed.
Lemma forall2_map2 f : forall s a, Forall2 bounded_by s a ->
  (forall x y, bounded_by x y -> forall v, f x y = Some v -> (-1 <= v <= 1)%Q) -> within (-1) 1 (map2 f s a).
Proof.
  intros s a F H. induction F as [|x y s a B F IH]; intros v; [intros []|]. intros [E|E]; [now apply (H x y B)|now apply IH].
Qed.
(** The true strength index lies between -1 and 1. *)
Theorem C138_tsi_range : forall r s0 s, 1 <= r -> 1 <= s0 -> within (-1) 1 (TSI r s0 s).
Proof.
  intros r s0 s R S0. destruct (span_range1 r R) as [A0 A1], (span_range1 s0 S0) as [B0 B1]. unfold TSI. cbv zeta.
  apply forall2_map2.
  - unfold ewm_span, ewm. apply ewm_bounded; [exact B0|exact B1| |exact I|lra]. apply ewm_bounded; [exact A0|exact A1| |exact I|lra].
    induction (diff 1 s) as [|[x|] t IH]; cbn; constructor; try exact IH; cbn; [apply Qle_refl|exact I].
  - intros [x|] [y|] B v E; cbn in B, E; try contradiction; try discriminate.
    destruct (Qeq_bool y 0) eqn:Q0; [discriminate|]. injection E as <-.
    assert (~ (y == 0)%Q) by (intros X; apply Qeq_bool_iff in X; congruence).
    assert (0 <= Qabs x)%Q by apply Qabs_nonneg. assert (P : (0 < y)%Q) by lra.
    apply Qabs_Qle_condition in B. split; [apply Qle_shift_div_l|apply Qle_shift_div_r]; lra.
Qed.
(** In a series that only rises it is 1. *)
Example C138_tsi_case : map (option_map Qred) (TSI 2 2 [Some 1; Some 3; Some 4; Some 2]%Q) = [None; Some 1; Some 1; Some (-169 # 1127)]%Q.
Proof. vm_compute. reflexivity. Qed.

(** ** C139: column names *)
Definition feature_column (c f : string) : string := if String.eqb c "y" then f else (c ++ "_" ++ f)%string.
Definition absent (df : list (string * column)) (name : string) : Prop := forall s, ~ In (name, s) df.
Lemma existsb_absent (df : list (string * column)) name : absent df name -> existsb (fun p => String.eqb (fst p) name) df = false.
Proof.
  intros H. induction df as [|[k s] df IH]; [reflexivity|]. cbn. rewrite IH by (intros t T; apply (H t); now right).
  rewrite orb_false_r. apply String.eqb_neq. intros ->. apply (H s). now left.
Qed.
Lemma col_app (df : list (string * column)) k s name t : col df name = Some t -> col (df ++ [(k, s)]) name = Some t.
Proof.
  unfold col. induction df as [|[k' s'] df IH]; cbn; [discriminate|]. destruct (String.eqb k' name); [easy|exact IH].
Qed.
Lemma col_new (df : list (string * column)) k s : absent df k -> col (df ++ [(k, s)]) k = Some s.
Proof.
  unfold col. induction df as [|[k' s'] df IH]; cbn; intros H; [now rewrite String.eqb_refl|].
  destruct (String.eqb k' k) eqn:E.
  - apply String.eqb_eq in E as ->. destruct (H s'). now left.
  - apply IH. intros t T. apply (H t). now right.
Qed.
Lemma app_cancel_string : forall a b c : string, (a ++ c = b ++ c -> a = b)%string.
Proof.
  assert (L : forall a b, String.length (a ++ b) = String.length a + String.length b).
  { induction a as [|x a IH]; intros b; cbn; [reflexivity|]. now rewrite IH. }
  induction a as [|x a IH]; intros [|y b] c H; cbn in H.
  - reflexivity.
  - apply (f_equal String.length) in H. cbn in H. rewrite L in H. lia.
  - apply (f_equal String.length) in H. cbn in H. rewrite L in H. lia.
  - injection H as -> H. f_equal. now apply (IH b c).
Qed.
Lemma feature_column_inj c1 c2 f : c1 <> c2 -> feature_column c1 f <> feature_column c2 f.
Proof.
  assert (L : forall a b, String.length (a ++ b) = String.length a + String.length b).
  { induction a as [|x a IH]; intros b; cbn; [reflexivity|]. now rewrite IH. }
  intros N E. unfold feature_column in E. destruct (String.eqb_spec c1 "y") as [->|N1], (String.eqb_spec c2 "y") as [->|N2].
  - now apply N.
  - apply (f_equal String.length) in E. rewrite L in E. cbn in E. lia.
  - apply (f_equal String.length) in E. rewrite L in E. cbn in E. lia.
  - apply app_cancel_string in E. contradiction.
Qed.
(** ROC, MOM, MA and LAG can be computed for two columns of a frame; the old columns stay. *)
Theorem C139_columns : forall str n df c1 c2 s1 s2,
  col df c1 = Some s1 -> col df c2 = Some s2 -> c1 <> c2 ->
  forall add label F,
    In (add, label, F) [(add_ROC str n, "ROC_" ++ str n, ROC n); (add_MOM str n, "MOM_" ++ str n, MOM n);
                        (add_MA str n, "MA_" ++ str n, MA n); (add_LAG str n, "LAG_" ++ str n, LAG n)]%string ->
    absent df (feature_column c1 label) -> absent df (feature_column c2 label) ->
    exists df1 df2, add df c1 = Some df1 /\ add df1 c2 = Some df2 /\
      (forall name s, col df name = Some s -> col df2 name = Some s) /\
      col df2 (feature_column c1 label) = Some (F s1) /\ col df2 (feature_column c2 label) = Some (F s2).
Proof.
  intros str n df c1 c2 s1 s2 C1 C2 N add label F I A1 A2.
  assert (G : add = add_feature (fun c => prefixed c label) F).
  { cbn in I. destruct I as [I|[I|[I|[I|[]]]]]; injection I as <- <- <-; reflexivity. }
  subst add. clear I. unfold add_feature. rewrite C1. unfold join. change (prefixed ?c label) with (feature_column c label).
  rewrite (existsb_absent _ _ A1). eexists. 
  assert (A3 : absent (df ++ [(feature_column c1 label, F s1)]) (feature_column c2 label)).
  { intros t T. rewrite in_app_iff in T. destruct T as [T|[T|[]]]; [now apply (A2 t)|]. injection T as T _. now apply (feature_column_inj c1 c2 label N). }
  eexists. split; [reflexivity|]. rewrite (col_app _ _ _ _ _ C2). unfold join. change (prefixed ?c label) with (feature_column c label).
  rewrite (existsb_absent _ _ A3). split; [reflexivity|]. split.
  - intros name s E. now apply col_app, col_app.
  - split; [now apply col_app, col_new|]. now apply col_new.
Qed.
(** EMA, TRIX, TSI and RSI cannot: the second call raises, whatever the column. *)
Lemma add_twice (lab : string) f : forall df c1 c2 df1, add_feature (fun _ => lab) f df c1 = Some df1 -> add_feature (fun _ => lab) f df1 c2 = None.
Proof.
  intros df c1 c2 df1 H. unfold add_feature in *. destruct (col df c1) as [s|]; [|discriminate]. unfold join in H.
  destruct (existsb _ df); [discriminate|]. injection H as <-. destruct (col (df ++ [(lab, f s)]) c2); [|reflexivity].
  unfold join. rewrite existsb_app. cbn [existsb fst]. rewrite String.eqb_refl. now rewrite orb_true_r.
Qed.
Theorem C139_columns_refuted : forall str n m df c1 c2 add,
  In add [add_EMA str n; add_TRIX str n; add_TSI str n m; add_RSI str n] ->
  forall df1, add df c1 = Some df1 -> add df1 c2 = None.
Proof.
  intros str n m df c1 c2 add I. cbn in I. destruct I as [<-|[<-|[<-|[<-|[]]]]]; intros df1 H; eapply add_twice; exact H.
Qed.
Example C139_case : let df := [("y", [Some 1%Q; Some 2%Q]); ("x", [Some 3%Q; None])]%string in
  exists df1, add_EMA (fun _ => "3"%string) 3 df "y"%string = Some df1
  /\ List.length df1 = 3 /\ absent df (feature_column "x" "ROC_3").
Proof. eexists. split; [reflexivity|]. split; [reflexivity|]. intros s [E|[E|[]]]; discriminate. Qed.

Print Assumptions C138_rsi_range.
Print Assumptions C138_rsi_full.
Print Assumptions C138_tsi_range.
Print Assumptions C139_columns.
Print Assumptions C139_columns_refuted.
