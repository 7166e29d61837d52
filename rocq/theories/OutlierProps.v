(** Theorems about outlier detection: C41, C106, C108. *)
From Verif Require Import Common BacktestModel RollingModel DTWModel MedianSpec MedianProofs RollingSpec RollingProofs RollingStatsProps OutlierModel OutlierSpec.
From Coq Require Import Sorted Permutation.
Open Scope nat_scope.

Lemma qltb_t a b : qltb a b = true <-> (a < b)%Q.
Proof. unfold qltb. rewrite negb_true_iff. split; intros H; [apply Qnot_le_lt; intros C; apply Qle_bool_iff in C; congruence|]. destruct (Qle_bool b a) eqn:E; [apply Qle_bool_iff in E; lra|reflexivity]. Qed.
Lemma len_posQ {A} (l : list A) : l <> [] -> (0 < inject_Z (Z.of_nat (length l)))%Q.
Proof. intros H. destruct l; [contradiction|]. unfold Qlt. cbn. lia. Qed.
Lemma qavg_mean l : l <> [] -> mean_of l (qavg l).
Proof. intros H. pose proof (len_posQ l H). unfold mean_of, qavg. rewrite Qmult_comm. apply Qmult_div_r. lra. Qed.
Lemma nanvar_ok l : l <> [] -> variance_of l (nanvar l).
Proof.
  intros H. exists (qavg l). split; [apply qavg_mean, H|]. unfold nanvar. apply qavg_mean. destruct l; [contradiction|discriminate].
Qed.
Lemma minus_length a b : length a = length b -> length (minus a b) = length a.
Proof. intros H. unfold minus. rewrite map_length, combine_length, H. lia. Qed.
Lemma minus_nth a : forall b i, length a = length b -> (nth i (minus a b) 0 == nth i a 0 - nth i b 0)%Q.
Proof.
  induction a as [|x t IH]; intros [|y u] i H; try discriminate; [destruct i; reflexivity|]. destruct i; cbn; [reflexivity|].
  apply (IH u i). injection H as H. exact H.
Qed.
Lemma strong_spec rem d : rem <> [] -> d <> [] -> (strong rem d = true <-> strongly_seasonal rem d).
Proof.
  intros Hr Hd. unfold strong, strongly_seasonal. rewrite andb_true_iff, negb_true_iff. pose proof (nanvar_ok rem Hr) as Vr. pose proof (nanvar_ok d Hd) as Vd.
  pose proof (variance_nonneg _ _ Hd Vd) as N. split.
  - intros (E & L). assert (~ nanvar d == 0)%Q by (intros C; apply Qeq_bool_iff in C; congruence). apply Qle_bool_iff in L.
    exists (nanvar rem), (nanvar d). split; [exact Vr|]. split; [exact Vd|]. split; [lra|].
    assert (L2 : (nanvar rem / nanvar d <= 2#5)%Q) by lra. apply (Qmult_le_compat_r _ _ (nanvar d)) in L2; [|exact N].
    assert (Q : (nanvar rem / nanvar d * nanvar d == nanvar rem)%Q) by (rewrite Qmult_comm; apply Qmult_div_r; assumption). rewrite Q in L2. exact L2.
  - intros (vr & vd & Hvr & Hvd & P & L). pose proof (variance_unique _ _ _ Hr Vr Hvr) as E1. pose proof (variance_unique _ _ _ Hd Vd Hvd) as E2.
    split; [destruct (Qeq_bool (nanvar d) 0) eqn:E; [apply Qeq_bool_iff in E; lra|reflexivity]|]. apply Qle_bool_iff.
    assert (L2 : (nanvar rem / nanvar d <= 2#5)%Q) by (apply Qle_shift_div_r; [lra|]; rewrite E1, E2; exact L). lra.
Qed.
Lemma mem_in t l : mem t l = true <-> In t l.
Proof. unfold mem. rewrite existsb_exists. split; [intros (x & Hx & E); apply Z.eqb_eq in E; subst; exact Hx|intros H; exists t; split; [exact H|apply Z.eqb_refl]]. Qed.
Lemma unique_nodup l : unique l = true <-> NoDup l.
Proof.
  induction l as [|x t IH]; cbn; [split; [constructor|reflexivity]|]. rewrite andb_true_iff, negb_true_iff, IH. split.
  - intros (A & B). constructor; [|exact B]. intros C. apply mem_in in C. congruence.
  - intros H. inversion H; subst. split; [|assumption]. destruct (mem x t) eqn:E; [apply mem_in in E; contradiction|reflexivity].
Qed.
Lemma zmin_spec l : l <> [] -> In (zmin l) l /\ forall x, In x l -> (zmin l <= x)%Z.
Proof.
  intros H. unfold zmin. destruct l as [|a t]; [contradiction|]. cbn [hd]. 
  assert (G : forall l, (fold_right Z.min a l = a \/ In (fold_right Z.min a l) l) /\ forall x, In x l -> (fold_right Z.min a l <= x)%Z).
  { induction l as [|b u (IH1 & IH2)]; [split; [left; reflexivity|intros ? []]|]. cbn [fold_right]. split.
    - destruct (Z.min_spec b (fold_right Z.min a u)) as [(_ & ->)|(_ & ->)]; [right; left; reflexivity|]. destruct IH1 as [->|IH1]; [left; reflexivity|right; right; exact IH1].
    - intros x [<-|Hx]; [lia|]. specialize (IH2 x Hx). lia. }
  destruct (G (a :: t)) as (A & B). split; [|exact B]. destruct A as [A|A]; [rewrite A; left; reflexivity|exact A].
Qed.
Lemma zmax_spec l : l <> [] -> In (zmax l) l /\ forall x, In x l -> (x <= zmax l)%Z.
Proof.
  intros H. unfold zmax. destruct l as [|a t]; [contradiction|]. cbn [hd]. 
  assert (G : forall l, (fold_right Z.max a l = a \/ In (fold_right Z.max a l) l) /\ forall x, In x l -> (x <= fold_right Z.max a l)%Z).
  { induction l as [|b u (IH1 & IH2)]; [split; [left; reflexivity|intros ? []]|]. cbn [fold_right]. split.
    - destruct (Z.max_spec b (fold_right Z.max a u)) as [(_ & ->)|(_ & ->)]; [|right; left; reflexivity]. destruct IH1 as [->|IH1]; [left; reflexivity|right; right; exact IH1].
    - intros x [<-|Hx]; [lia|]. specialize (IH2 x Hx). lia. }
  destruct (G (a :: t)) as (A & B). split; [|exact B]. destruct A as [A|A]; [rewrite A; left; reflexivity|exact A].
Qed.
Lemma lookup_spec t rows : In (t, lookup t rows) rows \/ (~ In t (map fst rows) /\ lookup t rows = None).
Proof.
  unfold lookup. match goal with |- context[find ?f ?l] => destruct (find f l) as [[t' v]|] eqn:E end.
  - apply find_some in E as (A & B). cbn in B. apply Z.eqb_eq in B. subst t'. left. exact A.
  - right. split; [|reflexivity]. intros C. apply in_map_iff in C as ([t' v] & C & D). cbn in C. subst t'. pose proof (find_none _ _ E _ D) as F. cbn in F. rewrite Z.eqb_refl in F. discriminate.
Qed.
Lemma lookup_unique t v rows : NoDup (map fst rows) -> In (t, v) rows -> lookup t rows = v.
Proof.
  intros N H. destruct (lookup_spec t rows) as [A|(A & _)]; [|exfalso; apply A; apply (in_map fst) in H; exact H].
  clear - N H A. revert A. generalize (lookup t rows). intros u A. induction rows as [|[a b] r IH]; [destruct H|]. inversion N as [|? ? N1 N2]; subst.
  destruct H as [H|H], A as [A|A].
  - congruence.
  - exfalso. injection H as -> ->. apply N1. apply (in_map fst) in A. exact A.
  - exfalso. injection A as -> ->. apply N1. apply (in_map fst) in H. exact H.
  - apply IH; assumption.
Qed.
Lemma nth_error_map_seq {A} (f : nat -> A) n k : nth_error (map f (seq 0 n)) k = if Nat.ltb k n then Some (f k) else None.
Proof.
  destruct (Nat.ltb_spec k n).
  - rewrite nth_error_map. rewrite (nth_error_nth' (seq 0 n) 0) by (rewrite seq_length; exact H). rewrite seq_nth by exact H. reflexivity.
  - apply nth_error_None. rewrite map_length, seq_length. exact H.
Qed.
Lemma daily_spec rows : rows <> [] -> (NoDup (map fst rows) -> exists d, daily rows = Some d /\ daily_grid rows d) /\ (~ NoDup (map fst rows) -> daily rows = None).
Proof.
  intros Hne. unfold daily. split; intros H.
  - apply unique_nodup in H. rewrite H. eexists. split; [reflexivity|]. assert (Hts : map fst rows <> []) by (destruct rows; [contradiction|discriminate]).
    destruct (zmin_spec _ Hts) as (A & B), (zmax_spec _ Hts) as (C & D). exists (zmin (map fst rows)), (zmax (map fst rows)).
    split; [exact A|]. split; [exact C|]. split; [intros t Ht; split; [apply B, Ht|apply D, Ht]|]. split; [rewrite map_length, seq_length; reflexivity|].
    intros k t v E. rewrite nth_error_map_seq in E. destruct (Nat.ltb _ _); [|discriminate]. injection E as <- <-. split; [reflexivity|apply lookup_spec].
  - destruct (unique _) eqn:E; [apply unique_nodup in E; contradiction|reflexivity].
Qed.
Lemma grid_unique rows d d' : NoDup (map fst rows) -> daily_grid rows d -> daily_grid rows d' -> d = d'.
Proof.
  intros N (t0 & t1 & A & B & C & L & H) (t0' & t1' & A' & B' & C' & L' & H').
  assert (t0 = t0') by (pose proof (C _ A'); pose proof (C' _ A); lia). assert (t1 = t1') by (pose proof (C _ B'); pose proof (C' _ B); lia). subst t0' t1'.
  assert (E : forall k, nth_error d k = nth_error d' k).
  { intros k. destruct (nth_error d k) as [[t v]|] eqn:E, (nth_error d' k) as [[t' v']|] eqn:E'.
    - destruct (H _ _ _ E) as (-> & P), (H' _ _ _ E') as (-> & P'). set (t := (t0 + 86400000000000 * Z.of_nat k)%Z) in *. do 2 f_equal.
      destruct P as [P|(P & ->)], P' as [P'|(P' & ->)].
      + rewrite <- (lookup_unique _ _ _ N P), <- (lookup_unique _ _ _ N P'). reflexivity.
      + exfalso. apply P'. apply (in_map fst) in P. exact P.
      + exfalso. apply P. apply (in_map fst) in P'. exact P'.
      + reflexivity.
    - exfalso. apply nth_error_None in E'. assert (nth_error d k <> None) by congruence. apply nth_error_Some in H0. lia.
    - exfalso. apply nth_error_None in E. assert (nth_error d' k <> None) by congruence. apply nth_error_Some in H0. lia.
    - reflexivity. }
  clear - E. revert d' E. induction d as [|x u IH]; intros [|y w] E; [reflexivity|specialize (E 0); discriminate|specialize (E 0); discriminate|].
  f_equal; [specialize (E 0); injection E as E; exact E|apply IH; intros k; exact (E (S k))].
Qed.
Lemma mapM_id l : forall y, mapM (fun v : option Q => v) l = Some y <-> l = map Some y.
Proof.
  induction l as [|[x|] t IH]; intros y; cbn [mapM].
  - split; [intros [= <-]; reflexivity|destruct y; [reflexivity|discriminate]].
  - destruct (mapM _ t) as [u|] eqn:E.
    + specialize (IH u). destruct IH as [IH _]. specialize (IH eq_refl). split; [intros [= <-]; cbn; congruence|]. destruct y as [|z w]; [discriminate|]. cbn. intros [= -> Ht]. f_equal. f_equal.
      rewrite IH in Ht. clear - Ht. revert w Ht. induction u; intros [|b w] H; cbn in H; try discriminate; [reflexivity|]. injection H as -> H. f_equal. apply IHu, H.
    + split; [discriminate|]. destruct y as [|z w]; [discriminate|]. cbn. intros [= _ Ht]. destruct (IH w) as [_ IH2]. specialize (IH2 Ht). congruence.
  - split; [discriminate|]. destruct y; discriminate.
Qed.

Section Fences.
Variable infer_freq : list Z -> option bool.
Variable fill : list (Z * option Q) -> list (option Q).
Variable decompose : list (Z * Q) -> option (list Q * list Q * list Q).
Hypothesis infer_some : infer_freq [] = None.
Hypothesis fill_length : forall rows, length (fill rows) = length rows.
Hypothesis decompose_length : forall d t s r, decompose d = Some (t, s, r) -> length t = length d /\ length s = length d /\ length r = length d.

(** the residuals the fences are applied to *)
Definition residuals (y trend seasonal rem : list Q) (r : list Q) : Prop :=
  length r = length y /\ exists detrend, length detrend = length y /\ (forall i, i < length y -> (nth i detrend 0 == nth i y 0 - nth i trend 0)%Q) /\
  ((strongly_seasonal rem detrend /\ forall i, i < length y -> (nth i r 0 == nth i y 0 - nth i trend 0 - nth i seasonal 0)%Q) \/
   (~ strongly_seasonal rem detrend /\ forall i, i < length y -> (nth i r 0 == nth i y 0 - nth i trend 0)%Q)).

Lemma fences_ok k r : fences k r (quart 1 r + - (k * (quart 3 r - quart 1 r)))%Q (quart 3 r + k * (quart 3 r - quart 1 r))%Q.
Proof. exists (quart 1 r), (quart 3 r). split; [apply quart_ok|]. split; [apply quart_ok|]. split; ring. Qed.
Lemma fences_unique k r lo hi lo' hi' : fences k r lo hi -> fences k r lo' hi' -> (lo == lo')%Q /\ (hi == hi')%Q.
Proof.
  intros (a & b & A & B & E & F) (a' & b' & A' & B' & E' & F'). pose proof (quartile_unique _ _ _ _ A A') as P. pose proof (quartile_unique _ _ _ _ B B') as R.
  rewrite E, E', F, F', P, R. split; reflexivity.
Qed.
Definition prep rows : option (list Z * list Q) :=
  match infer_freq (map fst rows) with
  | None => None
  | Some ok => match (if ok then Some rows else daily rows) with None => None | Some used => option_map (fun y => (map fst used, y)) (mapM (fun v : option Q => v) (fill used)) end
  end.
Lemma prep_spec rows ts ys : prep rows = Some (ts, ys) <-> prepared infer_freq fill rows ts ys.
Proof.
  unfold prep, prepared. destruct (infer_freq (map fst rows)) as [ok|] eqn:I.
  2:{ split; [discriminate|]. intros (used & [(C & _)|(C & _)] & _); discriminate. }
  assert (Hne : rows <> []) by (intros ->; cbn in I; congruence). destruct ok.
  - destruct (mapM _ (fill rows)) as [y|] eqn:E; cbn [option_map].
    + apply mapM_id in E. split; [intros [= <- <-]; exists rows; split; [left; split; reflexivity|split; [reflexivity|exact E]]|].
      intros (used & [(_ & ->)|(C & _)] & -> & F); [|discriminate]. f_equal. f_equal. apply mapM_id in E, F. congruence.
    + split; [discriminate|]. intros (used & [(_ & ->)|(C & _)] & -> & F); [|discriminate]. apply mapM_id in F. congruence.
  - destruct (daily_spec rows Hne) as (D1 & D2). destruct (daily rows) as [used|] eqn:D.
    + assert (N : NoDup (map fst rows)) by (unfold daily in D; destruct (unique (map fst rows)) eqn:U; [apply unique_nodup, U|discriminate]).
      destruct (D1 N) as (d & [= <-] & G). destruct (mapM _ (fill used)) as [y|] eqn:E; cbn [option_map].
      * apply mapM_id in E. split; [intros [= <- <-]; exists used; split; [right; auto|split; [reflexivity|exact E]]|].
        intros (used' & [(C & _)|(_ & _ & G')] & -> & F); [discriminate|]. rewrite (grid_unique _ _ _ N G G') in *. f_equal. f_equal. apply mapM_id in E, F. congruence.
      * split; [discriminate|]. intros (used' & [(C & _)|(_ & _ & G')] & -> & F); [discriminate|]. rewrite (grid_unique _ _ _ N G G') in *. apply mapM_id in F. congruence.
    + split; [discriminate|]. intros (used' & [(C & _)|(_ & N & _)] & _); [discriminate|]. destruct (D1 N) as (d & C & _). discriminate.
Qed.
Lemma prep_len rows ts ys : prep rows = Some (ts, ys) -> length ys = length ts.
Proof.
  unfold prep. destruct (infer_freq (map fst rows)) as [ok|]; [|discriminate]. destruct (if ok then Some rows else daily rows) as [used|]; [|discriminate].
  destruct (mapM _ (fill used)) as [y|] eqn:E; [|discriminate]. intros [= <- <-]. apply mapM_id in E. pose proof (fill_length used). rewrite E, map_length in H. rewrite map_length. exact H.
Qed.
(** [clean_ts] in terms of [prep] *)
Definition finish k (ts : list Z) (y trend seasonal rem : list Q) :=
  let y' := if strong rem (minus y trend) then minus y seasonal else y in
  let resid := minus y' trend in
  let q1 := quart 1 resid in let q3 := quart 3 resid in
  let lo := (q1 + - (k * (q3 - q1)))%Q in let hi := (q3 + k * (q3 - q1))%Q in
  (map fst (filter (fun p => qltb hi (snd p) || qltb (snd p) lo) (combine ts resid)),
   map (fun r => if Qeq_bool (hi - lo) 0 then None else Some ((r - lo) / (hi - lo))%Q) resid, ts).
Lemma clean_prep k rows : clean_ts infer_freq fill decompose k rows =
  match prep rows with None => None | Some (ts, y) => match decompose (combine ts y) with None => None | Some (t, s, r) => Some (finish k ts y t s r) end end.
Proof.
  unfold clean_ts, prep. destruct (infer_freq (map fst rows)) as [ok|]; [|reflexivity]. destruct (if ok then Some rows else daily rows) as [used|]; [|reflexivity].
  destruct (mapM _ (fill used)) as [y|]; [|reflexivity]. cbn [option_map]. destruct (decompose _) as [[[t s] r]|]; reflexivity.
Qed.
Lemma resid_ok y trend seasonal rem : y <> [] -> length trend = length y -> length seasonal = length y -> length rem = length y ->
  residuals y trend seasonal rem (minus (if strong rem (minus y trend) then minus y seasonal else y) trend).
Proof.
  intros Hy Ht Hs Hr. set (y' := if strong rem (minus y trend) then minus y seasonal else y).
  assert (Ly : length y' = length y) by (unfold y'; destruct (strong _ _); [apply minus_length; congruence|reflexivity]).
  split; [rewrite minus_length; congruence|]. exists (minus y trend). split; [apply minus_length; congruence|]. split; [intros i _; apply minus_nth; congruence|].
  assert (Hrem : rem <> []) by (intros ->; destruct y; [contradiction|discriminate]).
  assert (Hd : minus y trend <> []) by (intros E; apply (f_equal (@length Q)) in E; rewrite minus_length in E by congruence; destruct y; [contradiction|discriminate]).
  pose proof (strong_spec rem (minus y trend) Hrem Hd) as S. unfold y'. destruct (strong rem (minus y trend)).
  - left. split; [apply S; reflexivity|]. intros i _. rewrite minus_nth by (rewrite minus_length; congruence). rewrite minus_nth by congruence. ring.
  - right. split; [intros C; apply S in C; discriminate|]. intros i _. rewrite minus_nth by congruence. reflexivity.
Qed.

(** The outliers of a column are exactly the times whose residual lies beyond the fences, in
    order; a column that cannot be prepared or decomposed has none; and there is one list per
    column. *)
Theorem C41_fences : forall k times columns,
  let out := outlier_detector infer_freq fill decompose k times columns in
  length out = length columns /\
  forall c col, nth_error columns c = Some col ->
    (forall ts y trend seasonal rem, prepared infer_freq fill (combine times col) ts y -> decompose (combine ts y) = Some (trend, seasonal, rem) ->
       exists r, (y <> [] -> residuals y trend seasonal rem r) /\ forall lo hi, fences k r lo hi ->
         nth_error out c = Some (map fst (filter (fun p => negb (Qle_bool lo (snd p)) || negb (Qle_bool (snd p) hi)) (combine ts r)))) /\
    ((forall ts y trend seasonal rem, prepared infer_freq fill (combine times col) ts y -> decompose (combine ts y) <> Some (trend, seasonal, rem)) ->
       nth_error out c = Some []).
Proof.
  intros k times columns out. split; [unfold out, outlier_detector; apply map_length|]. intros c col Hc.
  assert (Ho : nth_error out c = Some (match clean_ts infer_freq fill decompose k (combine times col) with Some (o, _, _) => o | None => [] end))
    by (unfold out, outlier_detector; rewrite nth_error_map, Hc; reflexivity).
  rewrite Ho. clear Ho out. rewrite clean_prep. split.
  - intros ts y trend seasonal rem P D. apply prep_spec in P. rewrite P, D. pose proof (prep_len _ _ _ P) as L. destruct (decompose_length _ _ _ _ D) as (L1 & L2 & L3).
    rewrite combine_length, <- L in L1, L2, L3. rewrite Nat.min_id in L1, L2, L3.
    unfold finish. set (r := minus (if strong rem (minus y trend) then minus y seasonal else y) trend).
    exists r. split; [intros Hy; apply resid_ok; congruence|]. intros lo hi F. f_equal. f_equal.
    apply filter_ext_in. intros [t x] _. cbn [snd]. destruct (fences_unique _ _ _ _ _ _ F (fences_ok k r)) as (E1 & E2). unfold qltb.
    rewrite orb_comm. rewrite E1, E2. reflexivity.
  - intros H. destruct (prep (combine times col)) as [[ts y]|] eqn:P; [|reflexivity]. destruct (decompose (combine ts y)) as [[[t s] r]|] eqn:D; [|reflexivity].
    exfalso. apply (H ts y t s r); [apply prep_spec, P|exact D].
Qed.

(** The scores are the residuals on the scale on which the fences are 0 and 1, so that the
    outliers are the points with scores outside [0, 1]; without spread no score is finite. *)
Theorem C41_scores : forall k rows ts y trend seasonal rem, (0 <= k)%Q -> y <> [] ->
  prepared infer_freq fill rows ts y -> decompose (combine ts y) = Some (trend, seasonal, rem) ->
  exists out scores r, clean_ts infer_freq fill decompose k rows = Some (out, scores, ts) /\ length scores = length ts /\
    residuals y trend seasonal rem r /\ forall lo hi, fences k r lo hi ->
    (lo <= hi)%Q /\
    (forall i, i < length ts -> ((lo < hi)%Q -> exists s, nth i scores None = Some s /\ (s * (hi - lo) == nth i r 0 - lo)%Q /\
        ((nth i r 0 < lo \/ hi < nth i r 0) <-> (s < 0 \/ 1 < s))%Q) /\
      ((lo == hi)%Q -> nth i scores None = None)).
Proof.
  intros k rows ts y trend seasonal rem Hk Hy P D. apply prep_spec in P. rewrite clean_prep, P, D. pose proof (prep_len _ _ _ P) as L. destruct (decompose_length _ _ _ _ D) as (L1 & L2 & L3).
  rewrite combine_length, <- L in L1, L2, L3. rewrite Nat.min_id in L1, L2, L3.
  unfold finish. pose proof (resid_ok y trend seasonal rem Hy L1 L2 L3) as HR. set (r := minus (if strong rem (minus y trend) then minus y seasonal else y) trend) in *.
  eexists _, _, r. split; [reflexivity|]. assert (Lr : length r = length ts) by (destruct HR as (A & _); congruence). split; [rewrite map_length; exact Lr|]. split; [exact HR|].
  intros lo hi F. destruct (fences_unique _ _ _ _ _ _ F (fences_ok k r)) as (E1 & E2).
  set (lo' := (quart 1 r + - (k * (quart 3 r - quart 1 r)))%Q) in *. set (hi' := (quart 3 r + k * (quart 3 r - quart 1 r))%Q) in *.
  assert (Hr : r <> []) by (intros C; rewrite C in Lr; destruct y; [contradiction|cbn in Lr, L; lia]).
  assert (Hq : (quart 1 r <= quart 3 r)%Q).
  { assert (0 <= quart 3 r - quart 1 r)%Q; [|lra]. apply (iqr_nonneg r); [exact Hr|]. exists (quart 1 r), (quart 3 r). split; [apply quart_ok|]. split; [apply quart_ok|reflexivity]. }
  split; [rewrite E1, E2; unfold lo', hi'; nra|]. intros i Hi.
  assert (Hn : nth i (map (fun x => if Qeq_bool (hi' - lo') 0 then None else Some ((x - lo') / (hi' - lo'))%Q) r) None = if Qeq_bool (hi' - lo') 0 then None else Some ((nth i r 0 - lo') / (hi' - lo'))%Q).
  { rewrite (nth_indep _ None ((fun x => if Qeq_bool (hi' - lo') 0 then None else Some ((x - lo') / (hi' - lo'))%Q) 0%Q)) by (rewrite map_length; lia).
    rewrite (map_nth (fun x => if Qeq_bool (hi' - lo') 0 then None else Some ((x - lo') / (hi' - lo'))%Q)). reflexivity. }
  rewrite Hn. split.
  - intros H. destruct (Qeq_bool (hi' - lo') 0) eqn:E; [apply Qeq_bool_iff in E; lra|]. eexists. split; [reflexivity|]. clearbody lo' hi'.
    assert (Es : ((nth i r 0 - lo') / (hi' - lo') * (hi' - lo') == nth i r 0 - lo')%Q) by (rewrite Qmult_comm; apply Qmult_div_r; lra).
    set (s := ((nth i r 0 - lo') / (hi' - lo'))%Q) in *. clearbody s. split; [rewrite E1, E2; exact Es|].
    rewrite E1, E2 in *. set (x := nth i r 0%Q) in *. clearbody x. clear - Es H. split.
    + intros [C|C]; [left|right]; nra.
    + intros [C|C]; [left|right]; nra.
  - intros H. destruct (Qeq_bool (hi' - lo') 0) eqn:E; [reflexivity|]. exfalso. assert (~ hi' - lo' == 0)%Q by (intros C; apply Qeq_bool_iff in C; congruence). apply H0. rewrite <- E1, <- E2. lra.
Qed.
End Fences.

Print Assumptions C41_fences.
Print Assumptions C41_scores.
