(** Theorems about seasonality detection: C39, C103, C104. *)
From Verif Require Import Common BacktestModel MetricsModel MedianSpec MedianProofs SeasonModel SeasonSpec.
From Coq Require Import Sorted Permutation.
Open Scope nat_scope.

(** ** C39 *)
Lemma sieve_in n : forall d k, In k (sieve n d) -> In k d.
Proof.
  induction n as [|n IH]; intros d k H; [destruct H|]. destruct d as [|x t]; [destruct H|]. cbn [sieve] in H.
  destruct H as [<-|H]; [left; reflexivity|]. apply IH, filter_In in H. right. apply H.
Qed.
Lemma filter_len {A} (f : A -> bool) l : length (filter f l) <= length l.
Proof. induction l as [|x t IH]; cbn; [lia|]. destruct (f x); cbn; lia. Qed.
Lemma mod_divide k c : 0 < k -> (Nat.eqb (c mod k) 0 = true <-> Nat.divide k c).
Proof. intros H. rewrite Nat.eqb_eq. apply Nat.mod_divide. lia. Qed.
Lemma sieve_cover n : forall d, (forall k, In k d -> 0 < k) -> length d <= n -> forall c, In c d -> exists k, In k (sieve n d) /\ Nat.divide k c.
Proof.
  induction n as [|n IH]; intros d Hp Hn c Hc; [destruct d; [destruct Hc|cbn in Hn; lia]|]. destruct d as [|x t]; [destruct Hc|]. cbn [sieve length] in *.
  destruct Hc as [<-|Hc]; [exists x; split; [left; reflexivity|apply Nat.divide_refl]|].
  destruct (Nat.eqb (c mod x) 0) eqn:E.
  - exists x. split; [left; reflexivity|]. apply mod_divide; [apply Hp; left; reflexivity|exact E].
  - pose proof (filter_len (fun i => negb (Nat.eqb (i mod x) 0)) t). destruct (IH (filter (fun i => negb (Nat.eqb (i mod x) 0)) t)) with (c := c) as (k & Hk & Hd).
    + intros k Hk. apply filter_In in Hk as [Hk _]. apply Hp. right. exact Hk.
    + lia.
    + apply filter_In. split; [exact Hc|]. rewrite E. reflexivity.
    + exists k. split; [right; exact Hk|exact Hd].
Qed.
Lemma ssorted_filter (f : nat -> bool) l : StronglySorted lt l -> StronglySorted lt (filter f l).
Proof.
  induction 1 as [|x t Ht IH Hx]; cbn; [constructor|]. destruct (f x); [|exact IH]. constructor; [exact IH|].
  rewrite Forall_forall in *. intros y Hy. apply filter_In in Hy as [Hy _]. apply Hx, Hy.
Qed.
Lemma sieve_sorted n : forall d, StronglySorted lt d -> StronglySorted lt (sieve n d).
Proof.
  induction n as [|n IH]; intros d H; [constructor|]. destruct d as [|x t]; [constructor|]. cbn [sieve]. inversion H as [|? ? H1 H2]; subst.
  constructor; [apply IH, ssorted_filter, H1|]. rewrite Forall_forall in *. intros y Hy. apply sieve_in, filter_In in Hy as [Hy _]. apply H2, Hy.
Qed.
Lemma sieve_free n : forall d, StronglySorted lt d -> (forall k, In k d -> 0 < k) ->
  forall j k, In j (sieve n d) -> In k (sieve n d) -> Nat.divide j k -> j = k.
Proof.
  induction n as [|n IH]; intros d H Hp j k Hj Hk Hd; [destruct Hj|]. destruct d as [|x t]; [destruct Hj|]. cbn [sieve] in *.
  inversion H as [|? ? H1 H2]; subst. rewrite Forall_forall in H2.
  assert (Hlt : forall y, In y (sieve n (filter (fun i => negb (Nat.eqb (i mod x) 0)) t)) -> x < y /\ 0 < y /\ ~ Nat.divide x y).
  { intros y Hy. apply sieve_in, filter_In in Hy as [Hy Hm]. split; [apply H2, Hy|]. split; [apply Hp; right; exact Hy|].
    intros Hx. apply mod_divide in Hx; [|apply Hp; left; reflexivity]. rewrite Hx in Hm. discriminate. }
  destruct Hj as [<-|Hj], Hk as [<-|Hk].
  - reflexivity.
  - exfalso. apply (Hlt _ Hk), Hd.
  - exfalso. specialize (Hlt _ Hj). apply Nat.divide_pos_le in Hd; [lia|]. apply Hp. left. reflexivity.
  - apply (IH (filter (fun i => negb (Nat.eqb (i mod x) 0)) t)); try assumption; [apply ssorted_filter, H1|].
    intros y Hy. apply filter_In in Hy as [Hy _]. apply Hp. right. exact Hy.
Qed.
Lemma raw_spec c : forall i,
  StronglySorted lt (raw_seasonality i c) /\
  forall j, In j (raw_seasonality i c) <-> 2 <= j /\ i <= j /\ exists lo up, nth_error c (j - i) = Some (lo, up) /\ (0 <= lo)%Q.
Proof.
  induction c as [|[lo up] t IH]; intros i; cbn [raw_seasonality].
  - split; [constructor|]. intros j. split; [intros []|]. intros (_ & _ & lo & up & E & _). destruct (j - i); discriminate.
  - destruct (IH (S i)) as [IS II]. cbn [fst].
    assert (Hstep : forall j, S i <= j -> nth_error ((lo, up) :: t) (j - i) = nth_error t (j - S i))
      by (intros j Hj; replace (j - i) with (S (j - S i)) by lia; reflexivity).
    assert (Hbody : forall j, In j (raw_seasonality (S i) t) <-> 2 <= j /\ S i <= j /\ exists lo' up', nth_error ((lo, up) :: t) (j - i) = Some (lo', up') /\ (0 <= lo')%Q).
    { intros j. rewrite II. split; intros (A & B & C); (split; [exact A|split; [exact B|]]); [rewrite Hstep by exact B|rewrite Hstep in C by exact B]; exact C. }
    destruct (Qle_bool 0 lo && Nat.ltb 1 i) eqn:E.
    + apply andb_true_iff in E as [E1 E2]. apply Qle_bool_iff in E1. apply Nat.ltb_lt in E2. split.
      * constructor; [exact IS|]. apply Forall_forall. intros y Hy. apply II in Hy. lia.
      * intros j. cbn [In]. rewrite Hbody. split.
        -- intros [<-|(A & B & C)]; [|repeat split; [exact A|lia|exact C]]. repeat split; [lia|lia|]. rewrite Nat.sub_diag. exists lo, up. split; [reflexivity|exact E1].
        -- intros (A & B & C). destruct (Nat.eq_dec i j) as [->|]; [left; reflexivity|]. right. repeat split; [exact A|lia|exact C].
    + split; [exact IS|]. intros j. rewrite Hbody. split; intros (A & B & C); (split; [exact A|]).
      * split; [lia|exact C].
      * destruct (Nat.eq_dec i j) as [->|]; [|split; [lia|exact C]]. exfalso. rewrite Nat.sub_diag in C. destruct C as (lo' & up' & C & D). injection C as <- <-.
        apply andb_false_iff in E as [E|E]; [apply Qle_bool_iff in D; congruence|apply Nat.ltb_ge in E; lia].
Qed.

(** differences *)
Lemma difference_shift d : forall x i, difference d (fun j => (x (S j) - x j)%Q) i = difference (S d) x i.
Proof. induction d as [|d IH]; intros x i; [reflexivity|]. cbn [difference]. rewrite !IH. reflexivity. Qed.
Lemma np_diff_nth l : np_diff l = map (fun i => (nth (S i) l 0 - nth i l 0)%Q) (seq 0 (length l - 1)).
Proof.
  induction l as [|x t IH]; [reflexivity|]. destruct t as [|y u]; [reflexivity|]. cbn [np_diff].
  change (np_diff (y :: u)) with (np_diff (y :: u)) in *. cbn [np_diff] in IH. rewrite IH. cbn [length]. replace (S (S (length u)) - 1) with (S (length u)) by lia.
  cbn [seq map]. f_equal. rewrite <- seq_shift, map_map. replace (S (length u) - 1) with (length u) by lia. reflexivity.
Qed.
Lemma difference_ext d : forall x y n i, (forall j, j < n -> x j = y j) -> i + d < n -> difference d x i = difference d y i.
Proof.
  induction d as [|d IH]; intros x y n i H Hi; cbn [difference]; [apply H; lia|].
  rewrite (IH x y n (S i)), (IH x y n i) by (assumption || lia). reflexivity.
Qed.
Lemma nth_map_seq' {A} (f : nat -> A) n j d : j < n -> nth j (map f (seq 0 n)) d = f j.
Proof.
  intros H. rewrite (nth_indep _ d (f 0)) by (rewrite map_length, seq_length; exact H).
  rewrite map_nth, seq_nth by exact H. reflexivity.
Qed.
Lemma np_diffs_spec d : forall l, np_diffs d l = map (difference d (fun i => nth i l 0%Q)) (seq 0 (length l - d)).
Proof.
  induction d as [|d IH]; intros l; cbn [np_diffs].
  - rewrite Nat.sub_0_r. cbn [difference]. clear. induction l as [|x t IH]; [reflexivity|]. cbn [length seq map nth]. f_equal.
    rewrite <- seq_shift, map_map. exact IH.
  - rewrite IH, np_diff_nth. rewrite map_length, seq_length. replace (length l - 1 - d) with (length l - S d) by lia.
    apply map_ext_in. intros i Hi. apply in_seq in Hi.
    rewrite <- difference_shift. apply difference_ext with (n := length l - 1); [|lia]. intros j Hj.
    apply (nth_map_seq' (fun i => (nth (S i) l 0 - nth i l 0)%Q)). exact Hj.
Qed.

Theorem C39_lengths : forall acf ts lags diff,
  let nlags := match lags with Some n => n | None => length ts / 3 end in
  let differenced := map (difference diff (fun i => nth i ts 0%Q)) (seq 0 (length ts - diff)) in
  let confint := acf differenced nlags in
  let out := acf_detector acf ts lags diff in
  StronglySorted lt (snd out) /\
  (forall k, In k (snd out) -> significant_lag confint k) /\
  (forall j k, In j (snd out) -> In k (snd out) -> Nat.divide j k -> j = k) /\
  (forall c, significant_lag confint c -> exists k, In k (snd out) /\ Nat.divide k c) /\
  (fst out = true <-> exists c, significant_lag confint c).
Proof.
  intros acf ts lags diff nlags differenced confint out. unfold out, acf_detector. cbn [fst snd]. rewrite np_diffs_spec. fold nlags differenced. fold confint.
  destruct (raw_spec confint 0) as [RS RI]. unfold get_seasonality_length. set (d := raw_seasonality 0 confint) in *.
  assert (Hsig : forall j, In j d <-> significant_lag confint j).
  { intros j. rewrite RI. unfold significant_lag. rewrite Nat.sub_0_r. split; [intros (A & _ & B)|intros (A & B)]; repeat split; try assumption; lia. }
  assert (Hp : forall k, In k d -> 0 < k) by (intros k Hk; apply Hsig in Hk as [Hk _]; lia).
  assert (Hc : forall c, significant_lag confint c -> exists k, In k (sieve (length d) d) /\ Nat.divide k c)
    by (intros c Hc; apply sieve_cover; [exact Hp|lia|apply Hsig, Hc]).
  split; [apply sieve_sorted, RS|]. split; [intros k Hk; apply Hsig; eapply sieve_in, Hk|]. split; [apply sieve_free; assumption|]. split; [exact Hc|].
  destruct (sieve (length d) d) as [|k u] eqn:E; split; try discriminate; try reflexivity.
  - intros (c & H). destruct (Hc c H) as (k & [] & _).
  - intros _. exists k. apply Hsig. apply (sieve_in (length d)). rewrite E. left. reflexivity.
Qed.

Definition c39_acf (x : list Q) (n : nat) : list (Q * Q) := map (fun i => if Nat.eqb (i mod 4) 0 || Nat.eqb i 6 || Nat.eqb i 3 then (1#10, 1)%Q else (-(1#2), 1#2)%Q) (seq 0 (S n)).
Example C39_case : acf_detector c39_acf (map inject_Z [1;5;2;8;1;5;2;8;1;5;2;8;1;5;2;8;1;5;2;8;1;5;2;8;1;5;2;8;1;5;2;8;1;5;2;8;1;5;2;8]%Z) None 1 = (true, [3; 4]).
Proof. vm_compute. reflexivity. Qed.

(** ** C103: differencing removes trends *)
Lemma difference_plus d : forall x p i, (difference d (fun j => x j + p j) i == difference d x i + difference d p i)%Q.
Proof. induction d as [|d IH]; intros x p i; cbn [difference]; [reflexivity|]. rewrite !IH. ring. Qed.
Lemma difference_exteq d : forall x y n i, (forall j, j < n -> (x j == y j)%Q) -> i + d < n -> (difference d x i == difference d y i)%Q.
Proof.
  induction d as [|d IH]; intros x y n i H Hi; cbn [difference]; [apply H; lia|].
  rewrite (IH x y n (S i)), (IH x y n i) by (assumption || lia). reflexivity.
Qed.
Theorem C103_trend : forall acf ts ts' p c lags diff,
  (forall u v n k, Forall2 (fun a b => (b == a + k)%Q) u v -> acf v n = acf u n) ->
  (forall i, (difference diff p i == c)%Q) ->
  length ts' = length ts -> (forall i, i < length ts -> (nth i ts' 0 == nth i ts 0 + p i)%Q) ->
  acf_detector acf ts' lags diff = acf_detector acf ts lags diff.
Proof.
  intros acf ts ts' p c lags diff Hacf Hp Hl Ht. unfold acf_detector. rewrite Hl.
  rewrite (Hacf (np_diffs diff ts) (np_diffs diff ts') _ c); [reflexivity|]. rewrite !np_diffs_spec, Hl.
  assert (H : forall n s, s + n <= length ts - diff -> Forall2 (fun a b => (b == a + c)%Q) (map (difference diff (fun i => nth i ts 0%Q)) (seq s n))
                                                      (map (difference diff (fun i => nth i ts' 0%Q)) (seq s n))).
  { induction n as [|n IH]; intros s Hs; cbn [seq map]; [constructor|]. constructor; [|apply IH; lia].
    rewrite (difference_exteq diff _ (fun i => (nth i ts 0 + p i)%Q) (length ts)) by (assumption || lia).
    rewrite difference_plus, Hp. reflexivity. }
  apply H. lia.
Qed.
(** a line has constant first differences, a parabola constant second ones *)
Example C103_case : (forall a b i, (difference 1 (fun i => a + b * inject_Z (Z.of_nat i)) i == b)%Q) /\
  (forall a i, (difference 2 (fun i => a * (inject_Z (Z.of_nat i) * inject_Z (Z.of_nat i))) i == 2 * a)%Q) /\
  (forall u v (n : nat) k, Forall2 (fun a b => (b == a + k)%Q) u v -> (fun (x : list Q) (n : nat) => [(inject_Z (Z.of_nat (length x)), 1%Q)]) v n = [(inject_Z (Z.of_nat (length u)), 1%Q)]).
Proof.
  assert (Z1 : forall i, (inject_Z (Z.of_nat (S i)) == inject_Z (Z.of_nat i) + 1)%Q) by (intros i; rewrite Nat2Z.inj_succ; unfold Z.succ; rewrite inject_Z_plus; reflexivity).
  split; [|split].
  - intros a b i. cbn [difference]. rewrite Z1. ring.
  - intros a i. cbn [difference]. rewrite !Z1. ring.
  - intros u v _ k H. cbn. assert (E : length u = length v) by (induction H; cbn; congruence). rewrite E. reflexivity.
Qed.

(** ** C104: peaks of the spectrum *)
Lemma qltb_iff a b : qltb a b = true <-> (a < b)%Q.
Proof.
  unfold qltb. rewrite negb_true_iff. split.
  - intros H. apply Qnot_le_lt. intros C. apply Qle_bool_iff in C. congruence.
  - intros H. destruct (Qle_bool b a) eqn:E; [|reflexivity]. apply Qle_bool_iff in E. lra.
Qed.
Lemma near_iff g f : near g f = true <-> nearly_multiple g f.
Proof.
  unfold near, nearly_multiple, fraction. set (q := (g / f)%Q). clearbody q. rewrite orb_true_iff, !qltb_iff.
  pose proof (Qfloor_le q) as F1. pose proof (Qlt_floor q) as F2. rewrite inject_Z_plus in F2. change (inject_Z 1) with 1%Q in F2. split.
  - intros [H|H]; [exists (Qfloor q)|exists (Qfloor q + 1)%Z; rewrite inject_Z_plus; change (inject_Z 1) with 1%Q]; apply Qabs_case; intros _; lra.
  - intros (m & H). assert (B : (- (1#100) < q - inject_Z m /\ q - inject_Z m < 1#100)%Q)
      by (revert H; apply Qabs_case; intros A B; split; lra). clear H. destruct B as [B1 B2].
    destruct (Z.lt_trichotomy m (Qfloor q)) as [L|[L|L]].
    + assert (inject_Z m + 1 <= inject_Z (Qfloor q))%Q by (change 1%Q with (inject_Z 1); rewrite <- inject_Z_plus, <- Zle_Qle; lia). lra.
    + subst m. left. lra.
    + assert (inject_Z (Qfloor q) + 1 <= inject_Z m)%Q by (change 1%Q with (inject_Z 1); rewrite <- inject_Z_plus, <- Zle_Qle; lia).
      destruct (Qlt_le_dec (inject_Z m) (inject_Z (Qfloor q) + 2)) as [L2|L2]; [right|exfalso; lra].
      assert (E : (m = Qfloor q + 1)%Z).
      { change 2%Q with (inject_Z 2) in L2. rewrite <- inject_Z_plus, <- Zlt_Qlt in L2. lia. }
      subst m. rewrite inject_Z_plus in *. change (inject_Z 1) with 1%Q in *. lra.
Qed.
Lemma sweep_spec n : forall l j f b, length l <= n -> nth_error l j = Some (f, b) ->
  nth_error (sweep l n) j = Some (f, b || existsb (near f) (map fst (firstn j l))).
Proof.
  induction n as [|n IH]; intros l j f b Hn E; [destruct l; [destruct j; discriminate|cbn in Hn; lia]|].
  destruct l as [|[g c] t]; [destruct j; discriminate|]. cbn [sweep length] in *. destruct j as [|j].
  - cbn in E |- *. injection E as -> ->. rewrite orb_false_r. reflexivity.
  - cbn [nth_error firstn map fst existsb] in *. rewrite (IH _ j f (b || near f g)).
    + f_equal. f_equal. rewrite <- orb_assoc. f_equal. f_equal. rewrite firstn_map, map_map. reflexivity.
    + rewrite map_length. lia.
    + rewrite nth_error_map, E. reflexivity.
Qed.
Lemma sweep_length n : forall l, length (sweep l n) = length l.
Proof. induction n as [|n IH]; intros [|[f b] t]; try reflexivity. cbn [sweep length]. rewrite IH, map_length. reflexivity. Qed.

(** the entry at position j of a list of frequencies is reported unless an earlier one nearly
    divides it *)
Definition survives (freqs : list Q) (j : nat) : Prop :=
  forall i f g, i < j -> nth_error freqs i = Some f -> nth_error freqs j = Some g -> ~ nearly_multiple g f.
Inductive picked {A} (P : nat -> Prop) : nat -> list A -> list A -> Prop :=
| picked_nil i : picked P i [] []
| picked_yes i x t u : P i -> picked P (S i) t u -> picked P i (x :: t) (x :: u)
| picked_no i x t u : ~ P i -> picked P (S i) t u -> picked P i (x :: t) u.
Lemma nth_error_firstn' {A} (l : list A) : forall i j, i < j -> nth_error (firstn j l) i = nth_error l i.
Proof.
  induction l as [|x t IH]; intros i j H; [rewrite firstn_nil; reflexivity|]. destruct j; [lia|]. cbn [firstn].
  destruct i; [reflexivity|]. cbn [nth_error]. apply IH. lia.
Qed.
Lemma drop_harmonics_spec freqs : picked (survives freqs) 0 freqs (drop_harmonics freqs).
Proof.
  unfold drop_harmonics. set (l0 := map (fun f => (f, false)) freqs).
  assert (Ln : length l0 = length freqs) by (unfold l0; apply map_length). rewrite <- Ln.
  assert (Hj : forall j, j < length freqs -> exists b, nth_error (sweep l0 (length l0)) j = Some (nth j freqs 0%Q, b) /\ (b = false <-> survives freqs j)).
  { intros j Hj. exists (existsb (near (nth j freqs 0%Q)) (map fst (firstn j l0))). split.
    - apply (sweep_spec (length l0) l0 j (nth j freqs 0%Q) false (Nat.le_refl _)). unfold l0. rewrite nth_error_map, (nth_error_nth' _ 0%Q) by exact Hj. reflexivity.
    - unfold l0. rewrite firstn_map, map_map. cbn [fst]. rewrite map_id. split.
      + intros E i f g Hi Hf Hg Hn. apply near_iff in Hn. apply (nth_error_nth _ _ 0%Q) in Hg. subst g. assert (T : existsb (near (nth j freqs 0%Q)) (firstn j freqs) = true).
        { apply existsb_exists. exists f. split; [|exact Hn]. apply nth_error_In with (n := i). rewrite nth_error_firstn' by exact Hi. exact Hf. }
        congruence.
      + intros H. destruct (existsb (near (nth j freqs 0%Q)) (firstn j freqs)) eqn:E; [|reflexivity]. apply existsb_exists in E as (f & Hf & Hn). exfalso.
        apply In_nth_error in Hf as (i & Hi). assert (Hij : i < j).
        { assert (i < length (firstn j freqs)) by (apply nth_error_Some; congruence). rewrite firstn_length in H0. lia. }
        assert (Hi' : nth_error freqs i = Some f) by (rewrite <- (firstn_skipn j freqs), nth_error_app1; [exact Hi|apply nth_error_Some; congruence]).
        apply (H i f (nth j freqs 0%Q) Hij Hi' (nth_error_nth' _ _ Hj)). apply near_iff, Hn. }
  assert (Ls : length (sweep l0 (length l0)) = length freqs) by (rewrite sweep_length; exact Ln).
  set (sw := sweep l0 (length l0)) in *. clearbody sw. clear l0 Ln.
  assert (G : forall n i t s, length t = n -> length s = n -> (forall j, j < n -> exists b, nth_error s j = Some (nth j t 0%Q, b) /\ (b = false <-> survives freqs (i + j))) ->
    picked (survives freqs) i t (map fst (filter (fun p => negb (snd p)) s))).
  { induction n as [|n IH]; intros i t s Ht Hs H.
    - destruct t, s; try discriminate. constructor.
    - destruct t as [|x t], s as [|[y b] s]; try discriminate. cbn [length] in *. destruct (H 0 ltac:(lia)) as (b' & E & Hb). cbn in E. injection E as -> ->. rewrite Nat.add_0_r in Hb.
      assert (R : picked (survives freqs) (S i) t (map fst (filter (fun p => negb (snd p)) s))).
      { apply IH; [lia|lia|]. intros j Hj0. destruct (H (S j) ltac:(lia)) as (b2 & E2 & Hb2). exists b2. rewrite Nat.add_succ_r in Hb2. split; assumption. }
      cbn [filter snd]. destruct b'; cbn [negb].
      + apply picked_no; [|exact R]. intros C. apply Hb in C. discriminate.
      + cbn [map fst]. apply picked_yes; [apply Hb; reflexivity|exact R]. }
  apply (G (length freqs) 0 freqs sw eq_refl Ls Hj).
Qed.

Lemma picked_in {A} P i (t u : list A) g : picked P i t u -> In g u -> exists j, i <= j /\ nth_error t (j - i) = Some g /\ P j.
Proof.
  induction 1 as [i|i x t u HP H IH|i x t u HP H IH]; intros Hg; [destruct Hg| |].
  - destruct Hg as [<-|Hg]; [exists i; rewrite Nat.sub_diag; repeat split; [lia|exact HP]|]. destruct (IH Hg) as (j & A1 & A2 & A3).
    exists j. repeat split; [lia| |exact A3]. replace (j - i) with (S (j - S i)) by lia. exact A2.
  - destruct (IH Hg) as (j & A1 & A2 & A3). exists j. repeat split; [lia| |exact A3]. replace (j - i) with (S (j - S i)) by lia. exact A2.
Qed.
Lemma skip_head {A} (l : list A) i x t : skipn i l = x :: t -> nth_error l i = Some x /\ skipn (S i) l = t.
Proof.
  revert i. induction l as [|y u IH]; intros i E; [rewrite skipn_nil in E; discriminate|]. destruct i; [injection E as -> ->; split; reflexivity|].
  cbn [skipn nth_error] in *. apply IH, E.
Qed.
Lemma skip_nth {A} (l : list A) : forall i k, nth_error (skipn i l) k = nth_error l (i + k).
Proof. induction l as [|x t IH]; intros i k; [rewrite skipn_nil; destruct (i + k), k; reflexivity|]. destruct i; [reflexivity|]. cbn. apply IH. Qed.
Lemma picked_pairs freqs i t u : t = skipn i freqs -> picked (survives freqs) i t u -> StronglySorted (fun f g => ~ nearly_multiple g f) u.
Proof.
  intros E H. revert E. induction H as [i|i x t u HP H IH|i x t u HP H IH]; intros E; [constructor| |].
  - symmetry in E. apply skip_head in E as [E1 E2]. constructor; [apply IH; symmetry; exact E2|]. apply Forall_forall. intros g Hg.
    destruct (picked_in _ _ _ _ g H Hg) as (j & A1 & A2 & A3). rewrite <- E2, skip_nth in A2. replace (S i + (j - S i)) with j in A2 by lia.
    apply (A3 i x g ltac:(lia) E1 A2).
  - symmetry in E. apply skip_head in E as [_ E2]. apply IH. symmetry. exact E2.
Qed.

Lemma non_nan_some (l : list Q) : non_nan (map Some l) = l.
Proof. induction l as [|x t IH]; [reflexivity|]. cbn. f_equal. exact IH. Qed.
Lemma above_filter l v : filter (fun a => qltb v a) l = above l v.
Proof. reflexivity. Qed.
Lemma average_mean l m : qmean_of l = Some m -> average l m.
Proof.
  unfold qmean_of, average. destruct l as [|x t]; [discriminate|]. intros E. injection E as <-. split; [discriminate|].
  rewrite Qmult_comm. apply Qmult_div_r. unfold Qeq. cbn. lia.
Qed.
Lemma average_unique l m m' : average l m -> average l m' -> (m == m')%Q.
Proof.
  intros [H E] [_ E']. rewrite <- E' in E. apply Qmult_inj_r in E; [exact E|]. destruct l; [contradiction|]. unfold Qeq. cbn. lia.
Qed.
Lemma average_ext l l' m : Forall2 Qeq l l' -> average l m -> average l' m.
Proof.
  intros H [Hn E]. assert (L : length l = length l') by (clear - H; induction H; cbn; congruence). split; [intros ->; destruct l; [contradiction|discriminate]|].
  rewrite <- L, E. clear - H. induction H; cbn; [reflexivity|]. rewrite H, IHForall2. reflexivity.
Qed.
Lemma above_ext l v v' : (v == v')%Q -> above l v = above l v'.
Proof. intros E. unfold above. apply filter_ext. intros a. rewrite E. reflexivity. Qed.
Lemma dev_ext l m m' : (m == m')%Q -> Forall2 Qeq (map (fun a => Qabs (a - m)) l) (map (fun a => Qabs (a - m')) l).
Proof. intros E. induction l as [|a t IH]; cbn [map]; [constructor|]. constructor; [|exact IH]. rewrite E. reflexivity. Qed.
Lemma threshold_some ampl k bar : threshold ampl k = Some bar -> peak_bar ampl k bar.
Proof.
  unfold threshold, nanmedian. rewrite non_nan_some. change (filter (fun a => qltb 0 a) ampl) with (above ampl 0). set (pos := above ampl 0).
  destruct pos as [|x t] eqn:Ep; [discriminate|]. rewrite <- Ep in *. change (filter (fun a => qltb (qmedian pos) a) pos) with (above pos (qmedian pos)).
  destruct (qmean_of (above pos (qmedian pos))) as [m|] eqn:Em; [|discriminate].
  destruct (qmean_of (map _ _)) as [mad|] eqn:Ed; [|discriminate]. intros E. injection E as <-.
  exists (qmedian pos), m, mad. repeat split; try apply average_mean; try assumption; try reflexivity; [apply qmedian_spec|..];
  try (apply average_mean in Em; apply Em); apply average_mean in Ed; apply Ed.
Qed.
Lemma threshold_complete ampl k bar : peak_bar ampl k bar -> exists bar', threshold ampl k = Some bar' /\ (bar' == bar)%Q.
Proof.
  intros (med & m & mad & H1 & H2 & H3 & H4). unfold threshold, nanmedian. rewrite non_nan_some.
  change (filter (fun a => qltb 0 a) ampl) with (above ampl 0). set (pos := above ampl 0) in *.
  apply median_qmedian in H1. rewrite (above_ext pos med (qmedian pos) H1) in H2, H3.
  destruct pos as [|x t] eqn:Ep; [destruct H2 as [H2 _]; exfalso; apply H2; reflexivity|]. rewrite <- Ep in *.
  change (filter (fun a => qltb (qmedian pos) a) pos) with (above pos (qmedian pos)). set (ab := above pos (qmedian pos)) in *.
  destruct (qmean_of ab) as [m'|] eqn:Em; [|destruct ab; [destruct H2 as [H2 _]; exfalso; apply H2; reflexivity|discriminate]].
  apply average_mean in Em. pose proof (average_unique _ _ _ H2 Em) as Emm.
  destruct (qmean_of (map (fun a => Qabs (a - m')) ab)) as [mad'|] eqn:Ed.
  - apply average_mean in Ed. eexists. split; [reflexivity|]. apply (average_ext _ _ _ (dev_ext ab m m' Emm)) in H3.
    rewrite H4, H1, (average_unique _ _ _ H3 Ed). reflexivity.
  - destruct ab; [destruct H2 as [H2 _]; exfalso; apply H2; reflexivity|discriminate].
Qed.

(** The candidates are the peaks above the bar; of them exactly those are reported, as cycle
    lengths, that are not nearly a multiple of an earlier candidate. *)
Theorem C104_peaks : forall find_peaks fft k,
  let found := map (fun i => nth i fft (0, 0)%Q) (find_peaks (map snd fft)) in
  let out := fft_detector find_peaks fft k in
  (fst out = true <-> snd out <> []) /\
  (forall bar, peak_bar (map snd fft) k bar -> exists kept,
     let candidates := map fst (filter (fun r => negb (Qle_bool (snd r) bar)) found) in
     picked (survives candidates) 0 candidates kept /\
     StronglySorted (fun f g => ~ nearly_multiple g f) kept /\
     snd out = map (fun f => (1 / f)%Q) kept) /\
  ((forall bar, ~ peak_bar (map snd fft) k bar) -> snd out = []).
Proof.
  intros fp fft k found out. unfold out, fft_detector, high_peaks. fold found. cbn [fst snd]. split; [|split].
  - destruct (drop_harmonics _) as [|x t]; cbn; split; intros H; try discriminate; try reflexivity. exfalso. apply H. reflexivity.
  - intros bar Hb. destruct (threshold_complete _ _ _ Hb) as (bar' & E & Eb). rewrite E. eexists. cbv zeta. split; [|split]; [|eapply picked_pairs; [reflexivity|]|reflexivity];
    [rewrite (filter_ext _ (fun r => qltb bar' (snd r)))|]; try apply drop_harmonics_spec.
    intros r. unfold qltb. rewrite Eb. reflexivity.
  - intros H. destruct (threshold (map snd fft) k) as [bar|] eqn:E; [exfalso; apply (H bar), threshold_some, E|].
    assert (N : forall l : list (Q * Q), filter (fun _ => false) l = []) by (induction l; auto). rewrite N. reflexivity.
Qed.

(** Nearness is not transitive: a peak near a multiple of a dropped one is dropped although no
    reported frequency accounts for it. *)
Definition c104_fft : list (Q * Q) := [(1, 1); (1000, 10); (1001, 1); (2009, 10); (2010, 1); (4030, 10); (4031, 1)]%Q.
Theorem C104_accounted_refuted : exists find_peaks fft k bar g,
  peak_bar (map snd fft) k bar /\
  (exists i a, In i (find_peaks (map snd fft)) /\ nth_error fft i = Some (g, a) /\ (bar < a)%Q) /\
  snd (fft_detector find_peaks fft k) <> [] /\
  (forall period, In period (snd (fft_detector find_peaks fft k)) -> ~ nearly_multiple g (1 / period)).
Proof.
  exists (fun _ => [1; 3; 5]), c104_fft, 6%Q, (match threshold (map snd c104_fft) 6 with Some b => b | None => 0%Q end), 4030%Q.
  split; [apply threshold_some; vm_compute; reflexivity|]. split; [|split].
  - exists 5, 10%Q. split; [cbn; tauto|]. split; [reflexivity|]. vm_compute. reflexivity.
  - vm_compute. discriminate.
  - intros p Hp. assert (E : snd (fft_detector (fun _ => [1; 3; 5]) c104_fft 6) = [(1 / 1000)%Q]) by (vm_compute; reflexivity). rewrite E in Hp.
    destruct Hp as [<-|[]]. intros H. apply near_iff in H. vm_compute in H. discriminate.
Qed.
Example C104_case : snd (fft_detector (fun _ => [1; 3; 5]) [(1, 1); (10, 10); (11, 1); (20, 10); (21, 1); (33, 10); (34, 1)]%Q 6) = [1#10; 1#33]%Q /\
  exists bar, peak_bar (map snd c104_fft) 6 bar.
Proof. split; [vm_compute; reflexivity|]. eexists. apply threshold_some. vm_compute. reflexivity. Qed.

Print Assumptions C39_lengths.
Print Assumptions C103_trend.
Print Assumptions C104_peaks.
Print Assumptions C104_accounted_refuted.
