(** C19: anomaly intervals; C132: which scores raise an alert; C133, C134: severity. *)
From Coq Require Import List ZArith QArith Qabs Bool Lia Lqa Sorted.
From Verif Require Import Common PostModel PostSpec.
Import ListNotations.
Open Scope list_scope.
Open Scope nat_scope.

Lemma ltq_iff x y : ltq x y = true <-> (x < y)%Q.
Proof. unfold ltq. rewrite negb_true_iff. destruct (Qle_bool y x) eqn:E; [apply Qle_bool_iff in E; split; [discriminate|lra]|]. split; [intros _|reflexivity]. destruct (Qlt_le_dec x y) as [H|H]; [exact H|apply Qle_bool_iff in H; congruence]. Qed.
Lemma crossed_iff p x : crossed p x = true <-> beyond p x.
Proof. unfold crossed, beyond. destruct (dir p); rewrite ?orb_true_iff, ?ltq_iff; reflexivity. Qed.
Lemma time_mono rows i j : increasing rows -> i < j < List.length rows -> (time rows i < time rows j)%Z.
Proof.
  unfold increasing, time. intros S. revert i j. induction rows as [|r rows IH]; intros i j H; [cbn in H; lia|]. cbn [map] in S. apply StronglySorted_inv in S as [S F]. destruct j as [|j]; [lia|]. destruct i as [|i].
  - cbn. rewrite Forall_forall in F. apply F. apply in_map. apply nth_In. cbn in H. lia.
  - cbn. apply IH; [exact S|cbn in H; lia].
Qed.
Lemma time_inj rows i j : increasing rows -> i < List.length rows -> j < List.length rows -> time rows i = time rows j -> i = j.
Proof. intros S Hi Hj E. destruct (lt_eq_lt_dec i j) as [[H|H]|H]; [pose proof (time_mono rows i j S ltac:(lia)); lia|exact H|pose proof (time_mono rows j i S ltac:(lia)); lia]. Qed.
Lemma firstn_as_map {A} (l : list A) d n : n <= List.length l -> firstn n l = map (fun j => nth j l d) (seq 0 n).
Proof.
  revert n. induction l as [|x l IH]; intros n H; [cbn in H; assert (n = 0) by lia; subst; reflexivity|]. destruct n as [|n]; [reflexivity|]. cbn [firstn seq map nth]. f_equal. rewrite (IH n) by (cbn in H; lia). rewrite <- seq_shift, map_map. reflexivity.
Qed.
Lemma filter_map' {A B} (f : B -> bool) (g : A -> B) l : filter f (map g l) = map g (filter (fun x => f (g x)) l).
Proof. induction l as [|x l IH]; [reflexivity|]. cbn. destruct (f (g x)); cbn; rewrite IH; reflexivity. Qed.
(** a condition true from some point on *)
Lemma filter_from (f : nat -> bool) n : f n = true -> (forall j k, j <= k <= n -> f j = true -> f k = true) ->
  exists a, a <= n /\ (forall j, j <= n -> (f j = true <-> a <= j)) /\ filter f (seq 0 (S n)) = seq a (S n - a).
Proof.
  intros FN M. assert (G : forall m k, m + k = S n -> exists a, k <= a /\ a <= n + (if m =? 0 then 1 else 0) /\ (forall j, k <= j <= n -> (f j = true <-> a <= j)) /\ filter f (seq k m) = seq a (k + m - a)).
  { induction m as [|m IH]; intros k E; [exists k; cbn; split; [lia|]; split; [lia|]; split; [lia|]; replace (k + 0 - k) with 0 by lia; reflexivity|].
    destruct (IH (S k) ltac:(lia)) as (a & A1 & A2 & A3 & A4). cbn [seq filter]. destruct (f k) eqn:FK.
    - exists k. split; [lia|]. split; [lia|]. split; [intros j Hj; split; [lia|intros _; apply (M k j); [lia|exact FK]]|]. replace (k + S m - k) with (S m) by lia. cbn [seq]. f_equal.
      rewrite A4. destruct m as [|m]; [replace (S k + 0 - a) with 0 by lia; reflexivity|]. assert (a = S k). { assert (f (S k) = true) by (apply (M k (S k)); [lia|exact FK]). apply (A3 (S k)) in H; [lia|lia]. } subst a. f_equal. lia.
    - exists a. split; [lia|]. split; [destruct m; cbn in A2 |- *; [assert (k = n) by lia; congruence|lia]|]. split; [|rewrite A4; f_equal; lia]. intros j Hj. destruct (Nat.eq_dec j k) as [->|N]; [split; [congruence|lia]|apply A3; lia]. }
  destruct (G (S n) 0 ltac:(lia)) as (a & _ & A2 & A3 & A4). cbn in A2. exists a. split; [lia|]. split; [intros j Hj; apply A3; lia|exact A4].
Qed.
Lemma ratio_count (f : nat -> bool) l : (qsum (map b2q (map f l)) == inject_Z (Z.of_nat (List.length (filter f l))))%Q.
Proof.
  induction l as [|x l IH]; [reflexivity|]. cbn [map qsum filter]. rewrite IH. destruct (f x); cbn [b2q List.length]; [rewrite Nat2Z.inj_succ; unfold Z.succ; rewrite inject_Z_plus; ring|ring].
Qed.
(** Which rows are alerting, for every spacing of the scores. *)
Theorem C19_alerting : forall p rows i, increasing rows -> (0 < window_sec p)%Z -> i < List.length rows ->
  nth i (alerts p rows) (0%Z, false) = (time rows i, alert_at p rows i) /\ (alert_at p rows i = true <-> alerting p rows i).
Proof.
  intros p rows i S W Hi. split.
  - unfold alerts. set (g := fun i => (fst (nth i rows (0%Z, 0%Q)), alert_at p rows i)). rewrite (nth_indep _ (0%Z, false) (g 0)) by (rewrite map_length, seq_length; exact Hi). rewrite map_nth, seq_nth by exact Hi. reflexivity.
  - unfold alert_at, alerting. cbv zeta. fold (time rows i). fold (time rows 0). rewrite andb_true_iff, Z.leb_le.
    rewrite (firstn_as_map rows (0%Z, 0%Q)) by lia. rewrite filter_map', map_map.
    set (c := fun j => (time rows i - window_sec p <? time rows j)%Z). change (fun x => (time rows i - window_sec p <? fst (nth x rows (0%Z, 0%Q)))%Z) with c.
    destruct (filter_from c i) as (a & A1 & A2 & A3); [unfold c; apply Z.ltb_lt; lia| |].
    { intros j k Hjk H. unfold c in *. apply Z.ltb_lt in H. apply Z.ltb_lt. destruct (Nat.eq_dec j k) as [->|N]; [exact H|]. pose proof (time_mono rows j k S ltac:(lia)). lia. }
    rewrite A3. set (f := fun j => crossed p (score rows j)). change (fun x => crossed p (snd (nth x rows (0%Z, 0%Q)))) with f. unfold ratio. rewrite map_length, seq_length, Qle_bool_iff.
    assert (P : (0 < inject_Z (Z.of_nat (Datatypes.S i - a)))%Q) by (change 0%Q with (inject_Z 0); rewrite <- Zlt_Qlt; lia).
    assert (EQ : (fraction p <= qsum (map b2q (map f (seq a (Datatypes.S i - a)))) / inject_Z (Z.of_nat (Datatypes.S i - a)))%Q <-> (fraction p * inject_Z (Z.of_nat (Datatypes.S i - a)) <= inject_Z (Z.of_nat (count_rows f a i)))%Q).
    { unfold count_rows. rewrite (ratio_count f). set (N := inject_Z (Z.of_nat (Datatypes.S i - a))) in *. set (K := inject_Z (Z.of_nat (List.length _))). split; intros H.
      - apply (Qmult_le_compat_r _ _ N) in H; [|lra]. setoid_replace (K / N * N)%Q with K in H by (field; lra). exact H.
      - apply Qle_shift_div_l; [exact P|exact H]. }
    rewrite EQ. split.
    + intros [H1 H2]. split; [exact H2|]. exists a, f. split; [exact A1|]. split; [intros j Hj; rewrite <- (A2 j Hj); unfold c; rewrite Z.ltb_lt; reflexivity|]. split; [intros j Hj; apply crossed_iff|exact H1].
    + intros [H2 (a' & f' & B1 & B2 & B3 & B4)]. split; [|exact H2]. assert (a' = a).
      { assert (X : forall j, j <= i -> (a <= j <-> a' <= j)) by (intros j Hj; rewrite <- (A2 j Hj), <- (B2 j Hj); unfold c; rewrite Z.ltb_lt; reflexivity). pose proof (proj1 (X a A1) ltac:(lia)). pose proof (proj2 (X a' B1) ltac:(lia)). lia. }
      subst a'. assert (EF : count_rows f a i = count_rows f' a i). { unfold count_rows. f_equal. apply filter_ext_in. intros j Hj. apply in_seq in Hj. specialize (B3 j ltac:(lia)). unfold f. destruct (f' j), (crossed p (score rows j)) eqn:E; try reflexivity; [assert (crossed p (score rows j) = true) by (apply crossed_iff, B3; reflexivity); congruence|apply crossed_iff in E; apply B3 in E; congruence]. }
      rewrite EF. exact B4.
Qed.

(** ** Intervals *)
Section Walk.
Variable flag : nat -> bool.
Variable tm : nat -> Z.
Variable n : nat.
Hypothesis n_pos : 0 < n.
Hypothesis tm_mono : forall i j, i < j < n -> (tm i < tm j)%Z.
Definition al i := flag i = true.
Definition rowsf i := map (fun j => (tm j, flag j)) (seq i (n - i)).
Definition pairs (idx : list (nat * nat)) := map (fun p => (tm (fst p), tm (snd p))) idx.
Lemma rowsf_step i : i < n -> rowsf i = (tm i, flag i) :: rowsf (S i).
Proof. intros H. unfold rowsf. replace (n - i) with (S (n - S i)) by lia. reflexivity. Qed.
Lemma rowsf_end : rowsf n = [].
Proof. unfold rowsf. rewrite Nat.sub_diag. reflexivity. Qed.
Definition inv (cp : option nat) (i : nat) : Prop :=
  match cp with
  | None => i = 0 \/ flag (i - 1) = false
  | Some a => a < i /\ (forall j, a <= j < i -> flag j = true) /\ (a = 0 \/ flag (a - 1) = false)
  end.
Definition later (i a b : nat) : Prop := run al n a b /\ (i <= b \/ flag b = true).
Lemma run_start a a' b b' : run al n a b -> flag b' = true \/ b' = b -> a' < b' -> (forall j, a' <= j < b' -> flag j = true) -> (a' = 0 \/ flag (a' - 1) = false) -> b = b' -> a = a'.
Proof.
  intros (R1 & R2 & R3 & R4) _ H1 H2 H3 ->. destruct (lt_eq_lt_dec a a') as [[L|L]|L]; [|exact L|].
  - exfalso. destruct H3 as [->|H3]; [lia|]. specialize (R2 (a' - 1) ltac:(lia)). unfold al in R2. congruence.
  - exfalso. destruct R3 as [->|R3]; [lia|]. apply R3. apply H2. lia.
Qed.
Lemma walk_ok : forall m i cp, i + m = n -> inv cp i ->
  exists idx, walk (tm (n - 1)) (rowsf i) (option_map tm cp) = Some (pairs idx) /\ StronglySorted (fun p q => snd p < fst q) idx /\
    (forall a b, In (a, b) idx <-> later i a b).
Proof.
  induction m as [|m IH]; intros i cp E I.
  - assert (i = n) by lia. subst i. rewrite rowsf_end. destruct cp as [a|]; cbn [option_map walk].
    + destruct I as (I1 & I2 & I3). destruct (Nat.eq_dec a (n - 1)) as [->|N].
      * rewrite Z.ltb_irrefl. exists []. split; [reflexivity|]. split; [constructor|]. intros a' b. split; [intros []|]. intros [(R1 & R2 & R3 & R4) L]. exfalso. destruct L as [L|L]; [lia|]. destruct R4 as [R4|R4]; [apply R4, L|]. subst b. destruct I3 as [I3|I3]; [lia|]. specialize (R2 (n - 1 - 1) ltac:(lia)). unfold al in R2. congruence.
      * pose proof (tm_mono a (n - 1) ltac:(lia)) as T. destruct (Z.ltb_spec (tm a) (tm (n - 1))); [|lia]. unfold interval. destruct (Z.leb_spec (tm (n - 1)) (tm a)); [lia|]. exists [(a, n - 1)]. split; [reflexivity|]. split; [repeat constructor|]. assert (RA : run al n a (n - 1)) by (split; [lia|]; split; [intros j Hj; apply I2; lia|]; split; [destruct I3 as [I3|I3]; [left; exact I3|right; unfold al; congruence]|right; reflexivity]).
        intros a' b. split.
        -- intros [H1|[]]. injection H1 as <- <-. split; [exact RA|right; apply I2; lia].
        -- intros [R L]. left. pose proof R as (R1 & R2 & R3 & R4). destruct L as [L|L]; [lia|]. destruct R4 as [R4|R4]; [exfalso; apply R4, L|]. subst b. f_equal. symmetry. apply (run_start a' a (n - 1) (n - 1) R); [right; reflexivity|lia|intros j Hj; apply I2; lia|exact I3|reflexivity].
    + exists []. split; [reflexivity|]. split; [constructor|]. intros a b. split; [intros []|]. intros [(R1 & R2 & R3 & R4) L]. exfalso. destruct L as [L|L]; [lia|]. destruct R4 as [R4|R4]; [apply R4, L|]. subst b. cbn in I. destruct I as [I|I]; [lia|congruence].
  - rewrite rowsf_step by lia. cbn [walk]. destruct (flag i) eqn:F.
    + set (cp' := match cp with None => Some i | Some s => Some s end). assert (EC : match option_map tm cp with Some s => Some s | None => Some (tm i) end = option_map tm cp') by (destruct cp; reflexivity). assert (EC2 : match option_map tm cp with None => Some (tm i) | Some s => Some s end = option_map tm cp') by (destruct cp; reflexivity). rewrite EC2.
      destruct (IH (S i) cp' ltac:(lia)) as (idx & W & SS & M).
      { destruct cp as [a|]; cbn in *; [destruct I as (I1 & I2 & I3); split; [lia|]; split; [intros j Hj; destruct (Nat.eq_dec j i) as [->|N]; [exact F|apply I2; lia]|exact I3]|]. split; [lia|]. split; [intros j Hj; assert (j = i) by lia; subst; exact F|exact I]. }
      exists idx. split; [exact W|]. split; [exact SS|]. intros a b. rewrite M. unfold later. split; intros [R L]; (split; [exact R|]); [destruct L as [L|L]; [left; lia|right; exact L]|]. destruct L as [L|L]; [|right; exact L]. destruct (Nat.eq_dec b i) as [->|N]; [right; exact F|left; lia].
    + destruct (IH (S i) None ltac:(lia)) as (idx & W & SS & M); [right; cbn; rewrite Nat.sub_0_r; exact F|]. cbn [option_map] in W. destruct cp as [a|]; cbn [option_map].
      * cbn in I. destruct I as (I1 & I2 & I3). pose proof (tm_mono a i ltac:(lia)) as T. unfold interval. destruct (Z.leb_spec (tm i) (tm a)); [lia|]. rewrite W. exists ((a, i) :: idx). split; [reflexivity|].
        assert (RA : run al n a i) by (split; [lia|]; split; [intros j Hj; apply I2; lia|]; split; [destruct I3 as [I3|I3]; [left; exact I3|right; unfold al; congruence]|left; unfold al; congruence]).
        split.
        -- constructor; [exact SS|]. apply Forall_forall. intros [a' b] H'. apply M in H' as [(R1 & R2 & R3 & R4) L]. cbn. assert (S i <= b) by (destruct L as [L|L]; [exact L|destruct (Nat.eq_dec b i) as [->|]; [congruence|]; destruct R4 as [R4|R4]; [exfalso; apply R4, L|lia]]).
           destruct (le_lt_dec a' i) as [L'|L']; [|exact L']. exfalso. specialize (R2 i ltac:(lia)). unfold al in R2. congruence.
        -- intros a' b. cbn [In]. rewrite M. split.
           ++ intros [H'|[R L]]; [injection H' as <- <-; split; [exact RA|left; lia]|]. split; [exact R|]. destruct L as [L|L]; [left; lia|right; exact L].
           ++ intros [R L]. destruct (Nat.eq_dec b i) as [->|N]; [|right; split; [exact R|]; destruct L as [L|L]; [left; lia|right; exact L]]. left. f_equal. symmetry. apply (run_start a' a i i R); [right; reflexivity|lia|exact I2|exact I3|reflexivity].
      * exists idx. split; [exact W|]. split; [exact SS|]. intros a b. rewrite M. unfold later. split; intros [R L]; (split; [exact R|]); [destruct L as [L|L]; [left; lia|right; exact L]|]. destruct L as [L|L]; [|right; exact L]. destruct (Nat.eq_dec b i) as [->|N]; [|left; lia]. exfalso. destruct R as (R1 & R2 & _). cbn in I. destruct I as [I|I]; [lia|]. specialize (R2 (i - 1) ltac:(lia)). unfold al in R2. congruence.
Qed.
End Walk.
Lemma run_ext (P P' : nat -> Prop) n a b : (forall i, i < n -> (P i <-> P' i)) -> run P n a b <-> run P' n a b.
Proof.
  intros H. unfold run. split; intros (A & B & C & D); (split; [exact A|]); (split; [intros i Hi; apply H; [lia|apply B, Hi]|]); (split; [destruct C as [C|C]; [left; exact C|right; intros X; apply C, H; [lia|exact X]]|destruct D as [D|D]; [left; intros X; apply D, H; [lia|exact X]|right; exact D]]).
Qed.
Lemma last_time rows : rows <> [] -> fst (last rows (0%Z, 0%Q)) = time rows (List.length rows - 1).
Proof.
  intros H. unfold time. f_equal. induction rows as [|r rows IH]; [contradiction|]. destruct rows as [|s rows]; [reflexivity|]. change (last (r :: s :: rows) (0%Z, 0%Q)) with (last (s :: rows) (0%Z, 0%Q)). rewrite IH by discriminate. cbn. rewrite Nat.sub_0_r. reflexivity.
Qed.
(** C19: the intervals reported are exactly the maximal runs of alerting rows, in increasing order and disjoint; each starts at the
    first row of its run and ends at the first row after it, or at the last row. *)
Theorem C19_intervals : forall p rows, increasing rows -> (0 < window_sec p)%Z -> rows <> [] ->
  exists idx, get_intervals p rows = Some (map (fun ab => (time rows (fst ab), time rows (snd ab))) idx) /\
    StronglySorted (fun u v => snd u < fst v) idx /\
    forall a b, In (a, b) idx <-> run (alerting p rows) (List.length rows) a b.
Proof.
  intros p rows S W NE. set (n := List.length rows). assert (NP : 0 < n) by (unfold n; destruct rows; [contradiction|cbn; lia]). set (flag := alert_at p rows).
  destruct (walk_ok flag (time rows) n NP (fun i j H => time_mono rows i j S H) n 0 None eq_refl (or_introl eq_refl)) as (idx & W1 & SS & M).
  exists idx. split; [|split; [exact SS|]].
  - unfold rowsf in W1. rewrite Nat.sub_0_r in W1. cbn [option_map] in W1. unfold get_intervals. rewrite last_time by exact NE. fold n. destruct rows; [contradiction|]. exact W1.
  - intros a b. rewrite M. unfold later. transitivity (run (al flag) n a b); [split; [intros [R _]; exact R|intros R; split; [exact R|left; lia]]|]. apply run_ext. intros i Hi. unfold al, flag. apply (C19_alerting p rows i S W Hi).
Qed.
(** Every alerting row is covered by exactly one interval, except a last row whose predecessor is not alerting. *)
Theorem C19_covered_partial : forall p rows i, increasing rows -> (0 < window_sec p)%Z -> i < List.length rows -> alerting p rows i ->
  (i = List.length rows - 1 -> 0 < i /\ alerting p rows (i - 1)) ->
  exists ivs s e, get_intervals p rows = Some ivs /\ In (s, e) ivs /\ (s <= time rows i <= e)%Z /\
    forall s' e', In (s', e') ivs -> (s' <= time rows i <= e')%Z -> (s', e') = (s, e).
Proof.
  intros p rows i S W Hi A Last. assert (NE : rows <> []) by (destruct rows; [cbn in Hi; lia|discriminate]). destruct (C19_intervals p rows S W NE) as (idx & E & SS & M). set (n := List.length rows) in *.
  assert (DEC : forall j, j < n -> alerting p rows j \/ ~ alerting p rows j). { intros j Hj. destruct (alert_at p rows j) eqn:F; [left; apply (C19_alerting p rows j S W Hj), F|right; intros X; apply (C19_alerting p rows j S W Hj) in X; congruence]. }
  (* the start of the run of i *)
  assert (ST : forall k, k < n -> alerting p rows k -> exists a, a <= k /\ (forall j, a <= j <= k -> alerting p rows j) /\ (a = 0 \/ ~ alerting p rows (a - 1))).
  { induction k as [|k IH]; intros Hk Ak; [exists 0; split; [lia|]; split; [intros j Hj; assert (j = 0) by lia; subst; exact Ak|left; reflexivity]|]. destruct (DEC k ltac:(lia)) as [D|D].
    - destruct (IH ltac:(lia) D) as (a & A1 & A2 & A3). exists a. split; [lia|]. split; [intros j Hj; destruct (Nat.eq_dec j (Datatypes.S k)) as [->|]; [exact Ak|apply A2; lia]|exact A3].
    - exists (Datatypes.S k). split; [lia|]. split; [intros j Hj; assert (j = Datatypes.S k) by lia; subst; exact Ak|right; cbn; rewrite Nat.sub_0_r; exact D]. }
  (* the end *)
  assert (EN : forall d k, k + d = n - 1 -> alerting p rows k -> exists b, k <= b < n /\ (forall j, k <= j < b -> alerting p rows j) /\ (~ alerting p rows b \/ b = n - 1) /\ (b = k -> k = n - 1)).
  { induction d as [|d IH]; intros k Ek Ak; [exists k; split; [lia|]; split; [lia|]; split; [right; lia|lia]|]. destruct (DEC (Datatypes.S k) ltac:(lia)) as [D|D].
    - destruct (IH (Datatypes.S k) ltac:(lia) D) as (b & B1 & B2 & B3 & B4). exists b. split; [lia|]. split; [intros j Hj; destruct (Nat.eq_dec j k) as [->|]; [exact Ak|apply B2; lia]|]. split; [exact B3|lia].
    - exists (Datatypes.S k). split; [lia|]. split; [intros j Hj; assert (j = k) by lia; subst; exact Ak|]. split; [left; exact D|lia]. }
  destruct (ST i Hi A) as (a & A1 & A2 & A3). destruct (EN (n - 1 - i) i ltac:(lia) A) as (b & B1 & B2 & B3 & B4).
  assert (AB : a < b). { destruct (Nat.eq_dec b i) as [->|]; [|lia]. specialize (B4 eq_refl). destruct (Last B4) as [L1 L2]. destruct (Nat.eq_dec a i) as [->|]; [|lia]. destruct A3 as [->|A3]; [lia|contradiction]. }
  assert (R : run (alerting p rows) n a b) by (split; [lia|]; split; [intros j Hj; destruct (le_lt_dec j i); [apply A2; lia|apply B2; lia]|]; split; [exact A3|exact B3]).
  apply M in R as IN. assert (TM : forall x y, x <= y < n -> (time rows x <= time rows y)%Z) by (intros x y Hxy; destruct (Nat.eq_dec x y) as [->|]; [lia|pose proof (time_mono rows x y S ltac:(unfold n in *; lia)); lia]).
  exists (map (fun ab => (time rows (fst ab), time rows (snd ab))) idx), (time rows a), (time rows b). split; [exact E|]. split; [apply in_map_iff; exists (a, b); split; [reflexivity|exact IN]|]. split; [split; apply TM; lia|].
  intros s' e' I' T'. apply in_map_iff in I' as ([a' b'] & Eab & I'). injection Eab as <- <-. apply M in I' as R'. cbn [fst snd] in *. destruct R' as (R1 & R2 & R3 & R4).
  assert (a' <= i). { destruct (le_lt_dec a' i) as [|L]; [assumption|]. pose proof (time_mono rows i a' S ltac:(unfold n in *; lia)). lia. }
  assert (i <= b'). { destruct (le_lt_dec i b') as [|L]; [assumption|]. pose proof (time_mono rows b' i S ltac:(unfold n in *; lia)). lia. }
  assert (a' = a). { destruct (lt_eq_lt_dec a a') as [[L|L]|L]; [|symmetry; exact L|]; exfalso.
    - destruct R3 as [->|R3]; [lia|]. apply R3, A2. lia.
    - destruct A3 as [->|A3]; [lia|]. apply A3, R2. lia. }
  subst a'. assert (b' = b); [|subst; reflexivity]. destruct (lt_eq_lt_dec b b') as [[L|L]|L]; [|symmetry; exact L|]; exfalso.
  - destruct B3 as [B3|B3]; [|lia]. apply B3, R2. lia.
  - destruct R4 as [R4|R4]; [|lia]. apply R4. destruct (Nat.eq_dec b' i) as [->|]; [exact A|apply B2; lia].
Qed.
(** That last row is lost: the most recent score raises no anomaly until the next one has arrived. *)
Theorem C19_last_refuted : forall p rows, increasing rows -> (0 < window_sec p)%Z -> 2 <= List.length rows ->
  alerting p rows (List.length rows - 1) -> ~ alerting p rows (List.length rows - 2) ->
  exists ivs, get_intervals p rows = Some ivs /\ forall s e, In (s, e) ivs -> ~ (s <= time rows (List.length rows - 1) < e)%Z /\ (e = time rows (List.length rows - 1) -> False).
Proof.
  intros p rows S W L A NA. assert (NE : rows <> []) by (destruct rows; [cbn in L; lia|discriminate]). destruct (C19_intervals p rows S W NE) as (idx & E & SS & M). eexists. split; [exact E|]. intros s e I. apply in_map_iff in I as ([a b] & Eab & I). injection Eab as <- <-. cbn [fst snd]. apply M in I as (R1 & R2 & R3 & R4). set (n := List.length rows) in *. split.
  - intros T. pose proof (time_mono rows b (n - 1) S) as TB. destruct (Nat.eq_dec b (n - 1)) as [->|N]; [lia|]. specialize (TB ltac:(unfold n in *; lia)). lia.
  - intros EB. apply time_inj in EB; [|exact S|unfold n in *; lia|unfold n in *; lia]. subst b. apply NA, R2. lia.
Qed.

(** ** C132: which scores raise an alert *)
Theorem C132_first_refuted : forall p rows, (0 < window_sec p)%Z -> ~ alerting p rows 0.
Proof. intros p rows W [H _]. lia. Qed.
(** When the rows are at least a window apart (as with the default window of one second), every score after the first that is
    beyond the threshold is alerting, and no other. *)
Theorem C132_spaced_partial : forall p rows i, increasing rows -> (0 < window_sec p)%Z -> (0 < fraction p <= 1)%Q ->
  (forall j, S j < List.length rows -> (time rows j + window_sec p <= time rows (S j))%Z) -> i < List.length rows ->
  alerting p rows i <-> 0 < i /\ beyond p (score rows i).
Proof.
  intros p rows i S W F G Hi. destruct i as [|i]; [split; [intros A; exfalso; apply (C132_first_refuted p rows W A)|lia]|].
  assert (TM : forall x y, x <= y < List.length rows -> (time rows x <= time rows y)%Z) by (intros x y Hxy; destruct (Nat.eq_dec x y) as [->|]; [lia|pose proof (time_mono rows x y S ltac:(lia)); lia]).
  assert (G' := G i Hi). pose proof (TM 0 i ltac:(lia)) as T0.
  assert (WIN : forall j, j <= Datatypes.S i -> (time rows (Datatypes.S i) - window_sec p < time rows j)%Z <-> Datatypes.S i <= j).
  { intros j Hj. destruct (Nat.eq_dec j (Datatypes.S i)) as [->|N]; [split; [intros; lia|intros; lia]|]. pose proof (TM j i ltac:(lia)). split; intros; lia. }
  split.
  - intros [_ (a & f & A1 & A2 & A3 & A4)]. split; [lia|]. assert (a = Datatypes.S i) by (pose proof (proj1 (WIN a A1) (proj2 (A2 a A1) ltac:(lia))); lia). subst a. apply A3; [lia|]. unfold count_rows in A4. replace (Datatypes.S (Datatypes.S i) - Datatypes.S i) with 1 in A4 by lia. cbn [seq filter] in A4. destruct (f (Datatypes.S i)); [reflexivity|]. exfalso. change (inject_Z (Z.of_nat 1)) with 1%Q in A4. change (inject_Z (Z.of_nat (List.length (@nil nat)))) with 0%Q in A4. lra.
  - intros [_ B]. split; [lia|]. exists (Datatypes.S i), (fun j => crossed p (score rows j)). split; [lia|]. split; [exact WIN|]. split; [intros; apply crossed_iff|]. unfold count_rows. replace (Datatypes.S (Datatypes.S i) - Datatypes.S i) with 1 by lia. cbn [seq filter]. rewrite (proj2 (crossed_iff p _) B). change (inject_Z (Z.of_nat 1)) with 1%Q. change (inject_Z (Z.of_nat (List.length [Datatypes.S i]))) with 1%Q. lra.
Qed.

(** ** C133: severity *)
Lemma qle_f x y : Qle_bool x y = false -> (y < x)%Q.
Proof. intros H. destruct (Qlt_le_dec y x) as [L|L]; [exact L|apply Qle_bool_iff in L; congruence]. Qed.
Lemma excess_ok p x : excess_of p x (excess p x).
Proof.
  unfold excess_of, excess. destruct (dir p); [reflexivity|ring|]. unfold qmaxp, qmax0.
  destruct (Qle_bool 0 (x - high p)) eqn:E1; [apply Qle_bool_iff in E1|apply qle_f in E1]; (destruct (Qle_bool 0 (- x + low p)) eqn:E2; [apply Qle_bool_iff in E2|apply qle_f in E2]);
  match goal with |- context [Qle_bool ?u ?v] => destruct (Qle_bool u v) eqn:E3; [apply Qle_bool_iff in E3|apply qle_f in E3] end; (split; [split; [lra|split; lra]|]); first [left; lra|right; left; lra|right; right; lra].
Qed.
Lemma excess_unique p x e e' : excess_of p x e -> excess_of p x e' -> (e == e')%Q.
Proof. unfold excess_of. destruct (dir p); intros H H'; [lra|lra|]. destruct H as [(A & B & C) D], H' as [(A' & B' & C') D']. destruct D as [D|[D|D]], D' as [D'|[D'|D']]; lra. Qed.
Lemma rows_as_map {A} (l : list A) d : l = map (fun j => nth j l d) (seq 0 (List.length l)).
Proof. rewrite <- (firstn_as_map l d (List.length l) (le_n _)). symmetry. apply firstn_all. Qed.
Lemma filter_seq_range (f : nat -> bool) a b n : a <= b < n -> (forall j, j < n -> (f j = true <-> a <= j <= b)) -> filter f (seq 0 n) = seq a (S b - a).
Proof.
  intros H F. replace n with (a + ((S b - a) + (n - S b))) by lia. rewrite !seq_app, !filter_app.
  assert (N : forall l, (forall j, In j l -> f j = false) -> filter f l = []). { induction l as [|x l IH]; intros Z; [reflexivity|]. cbn. rewrite (Z x (or_introl eq_refl)). apply IH. intros j Hj. apply Z. right. exact Hj. }
  assert (Y : forall l, (forall j, In j l -> f j = true) -> filter f l = l). { induction l as [|x l IH]; intros Z; [reflexivity|]. cbn. rewrite (Z x (or_introl eq_refl)). f_equal. apply IH. intros j Hj. apply Z. right. exact Hj. }
  rewrite (N (seq 0 a)), (Y (seq _ (S b - a))), (N (seq _ (n - S b))); [rewrite app_nil_r; reflexivity| | |]; intros j Hj; apply in_seq in Hj; [destruct (f j) eqn:E; [apply F in E; lia|reflexivity]|apply F; lia|destruct (f j) eqn:E; [apply F in E; lia|reflexivity]].
Qed.
Lemma itv_scores_ok rows a b : increasing rows -> a <= b < List.length rows -> itv_scores rows (time rows a, time rows b) = map (score rows) (seq a (S b - a)).
Proof.
  intros S H. unfold itv_scores. rewrite (rows_as_map rows (0%Z, 0%Q)) at 1. rewrite filter_map', map_map. cbn [fst snd]. rewrite (filter_seq_range _ a b (List.length rows) H); [reflexivity|]. intros j Hj. fold (time rows j). rewrite andb_true_iff, !Z.leb_le.
  assert (TM : forall x y, x < List.length rows -> y < List.length rows -> ((time rows x <= time rows y)%Z <-> x <= y)). { intros x y Hx Hy. destruct (lt_eq_lt_dec x y) as [[L|L]|L]; [pose proof (time_mono rows x y S ltac:(lia)); lia|subst; lia|pose proof (time_mono rows y x S ltac:(lia)); lia]. }
  rewrite (TM a j), (TM j b) by lia. reflexivity.
Qed.
Lemma removelast_map_seq {A} (f : nat -> A) a n : removelast (map f (seq a (S n))) = map f (seq a n).
Proof. rewrite seq_S, map_app. apply removelast_last. Qed.
Lemma qsum_scale c (f : nat -> Q) l : (qsum (map (fun s => c * s) (map f l)) == c * qsum (map f l))%Q.
Proof. induction l as [|x l IH]; cbn; [ring|]. rewrite IH. ring. Qed.
Lemma qsum_ext (f g : nat -> Q) l : (forall j, In j l -> (f j == g j)%Q) -> (qsum (map f l) == qsum (map g l))%Q.
Proof. induction l as [|x l IH]; intros H; cbn; [reflexivity|]. rewrite (H x (or_introl eq_refl)), IH; [reflexivity|]. intros j Hj. apply H. right. exact Hj. Qed.
(** The severity of an interval from row a to row b: its duration, the sum of the excesses of the rows a, ..., b-1 each counted
    for an equal share of the duration, and their mean. *)
Theorem C133_volume : forall p rows a b e, increasing rows -> a < b < List.length rows -> (forall j, a <= j < b -> excess_of p (score rows j) (e j)) ->
  let s := severity_of p rows (time rows a, time rows b) in let d := inject_Z (time rows b - time rows a) in
  (0 < total_sec s)%Q /\ (total_sec s == d)%Q /\
  (volume s * inject_Z (Z.of_nat (b - a)) == d * sum_rows e a b)%Q /\
  (height s * inject_Z (Z.of_nat (b - a)) == sum_rows e a b)%Q.
Proof.
  intros p rows a b e S H EX s d. assert (P : (0 < d)%Q) by (unfold d; change 0%Q with (inject_Z 0); rewrite <- Zlt_Qlt; pose proof (time_mono rows a b S ltac:(lia)); lia).
  assert (NP : (0 < inject_Z (Z.of_nat (b - a)))%Q) by (change 0%Q with (inject_Z 0); rewrite <- Zlt_Qlt; lia).
  assert (V : (volume s * inject_Z (Z.of_nat (b - a)) == d * sum_rows e a b)%Q).
  { unfold s, severity_of. cbn [volume fst snd]. rewrite itv_scores_ok by (try exact S; lia). rewrite map_map, map_length, seq_length. replace (Datatypes.S b - a) with (Datatypes.S (b - a)) by lia. rewrite removelast_map_seq, qsum_scale. fold d. replace (Datatypes.S (b - a) - 1) with (b - a) by lia. rewrite (qsum_ext _ e); [unfold sum_rows; field; lra|]. intros j Hj. apply in_seq in Hj. apply (excess_unique p (score rows j)); [apply excess_ok|apply EX; lia]. }
  split; [exact P|]. split; [reflexivity|]. split; [exact V|].
  assert (HH : (height s == volume s / d)%Q). { unfold s, severity_of at 1. cbn [height volume fst snd]. fold d. destruct (Qeq_bool d 0) eqn:E; [apply Qeq_bool_iff in E; lra|reflexivity]. }
  rewrite HH. transitivity (volume s * inject_Z (Z.of_nat (b - a)) / d)%Q; [field; lra|]. rewrite V. field. lra.
Qed.
(** With evenly spaced rows the volume is the area under the excess (each excess lasting until the next row). *)
Theorem C133_area_partial : forall p rows a b e step, increasing rows -> a < b < List.length rows -> (forall j, a <= j < b -> excess_of p (score rows j) (e j)) ->
  (forall j, a <= j < b -> (time rows (S j) - time rows j = step)%Z) ->
  (volume (severity_of p rows (time rows a, time rows b)) == sum_rows (fun j => inject_Z (time rows (S j) - time rows j) * e j) a b)%Q.
Proof.
  intros p rows a b e step S H EX ST. destruct (C133_volume p rows a b e S H EX) as (_ & _ & V & _). assert (NP : (0 < inject_Z (Z.of_nat (b - a)))%Q) by (change 0%Q with (inject_Z 0); rewrite <- Zlt_Qlt; lia).
  assert (D : forall k, a + k <= b -> (time rows (a + k) - time rows a = step * Z.of_nat k)%Z). { induction k as [|k IH]; intros Hk; [rewrite Nat.add_0_r; lia|]. rewrite Nat.add_succ_r. specialize (ST (a + k) ltac:(lia)). specialize (IH ltac:(lia)). lia. }
  specialize (D (b - a) ltac:(lia)). replace (a + (b - a)) with b in D by lia. rewrite D, inject_Z_mult in V.
  assert (E : (sum_rows (fun j => inject_Z (time rows (Datatypes.S j) - time rows j) * e j) a b == inject_Z step * sum_rows e a b)%Q).
  { unfold sum_rows. rewrite (qsum_ext _ (fun j => inject_Z step * e j)%Q). - rewrite <- qsum_scale, map_map. reflexivity. - intros j Hj. apply in_seq in Hj. rewrite ST by lia. reflexivity. }
  rewrite E. apply (Qmult_inj_r _ _ (inject_Z (Z.of_nat (b - a)))); [lra|]. rewrite V. ring.
Qed.
(** With gaps it is not: the same excesses give the same volume whichever of them lasts. *)
Definition gap_rows : list (Z * Q) := [(0%Z, 0%Q); (1%Z, 12%Q); (2%Z, 3%Q); (100%Z, 0%Q)].
Theorem C133_area_refuted :
  increasing gap_rows /\ get_intervals post_default gap_rows = Some [(1, 100)]%Z /\
  (volume (severity_of post_default gap_rows (1, 100)%Z) == 1089 # 2)%Q /\
  (sum_rows (fun j => inject_Z (time gap_rows (S j) - time gap_rows j) * (excess post_default (score gap_rows j))) 1 3 == 108)%Q.
Proof. split; [repeat constructor|]. split; [vm_compute; reflexivity|]. split; vm_compute; reflexivity. Qed.
Lemma qmaxp_ge x y : (x <= qmaxp x y /\ y <= qmaxp x y)%Q /\ (qmaxp x y = x \/ qmaxp x y = y).
Proof. unfold qmaxp. destruct (Qle_bool x y) eqn:E; [apply Qle_bool_iff in E; split; [split; lra|right; reflexivity]|apply qle_f in E; split; [split; lra|left; reflexivity]]. Qed.
Lemma lmax_spec l : l <> [] -> In (lmax l) l /\ forall x, In x l -> (x <= lmax l)%Q.
Proof.
  destruct l as [|x l]; [contradiction|]. intros _. revert x. unfold lmax. induction l as [|y l IH]; intros x; cbn [qmaxl].
  - split; [left; reflexivity|]. intros z [->|[]]. lra.
  - destruct (IH y) as [I1 I2]. destruct (qmaxp_ge x (qmaxl y l)) as [[M1 M2] M3]. split; [destruct M3 as [->| ->]; [left; reflexivity|right; exact I1]|]. intros z [<-|Hz]; [exact M1|]. specialize (I2 z Hz). lra.
Qed.
Lemma lmax_largest (f : nat -> Q) a b : a <= b -> largest f a b (lmax (map f (seq a (S b - a)))).
Proof.
  intros H. destruct (lmax_spec (map f (seq a (S b - a)))) as [L1 L2]; [replace (S b - a) with (S (b - a)) by lia; discriminate|]. split.
  - apply in_map_iff in L1 as (j & E & Hj). apply in_seq in Hj. exists j. split; [lia|rewrite E; reflexivity].
  - intros j Hj. apply L2. apply in_map_iff. exists j. split; [reflexivity|apply in_seq; lia].
Qed.
Lemma largest_unique f a b x y : largest f a b x -> largest f a b y -> (x == y)%Q.
Proof. intros [(j & J1 & J2) L] [(k & K1 & K2) L']. specialize (L k K1). specialize (L' j J1). lra. Qed.
(** The magnitude is the largest excess of the rows a, ..., b relative to its threshold. *)
Theorem C133_magnitude : forall p rows a b up down, increasing rows -> a < b < List.length rows -> ~ (high p == 0)%Q -> ~ (low p == 0)%Q ->
  largest (fun j => score rows j - high p)%Q a b up -> largest (fun j => low p - score rows j)%Q a b down ->
  let m := mag (severity_of p rows (time rows a, time rows b)) in
  match dir p with
  | Up => (m == Qabs up / Qabs (high p))%Q
  | Down => (m == Qabs down / Qabs (low p))%Q
  | Both => (0 <= m /\ up / Qabs (high p) <= m /\ down / Qabs (low p) <= m)%Q /\ (m == 0 \/ m == up / Qabs (high p) \/ m == down / Qabs (low p))%Q
  end.
Proof.
  intros p rows a b up down S H HH HL LU LD m. unfold m, severity_of. cbn [mag]. rewrite itv_scores_ok by (try exact S; lia). unfold magnitude, nonzero_high, nonzero_low.
  destruct (Qeq_bool (high p) 0) eqn:E1; [apply Qeq_bool_iff in E1; contradiction|]. destruct (Qeq_bool (low p) 0) eqn:E2; [apply Qeq_bool_iff in E2; contradiction|].
  assert (QD : forall x y, (Qabs (x / y) == Qabs x / Qabs y)%Q). { intros x y. unfold Qdiv. rewrite Qabs_Qmult, Qabs_Qinv. reflexivity. }
  assert (AP : forall x, ~ (x == 0)%Q -> (0 < Qabs x)%Q). { intros x Hx. destruct (Qlt_le_dec 0 (Qabs x)) as [L|L]; [exact L|]. exfalso. apply Hx. pose proof (Qle_Qabs x). pose proof (Qle_Qabs (- x)). rewrite Qabs_opp in H1. lra. }
  pose proof (lmax_largest (fun j => score rows j - high p)%Q a b ltac:(lia)) as LU'. pose proof (lmax_largest (fun j => - score rows j + low p)%Q a b ltac:(lia)) as LD'.
  assert (LD2 : largest (fun j => - score rows j + low p)%Q a b down). { destruct LD as [(j & J1 & J2) L]. split; [exists j; split; [exact J1|lra]|intros k Hk; specialize (L k Hk); cbn in L; lra]. }
  destruct (dir p).
  - rewrite map_map, QD, (largest_unique _ _ _ _ _ LU' LU). reflexivity.
  - rewrite map_map, QD, (largest_unique _ _ _ _ _ LD' LD2). reflexivity.
  - assert (CL : forall f x, largest f a b x -> (lmax (map (fun s => qmax0 (f s)) (seq a (Datatypes.S b - a))) == qmax0 x)%Q).
    { intros f x [(j & J1 & J2) L]. apply (largest_unique (fun s => qmax0 (f s)) a b); [apply lmax_largest; lia|]. assert (MONO : forall u v, (u <= v)%Q -> (qmax0 u <= qmax0 v)%Q). { intros u v Huv. unfold qmax0. destruct (Qle_bool 0 u) eqn:U, (Qle_bool 0 v) eqn:V; try apply Qle_bool_iff in U; try apply Qle_bool_iff in V; try apply qle_f in U; try apply qle_f in V; lra. } split; [exists j; split; [exact J1|apply Qle_antisym; apply MONO; lra]|intros k Hk; apply MONO, L, Hk]. }
    rewrite !map_map. set (mu := Qabs (lmax (map (fun x => qmax0 (score rows x - high p)) _) / _)). set (md := Qabs (lmax (map (fun x => qmax0 (- score rows x + low p)) _) / _)).
    assert (MU : (mu == qmax0 up / Qabs (high p))%Q). { unfold mu. rewrite QD, (CL _ _ LU). rewrite Qabs_pos; [reflexivity|]. unfold qmax0. destruct (Qle_bool 0 up) eqn:U; [apply Qle_bool_iff in U; exact U|lra]. }
    assert (MD : (md == qmax0 down / Qabs (low p))%Q). { unfold md. rewrite QD, (CL _ _ LD2). rewrite Qabs_pos; [reflexivity|]. unfold qmax0. destruct (Qle_bool 0 down) eqn:U; [apply Qle_bool_iff in U; exact U|lra]. }
    assert (Q0 : forall x y, (0 < y)%Q -> (0 <= qmax0 x / y /\ x / y <= qmax0 x / y)%Q /\ (qmax0 x / y == 0 \/ qmax0 x / y == x / y)%Q).
    { intros x y Hy. assert (IY : (0 < / y)%Q) by (apply Qinv_lt_0_compat, Hy). unfold Qdiv, qmax0. destruct (Qle_bool 0 x) eqn:U; [apply Qle_bool_iff in U|apply qle_f in U]; (split; [split; nra|]); [right; reflexivity|left; ring]. }
    destruct (Q0 up _ (AP _ HH)) as [[U1 U2] U3]. destruct (Q0 down _ (AP _ HL)) as [[D1 D2] D3]. destruct (qmaxp_ge mu md) as [[M1 M2] M3]. split; [split; [lra|split; lra]|]. destruct M3 as [-> | ->]; [destruct U3; [left; lra|right; left; lra]|destruct D3; [left; lra|right; right; lra]].
Qed.

(** ** C134: the overall severity *)
Theorem C134_raises_refuted : forall p rows, get_intervals p rows = Some [] -> get_overall p rows = None.
Proof. intros p rows H. unfold get_overall, severities. rewrite H. reflexivity. Qed.
Theorem C134_overall_partial : forall p rows ivs, get_intervals p rows = Some ivs -> ivs <> [] ->
  exists o, get_overall p rows = Some o /\ number o = List.length ivs /\
    (volume_all o == qsum (map (fun iv => volume (severity_of p rows iv)) ivs))%Q /\
    (duration o == qsum (map (fun iv => inject_Z (snd iv - fst iv)) ivs))%Q /\
    (height_all o * duration o == volume_all o)%Q /\ (0 < duration o)%Q /\
    (exists iv, In iv ivs /\ mag_all o = mag (severity_of p rows iv)) /\ (forall iv, In iv ivs -> (mag (severity_of p rows iv) <= mag_all o)%Q).
Proof.
  intros p rows ivs E NE. unfold get_overall, severities. rewrite E. cbn [option_map]. destruct ivs as [|iv ivs]; [contradiction|]. set (l := iv :: ivs) in *. change (map (severity_of p rows) l) with (severity_of p rows iv :: map (severity_of p rows) ivs). set (sv := severity_of p rows iv :: map (severity_of p rows) ivs). assert (ESV : sv = map (severity_of p rows) l) by reflexivity.
  assert (POS : forall rs cp last ivs, walk last rs cp = Some ivs -> forall s e, In (s, e) ivs -> (s < e)%Z).
  { induction rs as [|[t f] rs IH]; intros cp last0 ivs0 Hw s e Hin.
    - cbn in Hw. destruct cp as [c|]; [|injection Hw as <-; destruct Hin]. destruct (Z.ltb_spec c last0); [|injection Hw as <-; destruct Hin]. unfold interval in Hw. destruct (Z.leb_spec last0 c); cbn in Hw; [discriminate|]. injection Hw as <-. destruct Hin as [Hin|[]]. injection Hin as <- <-. lia.
    - destruct f; cbn in Hw; [apply (IH _ _ _ Hw s e Hin)|]. destruct cp as [c|]; [|apply (IH _ _ _ Hw s e Hin)]. unfold interval in Hw. destruct (Z.leb_spec t c); [discriminate|]. destruct (walk last0 rs None) eqn:EW; [|discriminate]. injection Hw as <-. destruct Hin as [Hin|Hin]; [injection Hin as <- <-; lia|apply (IH _ _ _ EW s e Hin)]. }
  assert (POSI : forall u, In u l -> (fst u < snd u)%Z). { intros [s e] Hu. unfold get_intervals in E. destruct rows as [|r rows]; [discriminate|]. apply (POS _ _ _ _ E s e Hu). }
  assert (DP : (0 < qsum (map total_sec sv))%Q).
  { rewrite ESV, map_map. cbn [total_sec severity_of]. unfold l. cbn [map qsum]. assert (G : (0 <= qsum (map (fun x : Z * Z => inject_Z (snd x - fst x)) ivs))%Q). { assert (GI : forall u, In u ivs -> (fst u < snd u)%Z) by (intros u Hu; apply POSI; right; exact Hu). clear - GI. induction ivs as [|u us IH]; [cbn; lra|]. cbn [map qsum]. specialize (IH (fun v Hv => GI v (or_intror Hv))). assert (0 < inject_Z (snd u - fst u))%Q by (change 0%Q with (inject_Z 0); rewrite <- Zlt_Qlt; specialize (GI u (or_introl eq_refl)); lia). lra. }
    assert (0 < inject_Z (snd iv - fst iv))%Q by (change 0%Q with (inject_Z 0); rewrite <- Zlt_Qlt; specialize (POSI iv (or_introl eq_refl)); lia). lra. }
  eexists. split; [reflexivity|]. cbn [number volume_all duration height_all mag_all]. split; [rewrite ESV, map_length; reflexivity|]. split; [rewrite ESV, map_map; reflexivity|]. split; [rewrite ESV, map_map; reflexivity|]. split; [destruct (Qeq_bool _ 0) eqn:EQ; [apply Qeq_bool_iff in EQ; lra|field; lra]|]. split; [exact DP|].
  destruct (lmax_spec (map mag sv) ltac:(discriminate)) as [L1 L2]. rewrite ESV, map_map in L1, L2. rewrite ESV, map_map. split; [apply in_map_iff in L1 as (u & EU & HU); exists u; split; [exact HU|symmetry; exact EU]|]. intros u HU. apply L2. apply in_map_iff. exists u. split; [reflexivity|exact HU].
Qed.

(** a case with two runs, one of them open at the end *)
Definition case_rows : list (Z * Q) := [(0%Z, 5%Q); (10%Z, 3%Q); (20%Z, 4%Q); (30%Z, 1%Q); (40%Z, -3%Q); (50%Z, -4%Q)].
Example C19_case : increasing case_rows /\ get_intervals post_default case_rows = Some [(10, 30); (40, 50)]%Z /\ exists o, get_overall post_default case_rows = Some o /\ number o = 2 /\ (volume_all o == 40)%Q /\ (duration o == 30)%Q /\ (mag_all o == 1)%Q.
Proof. split; [repeat constructor|]. split; [vm_compute; reflexivity|]. eexists. split; [vm_compute; reflexivity|]. split; [reflexivity|]. repeat split; vm_compute; reflexivity. Qed.
Definition lone_rows : list (Z * Q) := [(0%Z, 0%Q); (10%Z, 0%Q); (20%Z, 9%Q)].
Example C19_last_case : increasing lone_rows /\ alerting post_default lone_rows 2 /\ ~ alerting post_default lone_rows 1 /\ get_intervals post_default lone_rows = Some [].
Proof.
  assert (S : increasing lone_rows) by (repeat constructor). split; [exact S|]. split; [apply (C19_alerting post_default lone_rows 2 S ltac:(cbn; lia) ltac:(cbn; lia)); vm_compute; reflexivity|]. split; [intros H; apply (C19_alerting post_default lone_rows 1 S ltac:(cbn; lia) ltac:(cbn; lia)) in H; vm_compute in H; discriminate|vm_compute; reflexivity].
Qed.
Example C134_case : get_intervals post_default lone_rows = Some [] /\ get_overall post_default lone_rows = None.
Proof. split; vm_compute; reflexivity. Qed.

Print Assumptions C19_alerting.
Print Assumptions C19_intervals.
Print Assumptions C19_covered_partial.
Print Assumptions C19_last_refuted.
Print Assumptions C132_first_refuted.
Print Assumptions C132_spaced_partial.
Print Assumptions C133_volume.
Print Assumptions C133_area_partial.
Print Assumptions C133_area_refuted.
Print Assumptions C133_magnitude.
Print Assumptions C134_raises_refuted.
Print Assumptions C134_overall_partial.
