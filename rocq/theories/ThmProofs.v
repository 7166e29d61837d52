(** Proofs for the temporal hierarchy. *)
From Verif Require Import Common MetricsModel ThmModel ThmSpec.
From Coq Require Import Lqa Lia Sorted.
Open Scope nat_scope.

(** ** least common multiple *)
Lemma lcm_step a c : 1 <= a -> 1 <= c -> a * c / Nat.gcd a c = Nat.lcm a c.
Proof.
  intros Ha Hc. unfold Nat.lcm. apply Nat.divide_div_mul_exact.
  - intros E. apply Nat.gcd_eq_0 in E. lia.
  - apply Nat.gcd_divide_r.
Qed.
Lemma get_m_fold ks b : 1 <= b -> (forall k, In k ks -> 1 <= k) ->
  let m := fold_left (fun base c => base * c / Nat.gcd base c) ks b in
  1 <= m /\ Nat.divide b m /\ (forall k, In k ks -> Nat.divide k m)
  /\ forall x, Nat.divide b x -> (forall k, In k ks -> Nat.divide k x) -> Nat.divide m x.
Proof.
  revert b. induction ks as [|c ks IH]; intros b Hb H; cbn [fold_left].
  - split; [exact Hb|]. split; [apply Nat.divide_refl|]. split; [intros k []|]. intros x D _. exact D.
  - assert (Hc : 1 <= c) by (apply H; left; reflexivity). rewrite lcm_step by assumption.
    assert (L1 : 1 <= Nat.lcm b c). { assert (Nat.lcm b c <> 0) by (rewrite Nat.lcm_eq_0; lia). lia. }
    destruct (IH (Nat.lcm b c) L1 (fun k Hk => H k (or_intror Hk))) as (A & B & C & D). split; [exact A|]. split.
    + apply Nat.divide_trans with (Nat.lcm b c); [apply Nat.divide_lcm_l|exact B].
    + split.
      * intros k [<-|Hk]; [apply Nat.divide_trans with (Nat.lcm b c); [apply Nat.divide_lcm_r|exact B]|apply C, Hk].
      * intros x Dx Dk. apply D; [apply Nat.lcm_least; [exact Dx|apply Dk; left; reflexivity]|intros k Hk; apply Dk; right; exact Hk].
Qed.
Lemma get_m_pos ks : (forall k, In k ks -> 1 <= k) -> 1 <= get_m ks.
Proof. intros H. exact (proj1 (get_m_fold ks 1 (le_n 1) H)). Qed.
Lemma get_m_divides ks k : (forall k, In k ks -> 1 <= k) -> In k ks -> Nat.divide k (get_m ks).
Proof. intros H Hk. destruct (get_m_fold ks 1 (le_n 1) H) as (_ & _ & C & _). apply C, Hk. Qed.
Lemma freq_mul m k : 1 <= k -> Nat.divide k m -> freq m k * k = m.
Proof. intros Hk [q ->]. unfold freq. rewrite Nat.div_mul by lia. reflexivity. Qed.

(** ** sums over blocks *)
Lemma qsum_firstn k l : (qsum (firstn k l) == sumn k (fun t => nth t l 0))%Q.
Proof.
  revert l. induction k as [|k IH]; intros l; [reflexivity|]. rewrite sumn_S_first. destruct l as [|x l].
  - cbn [firstn qsum nth]. rewrite (sumn_zero k) by (intros; reflexivity). ring.
  - cbn [firstn qsum nth]. rewrite IH. reflexivity.
Qed.
Lemma nth_skipn_add {A} s t (l : list A) d : nth t (skipn s l) d = nth (s + t) l d.
Proof. revert l. induction s as [|s IH]; intros l; [reflexivity|]. destruct l as [|x l]; [destruct t; reflexivity|]. cbn. apply IH. Qed.
Lemma block_sum_sumn k j l : (block_sum k j l == sumn k (fun t => nth (j * k + t) l 0))%Q.
Proof. unfold block_sum. rewrite qsum_firstn. apply sumn_ext. intros. rewrite nth_skipn_add. reflexivity. Qed.
Lemma sumn_split a b f : (sumn (a + b) f == sumn a f + sumn b (fun i => f (a + i)%nat))%Q.
Proof. induction b as [|b IH]; [rewrite Nat.add_0_r; cbn; ring|]. rewrite Nat.add_succ_r. cbn [sumn]. rewrite IH. ring. Qed.
Lemma indicator_sum m k s (x : nat -> Q) : s + k <= m ->
  (sumn m (fun a => b2q (Nat.leb s a && Nat.ltb a (s + k)) * x a) == sumn k (fun t => x (s + t)%nat))%Q.
Proof.
  intros H. replace m with (s + (k + (m - s - k))) by lia. rewrite sumn_split, sumn_split.
  rewrite (sumn_zero s). 2: { intros i Hi. destruct (Nat.leb_spec s i); [lia|]. cbn. ring. }
  rewrite (sumn_zero (m - s - k)). 2: { intros i Hi. destruct (Nat.ltb_spec (s + (k + i)) (s + k)); [lia|]. rewrite andb_false_r. cbn. ring. }
  rewrite (sumn_ext k _ (fun t => x (s + t)%nat)). ring.
  intros t Ht. destruct (Nat.leb_spec s (s + t)); [|lia]. destruct (Nat.ltb_spec (s + t) (s + k)); [|lia]. cbn. ring.
Qed.

(** rows are indexed by pairs (level, block) *)
Definition pairs (levels : list nat) (m : nat) : list (nat * nat) :=
  flat_map (fun k => map (pair k) (seq 0 (freq m k))) levels.
Lemma flat_map_pairs {A} (f : nat -> nat -> A) levels m :
  flat_map (fun k => map (f k) (seq 0 (freq m k))) levels = map (fun p => f (fst p) (snd p)) (pairs levels m).
Proof.
  unfold pairs. induction levels as [|k t IH]; [reflexivity|]. cbn [flat_map]. rewrite map_app, IH, map_map. reflexivity.
Qed.
Lemma pairs_in levels m p : In p (pairs levels m) -> In (fst p) levels /\ snd p < freq m (fst p).
Proof.
  unfold pairs. intros H. apply in_flat_map in H as (k & Hk & H). apply in_map_iff in H as (i & <- & Hi). apply in_seq in Hi.
  cbn. split; [exact Hk|lia].
Qed.
Lemma get_S_pairs levels m : get_S levels m = map (fun p => S_row m (fst p) (snd p)) (pairs levels m).
Proof. apply (flat_map_pairs (S_row m)). Qed.
Lemma ycol_pairs levels m orig c :
  ycol levels m orig c = map (fun p => nth (c * freq m (fst p) + snd p) (orig (fst p)) 0%Q) (pairs levels m).
Proof. apply (flat_map_pairs (fun k i => nth (c * freq m k + i) (orig k) 0%Q)). Qed.
Lemma level_vector_pairs levels m b :
  level_vector levels m b = map (fun p => block_sum (fst p) (snd p) b) (pairs levels m).
Proof. apply (flat_map_pairs (fun k j => block_sum k j b)). Qed.
Lemma nth_map_pairs {A} (f : nat * nat -> A) d levels m r : r < length (pairs levels m) ->
  nth r (map f (pairs levels m)) d = f (nth r (pairs levels m) (0, 0)).
Proof. intros H. rewrite (nth_indep _ d (f (0, 0))) by (rewrite map_length; exact H). apply map_nth. Qed.
Lemma S_row_nth m k i j : j < m -> nth j (S_row m k i) 0%Q = b2q (Nat.leb (i * k) j && Nat.ltb j (i * k + k)).
Proof.
  intros H. unfold S_row. set (f := fun j => b2q (Nat.leb (i * k) j && Nat.ltb j (i * k + k))).
  rewrite (nth_indep _ 0%Q (f 0)) by (rewrite map_length, seq_length; exact H). rewrite (map_nth f), seq_nth by exact H. reflexivity.
Qed.
Lemma block_fits m k i : 1 <= k -> Nat.divide k m -> i < freq m k -> i * k + k <= m.
Proof. intros Hk D Hi. pose proof (freq_mul m k Hk D). nia. Qed.
Definition Smat (levels : list nat) (m : nat) : mat := of_rows (get_S levels m).
Lemma Smat_apply levels m r (x : nat -> Q) : (forall k, In k levels -> 1 <= k) -> (forall k, In k levels -> Nat.divide k m) ->
  r < length (pairs levels m) ->
  let p := nth r (pairs levels m) (0, 0) in
  (sumn m (fun a => Smat levels m r a * x a) == sumn (fst p) (fun t => x (snd p * fst p + t)%nat))%Q.
Proof.
  intros H1 H2 Hr p. assert (Hp : In p (pairs levels m)) by (apply nth_In, Hr). apply pairs_in in Hp as [P1 P2].
  rewrite <- (indicator_sum m (fst p) (snd p * fst p) x) by (apply block_fits; auto).
  apply sumn_ext. intros a Ha. unfold Smat, of_rows. rewrite get_S_pairs, nth_map_pairs by exact Hr. fold p.
  rewrite S_row_nth by exact Ha. reflexivity.
Qed.

(** ** level 1 comes last *)
Lemma hierarchy_last levels : hierarchy levels -> exists ls, levels = ls ++ [1] /\ forall k, In k ls -> 1 < k.
Proof.
  intros (Hs & H1 & Hp). induction Hs as [|a l Hs IH Ha]; [destruct H1|].
  destruct H1 as [->|H1].
  - destruct l as [|b l]; [exists []; split; [reflexivity|intros k []]|].
    inversion Ha; subst. assert (1 <= b) by (apply Hp; right; left; reflexivity). lia.
  - destruct (IH H1 (fun k Hk => Hp k (or_intror Hk))) as (ls & -> & L). exists (a :: ls). split; [reflexivity|].
    intros k [<-|Hk]; [|apply L, Hk]. rewrite Forall_forall in Ha. specialize (Ha 1). apply Ha. apply in_or_app. right. left. reflexivity.
Qed.
Lemma pairs_app l1 l2 m : pairs (l1 ++ l2) m = pairs l1 m ++ pairs l2 m.
Proof. unfold pairs. apply flat_map_app. Qed.
Lemma pairs_level1 levels m t : hierarchy levels -> t < m ->
  let n := length (pairs levels m) in
  m <= n /\ n - m + t < n /\ nth (n - m + t) (pairs levels m) (0, 0) = (1, t).
Proof.
  intros H Ht n. destruct (hierarchy_last levels H) as (ls & -> & _). unfold n. rewrite pairs_app.
  assert (E : pairs [1] m = map (pair 1) (seq 0 m)).
  { unfold pairs. cbn [flat_map]. rewrite app_nil_r. unfold freq. rewrite Nat.div_1_r. reflexivity. }
  rewrite E, app_length, map_length, seq_length. split; [lia|]. split; [lia|].
  rewrite app_nth2 by lia. replace (length (pairs ls m) + m - m + t - length (pairs ls m)) with t by lia.
  rewrite (nth_indep _ (0, 0) (pair 1 0)) by (rewrite map_length, seq_length; exact Ht). rewrite map_nth, seq_nth by exact Ht. reflexivity.
Qed.

(** ** the reconciliation matrix *)
Section Recon.
Variable n m : nat.
Variable S T X : mat.
Hypothesis HX : forall i r, i < m -> r < n ->
  (sumn m (fun a => sumn n (fun q => T i q * S q a) * X a r) == T i r)%Q.
Definition coef (y : nat -> Q) (a : nat) : Q := sumn n (fun r => X a r * y r)%Q.
Lemma normal_eq y i : i < m ->
  (sumn m (fun a => sumn n (fun q => T i q * S q a) * coef y a) == sumn n (fun r => T i r * y r))%Q.
Proof.
  intros Hi. unfold coef.
  rewrite (sumn_ext m _ (fun a => sumn n (fun r => sumn n (fun q => T i q * S q a) * X a r * y r))%Q).
  2: { intros a _. rewrite <- sumn_scale. apply sumn_ext. intros. ring. }
  rewrite sumn_swap. apply sumn_ext. intros r Hr. rewrite sumn_scale_r, HX by assumption. reflexivity.
Qed.
Lemma apply_assoc y i : (sumn n (fun r => sumn m (fun a => S i a * X a r) * y r) == sumn m (fun a => S i a * coef y a))%Q.
Proof.
  unfold coef. rewrite (sumn_ext n _ (fun r => sumn m (fun a => S i a * X a r * y r))%Q).
  2: { intros. rewrite sumn_scale_r. reflexivity. }
  rewrite sumn_swap. apply sumn_ext. intros a _. rewrite <- sumn_scale. apply sumn_ext. intros. ring.
Qed.
End Recon.

(** coherent base forecasts are a fixed point *)
Lemma coef_fixed n m S T X y b :
  (forall i r, i < m -> r < n -> (sumn m (fun a => sumn n (fun q => T i q * S q a) * X a r) == T i r)%Q) ->
  (forall x, (forall i, i < m -> (sumn m (fun k => sumn n (fun q => T i q * S q k) * x k) == 0)%Q) -> forall k, k < m -> (x k == 0)%Q) ->
  (forall r, r < n -> (y r == sumn m (fun a => S r a * b a))%Q) ->
  forall a, a < m -> (coef n X y a == b a)%Q.
Proof.
  intros HX HI Hy a Ha.
  assert (Z : (coef n X y a - b a == 0)%Q).
  { apply (HI (fun a => coef n X y a - b a)%Q); [|exact Ha]. intros i Hi.
    rewrite (sumn_ext m _ (fun k => sumn n (fun q => T i q * S q k) * coef n X y k + sumn n (fun q => T i q * S q k) * (- b k))%Q) by (intros; ring).
    rewrite sumn_plus, (normal_eq n m S T X HX y i Hi).
    rewrite (sumn_ext n _ (fun r => sumn m (fun k => T i r * S r k * b k))%Q).
    2: { intros r Hr. rewrite Hy by exact Hr. rewrite <- sumn_scale. apply sumn_ext. intros. ring. }
    rewrite sumn_swap, <- sumn_plus. apply sumn_zero. intros k Hk. rewrite sumn_scale_r. ring. }
  lra.
Qed.

(** ** weighted least squares *)
Lemma sumn_nonneg n f : (forall i, (i < n)%nat -> 0 <= f i)%Q -> (0 <= sumn n f)%Q.
Proof.
  induction n as [|n IH]; intros H; cbn [sumn]; [lra|].
  assert (0 <= f n)%Q by (apply H; lia). assert (0 <= sumn n f)%Q by (apply IH; intros; apply H; lia). lra.
Qed.
Lemma sumn_zero_inv n f : (forall i, (i < n)%nat -> 0 <= f i)%Q -> (sumn n f == 0)%Q -> forall i, i < n -> (f i == 0)%Q.
Proof.
  induction n as [|n IH]; intros H E i Hi; [lia|]. cbn [sumn] in E.
  assert (0 <= f n)%Q by (apply H; lia). assert (0 <= sumn n f)%Q by (apply sumn_nonneg; intros; apply H; lia).
  destruct (Nat.eq_dec i n) as [->|Ne]; [lra|]. apply IH; [intros; apply H; lia|lra|lia].
Qed.
Lemma sq_nonneg' (x : Q) : (0 <= x * x)%Q.
Proof. nra. Qed.
Lemma sq_zero' (x : Q) : (x * x == 0)%Q -> (x == 0)%Q.
Proof. intros H. apply Qmult_integral in H as [H|H]; exact H. Qed.
Lemma normal_injective n m (S : mat) (w : nat -> Q) x : (forall r, r < n -> (0 < w r)%Q) ->
  (forall i, i < m -> (sumn m (fun k => sumn n (fun q => S q i / w q * S q k) * x k) == 0)%Q) ->
  forall r, r < n -> (sumn m (fun k => S r k * x k) == 0)%Q.
Proof.
  intros Hw H. set (v := fun r => sumn m (fun k => S r k * x k)%Q).
  assert (E : (sumn n (fun q => v q * v q / w q) == 0)%Q).
  { assert (E1 : (sumn m (fun i => x i * sumn m (fun k => sumn n (fun q => S q i / w q * S q k) * x k)) == 0)%Q)
      by (apply sumn_zero; intros i Hi; rewrite (H i Hi); ring).
    rewrite <- E1. clear E1 H.
    rewrite (sumn_ext m _ (fun i => sumn n (fun q => x i * S q i / w q * v q))%Q).
    - rewrite sumn_swap. apply sumn_ext. intros q Hq. specialize (Hw q Hq).
      rewrite (sumn_ext m _ (fun i => (S q i * x i) * (v q / w q))%Q) by (intros; field; lra).
      rewrite sumn_scale_r. fold (v q). field. lra.
    - intros i _. rewrite (sumn_ext m _ (fun k => sumn n (fun q => S q i / w q * S q k * x k))%Q) by (intros; rewrite sumn_scale_r; reflexivity).
      rewrite sumn_swap, <- sumn_scale. apply sumn_ext. intros q Hq. unfold v.
      rewrite (sumn_ext m _ (fun k => (S q i / w q) * (S q k * x k))%Q) by (intros; ring).
      rewrite sumn_scale. unfold Qdiv. ring. }
  intros r Hr. fold (v r). specialize (Hw) as Hw'.
  assert (Z : (v r * v r / w r == 0)%Q).
  { apply (sumn_zero_inv n (fun q => v q * v q / w q)%Q); [|exact E|exact Hr].
    intros i Hi. specialize (Hw i Hi). apply Qle_shift_div_l; [exact Hw|]. rewrite Qmult_0_l. apply sq_nonneg'. }
  specialize (Hw r Hr). apply sq_zero'. rewrite <- (Qmult_div_r (v r * v r) (w r)) by lra. rewrite Z. ring.
Qed.
Lemma least_squares n m (S : mat) (w : nat -> Q) (y z b : nat -> Q) : (forall r, r < n -> (0 < w r)%Q) ->
  (forall i, i < m -> (sumn m (fun a => sumn n (fun q => S q i / w q * S q a) * z a) == sumn n (fun r => S r i / w r * y r))%Q) ->
  let fit := fun (c : nat -> Q) r => sumn m (fun a => S r a * c a)%Q in
  let dist := fun c => sumn n (fun r => (y r - fit c r) * (y r - fit c r) / w r)%Q in
  (dist z <= dist b)%Q.
Proof.
  intros Hw Hz fit dist. set (d := fun a => (z a - b a)%Q).
  assert (Efit : forall r, (fit z r - fit b r == fit d r)%Q).
  { intros r. unfold fit, d. rewrite (sumn_ext m (fun a => S r a * (z a - b a))%Q (fun a => S r a * z a + S r a * (- b a))%Q) by (intros; ring).
    rewrite sumn_plus. rewrite (sumn_ext m (fun a => S r a * - b a)%Q (fun a => (-(1)) * (S r a * b a))%Q) by (intros; ring).
    rewrite sumn_scale. ring. }
  assert (Orth : (sumn n (fun r => (y r - fit z r) * fit d r / w r) == 0)%Q).
  { rewrite (sumn_ext n _ (fun r => sumn m (fun i => d i * (S r i / w r * (y r - fit z r))))%Q).
    2: { intros r Hr. specialize (Hw r Hr). unfold fit at 2.
         rewrite (sumn_ext m (fun i => d i * (S r i / w r * (y r - fit z r)))%Q (fun i => (S r i * d i) * ((y r - fit z r) / w r))%Q) by (intros; field; lra).
         rewrite sumn_scale_r. field. lra. }
    rewrite sumn_swap. apply sumn_zero. intros i Hi. rewrite sumn_scale.
    rewrite (sumn_ext n _ (fun r => S r i / w r * y r + (-(1)) * sumn m (fun a => S r i / w r * S r a * z a))%Q).
    2: { intros r Hr. unfold fit. rewrite (sumn_ext m (fun a => S r i / w r * S r a * z a)%Q (fun a => (S r i / w r) * (S r a * z a))%Q) by (intros; ring).
         rewrite sumn_scale. ring. }
    rewrite sumn_plus, sumn_scale, sumn_swap.
    rewrite (sumn_ext m (fun j => sumn n (fun i0 => S i0 i / w i0 * S i0 j * z j)%Q) (fun a => sumn n (fun q => S q i / w q * S q a) * z a)%Q)
      by (intros; rewrite sumn_scale_r; reflexivity).
    rewrite (Hz i Hi). ring. }
  assert (E : (dist b == dist z + sumn n (fun r => fit d r * fit d r / w r))%Q).
  { unfold dist. rewrite (sumn_ext n _ (fun r => ((y r - fit z r) * (y r - fit z r) / w r + 2 * ((y r - fit z r) * fit d r / w r)) + fit d r * fit d r / w r)%Q).
    - rewrite !sumn_plus, sumn_scale, Orth. ring.
    - intros r Hr. specialize (Hw r Hr). rewrite <- (Efit r). field. lra. }
  rewrite E. assert (0 <= sumn n (fun r => fit d r * fit d r / w r))%Q.
  { apply sumn_nonneg. intros i Hi. specialize (Hw i Hi). apply Qle_shift_div_l; [exact Hw|]. rewrite Qmult_0_l. apply sq_nonneg'. }
  lra.
Qed.
