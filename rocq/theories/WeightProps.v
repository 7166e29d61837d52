(** C290: the probability of a run of rejections of correlated tests, for every finitely additive probability. *)
From Coq Require Import Reals Lra.
From Coq Require Import List ZArith Bool Lia.
From Verif Require Import WeightModel.
Import ListNotations.
Open Scope R_scope.

(** ** Specification *)
Record probability {O : Type} (P : (O -> bool) -> R) : Prop := {
  p_ext : forall A B, (forall o, A o = B o) -> P A = P B;
  p_nonneg : forall A, 0 <= P A;
  p_one : P (fun _ => true) = 1;
  p_add : forall A B, (forall o, A o && B o = false) -> P (fun o => A o || B o) = P A + P B }.
Definition ltb (x y : R) : bool := if Rlt_dec x y then true else false.
Definition leb (x y : R) : bool := if Rle_dec x y then true else false.
(** whether a test with this statistic rejects *)
Definition rejects (t : test_type) (z x : R) : bool :=
  match t with Upper => ltb z x | Lower => ltb x (- z) | TwoSided => ltb z x || ltb x (- z) end.
(** the first j tests reject *)
Definition run {O} (t : test_type) (z : R) (X : nat -> O -> R) (j : nat) (o : O) : bool := forallb (fun i => rejects t z (X i o)) (seq 0 j).
(** the first j tests reject and the next one does not *)
Definition run_then_not {O} (t : test_type) (z : R) (X : nat -> O -> R) (j : nat) (o : O) : bool := run t z X j o && negb (rejects t z (X j o)).
Definition within (b : ext * ext) (x : R) : bool :=
  (match fst b with NegInf => true | Fin r => leb r x | PosInf => false end) &&
  (match snd b with NegInf => false | Fin r => leb x r | PosInf => true end).
(** the conditions hold of x 0, x 1, ... in turn *)
Fixpoint holds (l : list (R -> bool)) (x : nat -> R) : bool :=
  match l with [] => true | f :: l => f (x 0%nat) && holds l (fun i => x (S i)) end.
(** the integral is the probability that the statistics lie between the bounds *)
Definition integral_of {O} (P : (O -> bool) -> R) (X : nat -> O -> R) (m : nat) (mvn : nat -> list ext -> list ext -> R) : Prop :=
  forall k lo up, length lo = length up -> (k + length lo <= m)%nat ->
    mvn k lo up = P (fun o => holds (map within (combine lo up)) (fun i => X (k + i)%nat o)).
(** the joint distribution of neighbouring statistics is the same everywhere *)
Definition stationary {O} (P : (O -> bool) -> R) (X : nat -> O -> R) (m : nat) : Prop :=
  forall k l, (k + length l <= m)%nat -> P (fun o => holds l (fun i => X (k + i)%nat o)) = P (fun o => holds l (fun i => X i o)).
(** no statistic is at a critical value *)
Definition no_ties {O} (P : (O -> bool) -> R) (X : nat -> O -> R) (m : nat) (z : R) : Prop :=
  forall i, (i < m)%nat -> P (fun o => if Req_EM_T (X i o) z then true else false) = 0 /\ P (fun o => if Req_EM_T (X i o) (- z) then true else false) = 0.
Fixpoint total (l : list R) : R := match l with [] => 0 | x :: l => x + total l end.

(** ** Probability *)
Lemma p_split {O} (P : (O -> bool) -> R) : probability P -> forall A B, P A = P (fun o => A o && B o) + P (fun o => A o && negb (B o)).
Proof.
  intros H A B. rewrite <- (p_add P H) by (intros o; destruct (A o), (B o); reflexivity). apply (p_ext P H). intros o. destruct (A o), (B o); reflexivity.
Qed.
Lemma p_mono {O} (P : (O -> bool) -> R) : probability P -> forall A B, (forall o, A o = true -> B o = true) -> P A <= P B.
Proof.
  intros H A B S. rewrite (p_split P H B A). rewrite (p_ext P H (fun o => B o && A o) A) by (intros o; specialize (S o); destruct (A o), (B o); try reflexivity; discriminate (S eq_refl)).
  pose proof (p_nonneg P H (fun o => B o && negb (A o))). lra.
Qed.
Lemma p_null_or {O} (P : (O -> bool) -> R) : probability P -> forall A B, P A = 0 -> P B = 0 -> P (fun o => A o || B o) = 0.
Proof.
  intros H A B EA EB. rewrite (p_ext P H _ (fun o => A o || (B o && negb (A o)))) by (intros o; destruct (A o), (B o); reflexivity).
  rewrite (p_add P H) by (intros o; destruct (A o), (B o); reflexivity). rewrite EA.
  assert (P (fun o => B o && negb (A o)) <= P B) as L by (apply p_mono; [exact H|intros o; destruct (B o); intros E; [reflexivity|discriminate E]]).
  pose proof (p_nonneg P H (fun o => B o && negb (A o))). lra.
Qed.
Lemma p_null_exists {O} (P : (O -> bool) -> R) : probability P -> forall (T : nat -> O -> bool) l, (forall i, In i l -> P (T i) = 0) -> P (fun o => existsb (fun i => T i o) l) = 0.
Proof.
  intros H T l. induction l as [|i l IH]; intros A.
  - cbn. pose proof (p_split P H (fun _ => true) (fun _ => true)) as S. cbn in S. lra.
  - cbn. apply p_null_or; [exact H|apply A; left; reflexivity|apply IH; intros j Hj; apply A; right; exact Hj].
Qed.
Lemma p_almost {O} (P : (O -> bool) -> R) : probability P -> forall A B N, P N = 0 -> (forall o, N o = false -> A o = B o) -> P A = P B.
Proof.
  intros H A B N Z E. rewrite (p_split P H A N), (p_split P H B N).
  assert (forall C, P (fun o => C o && N o) = 0) as Q.
  { intros C. assert (P (fun o => C o && N o) <= P N) by (apply p_mono; [exact H|intros o; destruct (C o); intros F; [exact F|discriminate F]]). pose proof (p_nonneg P H (fun o => C o && N o)). lra. }
  rewrite !Q. f_equal. apply (p_ext P H). intros o. specialize (E o). destruct (N o); [rewrite !andb_false_r; reflexivity|]. rewrite E; reflexivity.
Qed.
Lemma holds_app l1 l2 x : holds (l1 ++ l2) x = holds l1 x && holds l2 (fun i => x (length l1 + i)%nat).
Proof. revert x. induction l1 as [|f l IH]; intros x; [reflexivity|]. cbn. rewrite IH, andb_assoc. reflexivity. Qed.
(** conditions that agree except at the critical values *)
Definition alike (z : R) (f g : R -> bool) : Prop := forall x, x <> z -> x <> - z -> f x = g x.
Lemma holds_alike z l l' x : Forall2 (alike z) l l' -> (forall i, (i < length l)%nat -> x i <> z /\ x i <> - z) -> holds l x = holds l' x.
Proof.
  intros F. revert x. induction F as [|f g l l' A F IH]; intros x N; [reflexivity|]. cbn.
  destruct (N 0%nat ltac:(cbn; lia)) as [N1 N2]. rewrite (A _ N1 N2). f_equal. apply IH. intros i Hi. apply (N (S i)). cbn. lia.
Qed.
Lemma p_alike {O} (P : (O -> bool) -> R) X m z l l' : probability P -> no_ties P X m z -> Forall2 (alike z) l l' -> (length l <= m)%nat ->
  P (fun o => holds l (fun i => X i o)) = P (fun o => holds l' (fun i => X i o)).
Proof.
  intros H T F L.
  set (tie := fun i o => (if Req_EM_T (X i o) z then true else false) || (if Req_EM_T (X i o) (- z) then true else false)).
  apply (p_almost P H _ _ (fun o => existsb (fun i => tie i o) (seq 0 (length l)))).
  - apply (p_null_exists P H tie). intros i Hi. apply in_seq in Hi. destruct (T i ltac:(lia)) as [A B]. apply p_null_or; assumption.
  - intros o N. apply (holds_alike z); [exact F|]. intros i Hi.
    assert (tie i o = false) as E.
    { destruct (tie i o) eqn:E; [|reflexivity]. rewrite <- N. symmetry. apply existsb_exists. exists i. split; [apply in_seq; lia|exact E]. }
    unfold tie in E. destruct (Req_EM_T (X i o) z), (Req_EM_T (X i o) (- z)); try discriminate E. split; assumption.
Qed.
Lemma holds_repeat f n x : holds (repeat f n) x = forallb (fun i => f (x i)) (seq 0 n).
Proof.
  revert x. induction n as [|n IH]; intros x; [reflexivity|]. cbn [repeat holds seq forallb]. rewrite IH, <- seq_shift. f_equal.
  clear. induction (seq 0 n) as [|a l IH]; [reflexivity|]. cbn. rewrite IH. reflexivity.
Qed.
Definition not_rejects t z x := negb (rejects t z x).
Lemma holds_run {O} t z (X : nat -> O -> R) j o : holds (repeat (rejects t z) j) (fun i => X i o) = run t z X j o.
Proof. apply holds_repeat. Qed.
Lemma holds_run_not {O} t z (X : nat -> O -> R) j o : holds (repeat (rejects t z) j ++ [not_rejects t z]) (fun i => X i o) = run_then_not t z X j o.
Proof. rewrite holds_app, holds_run, repeat_length. cbn. rewrite Nat.add_0_r, andb_true_r. reflexivity. Qed.
Lemma forall2_repeat {A B} (Q : A -> B -> Prop) a b n : Q a b -> Forall2 Q (repeat a n) (repeat b n).
Proof. intros H. induction n as [|n IH]; [constructor|]. cbn. constructor; assumption. Qed.

(** ** Lists *)
Lemma skipn_but_last {A} m k (a b : A) : (k < m)%nat -> skipn k (but_last m a b) = repeat a (m - 1 - k) ++ [b].
Proof.
  intros H. unfold but_last. rewrite skipn_app, repeat_length. replace (k - (m - 1))%nat with 0%nat by lia. cbn [skipn]. f_equal.
  replace (m - 1)%nat with (k + (m - 1 - k))%nat at 1 by lia. rewrite repeat_app, skipn_app, repeat_length, Nat.sub_diag. rewrite skipn_all2 by (rewrite repeat_length; lia). reflexivity.
Qed.
Lemma down_length m : length (down m) = m.
Proof. unfold down. rewrite rev_length, seq_length. reflexivity. Qed.
Lemma down_nth m j d : (j < m)%nat -> nth j (down m) d = (m - 1 - j)%nat.
Proof. intros H. unfold down. rewrite rev_nth by (rewrite seq_length; exact H). rewrite seq_length, seq_nth by lia. lia. Qed.
Lemma combine_app_eq {A B} (a a' : list A) (b b' : list B) : length a = length b -> combine (a ++ a') (b ++ b') = combine a b ++ combine a' b'.
Proof. revert b. induction a as [|x a IH]; intros [|y b] L; try discriminate; [reflexivity|]. cbn. f_equal. apply IH. injection L; auto. Qed.
Lemma combine_repeat {A B} (a : A) (b : B) n : combine (repeat a n) (repeat b n) = repeat (a, b) n.
Proof. induction n as [|n IH]; [reflexivity|]. cbn. f_equal. exact IH. Qed.
Lemma map_repeat_eq {A B} (f : A -> B) a n : map f (repeat a n) = repeat (f a) n.
Proof. induction n as [|n IH]; [reflexivity|]. cbn. f_equal. exact IH. Qed.
Lemma map_nth_lt {A B} (f : A -> B) l j d d' : (j < length l)%nat -> nth j (map f l) d = f (nth j l d').
Proof. intros H. rewrite (nth_indep _ d (f d')) by (rewrite map_length; exact H). apply map_nth. Qed.
Lemma rsum_total l : rsum l = total l.
Proof.
  unfold rsum. assert (forall l a, fold_left Rplus l a = a + total l) as G; [|rewrite G; lra].
  clear l. induction l as [|x l IH]; intros a; cbn; [lra|]. rewrite IH. lra.
Qed.
Lemma total_app a b : total (a ++ b) = total a + total b.
Proof. induction a as [|x a IH]; cbn; [lra|]. rewrite IH. lra. Qed.

(** ** One-sided tests *)
Lemma box_one {O} (P : (O -> bool) -> R) X m mvn z t a b c d j k :
  probability P -> integral_of P X m mvn -> stationary P X m -> no_ties P X m z -> (k + j < m)%nat ->
  alike z (within (a, b)) (rejects t z) -> alike z (within (c, d)) (not_rejects t z) ->
  mvn k (repeat a j ++ [c]) (repeat b j ++ [d]) = P (run_then_not t z X j).
Proof.
  intros H I S T L A1 A2. rewrite I by (rewrite ?app_length, ?repeat_length; cbn; lia).
  rewrite combine_app_eq, combine_repeat, map_app, map_repeat_eq by (rewrite !repeat_length; reflexivity). cbn [combine map].
  rewrite S by (rewrite app_length, repeat_length; cbn; lia).
  rewrite (p_alike P X m z _ (repeat (rejects t z) j ++ [not_rejects t z]) H T).
  - apply (p_ext P H). intros o. apply holds_run_not.
  - apply Forall2_app; [apply forall2_repeat; exact A1|constructor; [exact A2|constructor]].
  - rewrite app_length, repeat_length. cbn. lia.
Qed.
Lemma box_all {O} (P : (O -> bool) -> R) X m mvn z t a b :
  probability P -> integral_of P X m mvn -> no_ties P X m z -> alike z (within (a, b)) (rejects t z) ->
  mvn 0%nat (repeat a m) (repeat b m) = P (run t z X m).
Proof.
  intros H I T A. rewrite I by (rewrite ?repeat_length; cbn; lia). rewrite combine_repeat, map_repeat_eq. cbn [Nat.add].
  rewrite (p_alike P X m z _ (repeat (rejects t z) m) H T); [apply (p_ext P H); intros o; apply holds_run|apply forall2_repeat; exact A|rewrite repeat_length; lia].
Qed.
Ltac regions := unfold within, rejects, not_rejects, rejects, ltb, leb; intros x N1 N2; cbn; repeat match goal with |- context [Rle_dec ?a ?b] => destruct (Rle_dec a b) | |- context [Rlt_dec ?a ?b] => destruct (Rlt_dec a b) end; cbn; try reflexivity; exfalso; lra.
Definition exact_weights {O} (P : (O -> bool) -> R) X m z t (w : list R) : Prop :=
  length w = S m /\ (forall j, (j < m)%nat -> nth j w 0 = P (run_then_not t z X j)) /\ nth m w 0 = P (run t z X m).
Lemma weights_of {O} (P : (O -> bool) -> R) X m z t (f : nat -> R) (v : R) :
  (forall j, (j < m)%nat -> f (m - 1 - j)%nat = P (run_then_not t z X j)) -> v = P (run t z X m) -> exact_weights P X m z t (map f (down m) ++ [v]).
Proof.
  intros A B. unfold exact_weights. rewrite app_length, map_length, down_length. split; [cbn; lia|]. split.
  - intros j Hj. rewrite app_nth1 by (rewrite map_length, down_length; exact Hj). rewrite (map_nth_lt f (down m) j 0 0%nat) by (rewrite down_length; exact Hj). rewrite down_nth by exact Hj. apply A, Hj.
  - rewrite app_nth2, map_length, down_length, Nat.sub_diag by (rewrite map_length, down_length; lia). exact B.
Qed.
Lemma one_tailed_exact {O} (P : (O -> bool) -> R) X m mvn z t : probability P -> integral_of P X m mvn -> stationary P X m -> no_ties P X m z -> t <> TwoSided ->
  exists w, w_one_tailed mvn m z t = Some w /\ exact_weights P X m z t w.
Proof.
  intros H I S T NT. destruct t; [| |congruence]; cbn [w_one_tailed]; eexists; (split; [reflexivity|]); apply weights_of.
  1, 3: intros j Hj; rewrite !skipn_but_last by lia; replace (m - 1 - (m - 1 - j))%nat with j by lia; apply (box_one P X m); try assumption; try lia; regions.
  1, 2: apply box_all; try assumption; regions.
Qed.
(** ** Two-sided tests *)
Lemma product_length n r : In r (product n) -> length r = n.
Proof.
  revert r. induction n as [|n IH]; intros r Hr; cbn in Hr; [destruct Hr as [<-|[]]; reflexivity|]. rewrite app_nil_r in Hr.
  apply in_app_or in Hr as [Hr|Hr]; apply in_map_iff in Hr as (q & <- & Hq); cbn; f_equal; apply IH, Hq.
Qed.
Lemma product_sum {O} (P : (O -> bool) -> R) (X : nat -> O -> R) (reg : bool -> R -> bool) : probability P -> (forall x, reg true x && reg false x = false) ->
  forall n pre tail, total (map (fun r => P (fun o => holds (pre ++ map reg r ++ tail) (fun i => X i o))) (product n)) =
    P (fun o => holds (pre ++ repeat (fun x => reg true x || reg false x) n ++ tail) (fun i => X i o)).
Proof.
  intros H D. induction n as [|n IH]; intros pre tail; [cbn; lra|]. cbn [product flat_map]. rewrite app_nil_r, map_app, total_app, !map_map. cbn [map repeat].
  assert (forall c, total (map (fun r => P (fun o => holds (pre ++ (reg c :: map reg r) ++ tail) (fun i => X i o))) (product n)) =
    P (fun o => holds ((pre ++ [reg c]) ++ repeat (fun x => reg true x || reg false x) n ++ tail) (fun i => X i o))) as G.
  { intros c. rewrite <- IH. f_equal. apply map_ext. intros r. apply (p_ext P H). intros o. rewrite <- app_assoc. reflexivity. }
  rewrite !G. rewrite <- (p_add P H).
  - apply (p_ext P H). intros o. rewrite <- !app_assoc. rewrite !(holds_app pre). cbn. destruct (holds pre _), (reg true _), (reg false _); cbn; rewrite ?orb_false_r, ?orb_diag; reflexivity.
  - intros o. rewrite <- !app_assoc. rewrite !(holds_app pre). cbn. specialize (D (X (length pre + 0)%nat o)). destruct (holds pre _), (reg true _), (reg false _); try discriminate D; cbn; rewrite ?andb_false_r; reflexivity.
Qed.
Definition side (z : R) (c : bool) : R -> bool := within (if c then NegInf else Fin z, if c then Fin (- z) else PosInf).
Lemma box_two {O} (P : (O -> bool) -> R) X m mvn z n k (lo up : list ext) :
  probability P -> integral_of P X m mvn -> stationary P X m -> 0 < z -> length lo = length up -> (k + n + length lo <= m)%nat ->
  rsum (map (fun regions => mvn k (map (fun r : bool => if r then NegInf else Fin z) regions ++ lo) (map (fun r : bool => if r then Fin (- z) else PosInf) regions ++ up)) (product n)) =
  P (fun o => holds (repeat (fun x => side z true x || side z false x) n ++ map within (combine lo up)) (fun i => X i o)).
Proof.
  intros H I S Z L K. rewrite rsum_total.
  etransitivity; [|apply (product_sum P X (side z) H) with (pre := [])].
  - f_equal. apply map_ext_in. intros r Hr. pose proof (product_length _ _ Hr) as Lr.
    rewrite I by (rewrite !app_length, !map_length; lia). rewrite S.
    + apply (p_ext P H). intros o. cbn [app]. rewrite combine_app_eq, map_app by (rewrite !map_length; reflexivity). do 2 f_equal.
      clear. induction r as [|c r IH]; [reflexivity|]. cbn. f_equal. exact IH.
    + rewrite map_length, combine_length, !app_length, !map_length. lia.
  - intros x. unfold side, within, leb. cbn. destruct (Rle_dec x (- z)), (Rle_dec z x); cbn; try reflexivity. lra.
Qed.
Lemma two_tailed_exact {O} (P : (O -> bool) -> R) X m mvn z : probability P -> integral_of P X m mvn -> stationary P X m -> no_ties P X m z -> 0 < z ->
  exact_weights P X m z TwoSided (w_two_tailed mvn m z).
Proof.
  intros H I S T Z. unfold w_two_tailed. apply weights_of.
  - intros j Hj. replace (m - 1 - (m - 1 - j))%nat with j by lia.
    rewrite (box_two P X m mvn z j (m - 1 - j) [Fin (- z)] [Fin z] H I S Z eq_refl) by (cbn; lia). cbn [combine map].
    rewrite (p_alike P X m z _ (repeat (rejects TwoSided z) j ++ [not_rejects TwoSided z]) H T).
    + apply (p_ext P H). intros o. apply holds_run_not.
    + apply Forall2_app; [apply forall2_repeat; unfold side; regions|constructor; [regions|constructor]].
    + rewrite app_length, repeat_length. cbn. lia.
  - pose proof (box_two P X m mvn z m 0 [] [] H I S Z eq_refl ltac:(cbn; lia)) as B. cbn [combine map] in B. rewrite app_nil_r in B.
    rewrite (p_alike P X m z _ (repeat (rejects TwoSided z) m) H T) in B.
    + etransitivity; [|etransitivity; [exact B|apply (p_ext P H); intros o; apply holds_run]]. f_equal. apply map_ext. intros r. rewrite !app_nil_r. reflexivity.
    + apply forall2_repeat. unfold side. regions.
    + rewrite repeat_length. lia.
Qed.
Lemma exact_total {O} (P : (O -> bool) -> R) X m z t w : probability P -> exact_weights P X m z t w -> total w = 1.
Proof.
  intros H (L & A & B).
  assert (forall j, (j <= m)%nat -> total (firstn j w) + P (run t z X j) = 1) as G.
  { induction j as [|j IH]; intros Hj; [cbn; rewrite Rplus_0_l; apply (p_one P H)|]. specialize (IH ltac:(lia)).
    assert (firstn (S j) w = firstn j w ++ [nth j w 0]) as ->.
    { clear -L Hj. revert j Hj. revert m L. induction w as [|x w IH]; intros m L j Hj; [discriminate|]. destruct j as [|j]; [reflexivity|]. cbn [firstn nth app]. f_equal. destruct m as [|m]; [lia|]. apply (IH m); [injection L; auto|lia]. }
    rewrite total_app. cbn [total]. rewrite A by lia. rewrite (p_split P H (run t z X j) (fun o => rejects t z (X j o))) in IH.
    rewrite (p_ext P H (run t z X (S j)) (fun o => run t z X j o && rejects t z (X j o))); [unfold run_then_not; lra|].
    intros o. unfold run. rewrite seq_S, forallb_app. cbn. rewrite andb_true_r. reflexivity. }
  specialize (G m ltac:(lia)). rewrite <- B in G.
  rewrite <- (firstn_all w), L.
  assert (firstn (S m) w = firstn m w ++ [nth m w 0]) as ->.
  { clear -L. revert m L. induction w as [|x w IH]; intros m L; [discriminate|]. destruct m as [|m]; [destruct w; [reflexivity|discriminate]|]. cbn [firstn nth app]. f_equal. apply IH. injection L; auto. }
  rewrite total_app. cbn [total]. lra.
Qed.

(** ** C290 *)
(** C290: when the statistics are stationary, ties have probability 0 and z > 0, weight j is the probability that the first j
    tests reject and the next one does not, the last weight the probability that all m reject; the weights are not negative
    and add up to 1. *)
Theorem C290_weights : forall (O : Type) (P : (O -> bool) -> R) X m mvn p z t,
  probability P -> integral_of P X m mvn -> stationary P X m -> no_ties P X m z -> 0 < z ->
  exists w, weights (Some mvn) m p z t = Some w /\ length w = S m /\
    (forall j, (j < m)%nat -> nth j w 0 = P (fun o => run t z X j o && negb (rejects t z (X j o)))) /\
    nth m w 0 = P (run t z X m) /\ (forall v, In v w -> 0 <= v) /\ total w = 1.
Proof.
  intros O P X m mvn p z t H I S T Z.
  assert (exists w, weights (Some mvn) m p z t = Some w /\ exact_weights P X m z t w) as (w & E & L & A & B).
  { destruct t; cbn [weights]; [apply one_tailed_exact; try assumption; discriminate|apply one_tailed_exact; try assumption; discriminate|].
    eexists. split; [reflexivity|]. apply two_tailed_exact; assumption. }
  exists w. split; [exact E|]. split; [exact L|]. split; [exact A|]. split; [exact B|]. split.
  - intros v Hv. apply In_nth with (d := 0) in Hv as (j & Hj & <-). rewrite L in Hj. destruct (le_lt_dec m j) as [C|C].
    + replace j with m by lia. rewrite B. apply (p_nonneg P H).
    + rewrite A by exact C. apply (p_nonneg P H).
  - apply (exact_total P X m z t w H). split; [exact L|]. split; assumption.
Qed.
(** C290: for independent tests that each reject with probability p, the weights of a covariance are those without one. *)
Definition independent {O} (P : (O -> bool) -> R) (X : nat -> O -> R) (m : nat) : Prop :=
  forall l, (length l <= m)%nat -> P (fun o => holds l (fun i => X i o)) = fold_right Rmult 1 (map (fun i => P (fun o => nth i l (fun _ => true) (X i o))) (seq 0 (length l))).
Lemma product_const l (f : nat -> R) c : (forall i, In i l -> f i = c) -> fold_right Rmult 1 (map f l) = c ^ length l.
Proof. induction l as [|i l IH]; intros A; [reflexivity|]. cbn. rewrite IH, A by (try (left; reflexivity); intros j Hj; apply A; right; exact Hj). reflexivity. Qed.
Lemma product_app a b : fold_right Rmult 1 (a ++ b) = fold_right Rmult 1 a * fold_right Rmult 1 b.
Proof. induction a as [|x a IH]; cbn; [lra|]. rewrite IH. ring. Qed.
Lemma nth_repeat_lt {A} (a d : A) n i : (i < n)%nat -> nth i (repeat a n) d = a.
Proof. revert i. induction n as [|n IH]; intros i Hi; [lia|]. destruct i; [reflexivity|]. cbn. apply IH. lia. Qed.
Theorem C290_independent : forall (O : Type) (P : (O -> bool) -> R) X m mvn p z t,
  probability P -> integral_of P X m mvn -> stationary P X m -> no_ties P X m z -> 0 < z ->
  independent P X m -> (forall i, (i < m)%nat -> P (fun o => rejects t z (X i o)) = p) ->
  weights (Some mvn) m p z t = weights None m p z t.
Proof.
  intros O P X m mvn p z t H I S T Z N E. destruct (C290_weights O P X m mvn p z t H I S T Z) as (w & Ew & L & A & B & _). rewrite Ew. cbn [weights]. f_equal.
  assert (forall j, (j <= m)%nat -> P (run t z X j) = p ^ j) as R.
  { intros j Hj. rewrite (p_ext P H _ _ (fun o => eq_sym (holds_run t z X j o))). rewrite N by (rewrite repeat_length; exact Hj). rewrite repeat_length.
    rewrite (product_const _ _ p), seq_length; [reflexivity|]. intros i Hi. apply in_seq in Hi. rewrite nth_repeat_lt by lia. apply E. lia. }
  assert (length (w_independent m p) = Datatypes.S m) as L' by (unfold w_independent; rewrite map_length, seq_length; reflexivity).
  apply (nth_ext w (w_independent m p) 0 0); [congruence|]. intros j Hj. rewrite L in Hj.
  unfold w_independent. rewrite (map_nth_lt _ _ j 0 0%nat) by (rewrite seq_length; exact Hj). rewrite seq_nth by exact Hj. cbn [Nat.add].
  destruct (Nat.ltb_spec j m) as [C|C].
  - rewrite A by exact C. pose proof (p_split P H (run t z X j) (fun o => rejects t z (X j o))) as Q. rewrite (R j) in Q by lia.
    assert (P (fun o => run t z X j o && rejects t z (X j o)) = p ^ (j + 1)) as Q'.
    { rewrite <- (R (j + 1)%nat) by lia. apply (p_ext P H). intros o. unfold run. rewrite Nat.add_1_r, seq_S, forallb_app. cbn. rewrite andb_true_r. reflexivity. }
    rewrite Q' in Q. rewrite pow_add in Q. lra.
  - replace j with m by lia. rewrite B, R by lia. ring.
Qed.

(** ** The run probability *)
Lemma map_seq_nth {A} (f : nat -> A) n i d : (i < n)%nat -> nth i (map f (seq 0 n)) d = f i.
Proof. intros H. rewrite (map_nth_lt f (seq 0 n) i d 0%nat) by (rewrite seq_length; exact H). rewrite seq_nth by exact H. reflexivity. Qed.
Lemma total_pick (f : nat -> R) n k : (k < n)%nat -> (forall i, (i < n)%nat -> i <> k -> f i = 0) -> total (map f (seq 0 n)) = f k.
Proof.
  intros Hk Z. replace n with (k + S (n - S k))%nat by lia. rewrite seq_app, map_app, total_app. cbn [seq map total].
  assert (forall l, (forall i, In i l -> f i = 0) -> total (map f l) = 0) as Q by (induction l as [|i l IH]; intros A; cbn; [reflexivity|rewrite A, IH by (try (left; reflexivity); intros; apply A; right; assumption); lra]).
  rewrite !Q; [cbn; lra| |]; intros i Hi; apply in_seq in Hi; apply Z; lia.
Qed.
Lemma step_length m w r : length (step m w r) = S m.
Proof. unfold step. rewrite map_length, seq_length. reflexivity. Qed.
Lemma step_first m w r : (0 < m)%nat -> nth 0 (step m w r) 0 = total (map (fun i => nth i r 0 * nth i w 0) (seq 0 (S m))).
Proof.
  intros Hm. unfold step. rewrite map_seq_nth by lia. rewrite rsum_total. f_equal. apply map_ext. intros i. unfold entry.
  replace (0 =? m)%nat with false by (symmetry; apply Nat.eqb_neq; lia). rewrite !andb_false_r. reflexivity.
Qed.
Lemma step_shift m w r j : (0 < j < m)%nat -> nth j (step m w r) 0 = nth (j - 1) r 0.
Proof.
  intros Hj. unfold step. rewrite map_seq_nth by lia. rewrite rsum_total, (total_pick _ (S m) (j - 1)); [|lia|].
  - unfold entry. replace (j =? m)%nat with false by (symmetry; apply Nat.eqb_neq; lia). rewrite !andb_false_r. replace (j =? 0)%nat with false by (symmetry; apply Nat.eqb_neq; lia).
    replace (j =? S (j - 1))%nat with true by (symmetry; apply Nat.eqb_eq; lia). lra.
  - intros i Hi Ni. unfold entry. replace (j =? m)%nat with false by (symmetry; apply Nat.eqb_neq; lia). rewrite !andb_false_r. replace (j =? 0)%nat with false by (symmetry; apply Nat.eqb_neq; lia).
    replace (j =? S i)%nat with false by (symmetry; apply Nat.eqb_neq; lia). lra.
Qed.
Lemma step_last m w r : (0 < m)%nat -> nth m (step m w r) 0 = nth m r 0.
Proof.
  intros Hm. unfold step. rewrite map_seq_nth by lia. rewrite rsum_total, (total_pick _ (S m) m); [|lia|].
  - unfold entry. rewrite Nat.eqb_refl. cbn. lra.
  - intros i Hi Ni. unfold entry. rewrite Nat.eqb_refl, !andb_true_r. replace (i =? m)%nat with false by (symmetry; apply Nat.eqb_neq; lia).
    destruct (Nat.eqb_spec (S i) m); [lra|]. replace (m =? 0)%nat with false by (symmetry; apply Nat.eqb_neq; lia). replace (m =? S i)%nat with false by (symmetry; apply Nat.eqb_neq; lia). lra.
Qed.
Lemma start_nth m i : nth i (start m) 0 = if (i =? m)%nat then 1 else 0.
Proof.
  unfold start. destruct (Nat.eqb_spec i m) as [->|N].
  - rewrite app_nth2, repeat_length, Nat.sub_diag by (rewrite repeat_length; lia). reflexivity.
  - destruct (le_lt_dec m i) as [C|C]; [apply nth_overflow; rewrite app_length, repeat_length; cbn; lia|]. rewrite app_nth1 by (rewrite repeat_length; exact C). apply nth_repeat_lt, C.
Qed.
Lemma total_bounds (a w : nat -> R) l : (forall i, In i l -> 0 <= a i <= 1 /\ 0 <= w i) -> 0 <= total (map (fun i => a i * w i) l) <= total (map w l).
Proof.
  induction l as [|i l IH]; intros A; cbn; [lra|]. destruct (A i (or_introl eq_refl)) as [[A1 A2] A3]. specialize (IH (fun j Hj => A j (or_intror Hj))). nra.
Qed.
Lemma total_by_index w : total w = total (map (fun i => nth i w 0) (seq 0 (length w))).
Proof. induction w as [|x w IH]; [reflexivity|]. cbn [length seq map total nth]. rewrite <- seq_shift, map_map, IH. reflexivity. Qed.
Lemma iter_bounds m w k : (0 < m)%nat -> length w = S m -> (forall v, In v w -> 0 <= v) -> total w = 1 ->
  forall r, r = Nat.iter k (step m w) (start m) -> nth m r 0 = 1 /\ forall i, (i <= m)%nat -> 0 <= nth i r 0 <= 1.
Proof.
  intros Hm L P T. induction k as [|k IH]; intros r ->.
  - change (Nat.iter 0 (step m w) (start m)) with (start m). rewrite !start_nth, Nat.eqb_refl. split; [reflexivity|]. intros i Hi. rewrite start_nth. destruct (i =? m)%nat; lra.
  - change (Nat.iter (S k) (step m w) (start m)) with (step m w (Nat.iter k (step m w) (start m))). set (r := Nat.iter k (step m w) (start m)) in *.
    destruct (IH r eq_refl) as [A B]. rewrite step_last by exact Hm. split; [exact A|]. intros i Hi. destruct i as [|i].
    + rewrite step_first by exact Hm. rewrite total_by_index, L in T.
      pose proof (total_bounds (fun i => nth i r 0) (fun i => nth i w 0) (seq 0 (S m))) as TB. cbv beta in TB. rewrite T in TB. apply TB.
      intros i Hj. apply in_seq in Hj. split; [apply B; lia|]. apply P, nth_In. lia.
    + destruct (le_lt_dec m (S i)) as [C|C]; [replace (S i) with m by lia; rewrite step_last, A by exact Hm; lra|]. rewrite step_shift by lia. apply B. lia.
Qed.
(** C290: the answer is a probability. *)
Theorem C290_range : forall (O : Type) (P : (O -> bool) -> R) X n m mvn p z t,
  probability P -> integral_of P X m mvn -> stationary P X m -> no_ties P X m z -> 0 < z -> (0 < m <= n)%nat ->
  exists v, run_probability (Some mvn) p z n m t = Some v /\ 0 <= v <= 1.
Proof.
  intros O P X n m mvn p z t H I S T Z Hm. destruct (C290_weights O P X m mvn p z t H I S T Z) as (w & Ew & L & _ & _ & Nn & Tt).
  unfold run_probability. rewrite Ew. destruct (Nat.eqb_spec m 0); [lia|]. destruct (Nat.eqb_spec n 0); [lia|]. destruct (Nat.ltb_spec n m); [lia|].
  eexists. split; [reflexivity|]. destruct (iter_bounds m w (n - m + 1) ltac:(lia) L Nn Tt _ eq_refl) as [_ B]. apply B. lia.
Qed.
(** C290: for exactly m tests it is the probability that all reject. *)
Theorem C290_all : forall (O : Type) (P : (O -> bool) -> R) X m mvn p z t,
  probability P -> integral_of P X m mvn -> stationary P X m -> no_ties P X m z -> 0 < z -> (0 < m)%nat ->
  run_probability (Some mvn) p z m m t = Some (P (run t z X m)).
Proof.
  intros O P X m mvn p z t H I S T Z Hm. destruct (C290_weights O P X m mvn p z t H I S T Z) as (w & Ew & L & _ & B & _).
  unfold run_probability. rewrite Ew. destruct (Nat.eqb_spec m 0); [lia|]. destruct (Nat.ltb_spec m m); [lia|]. rewrite Nat.sub_diag. change (Nat.iter (0 + 1) (step m w) (start m)) with (step m w (start m)).
  f_equal. rewrite step_first by exact Hm. rewrite (total_pick _ (Datatypes.S m) m); [|lia|].
  - rewrite start_nth, Nat.eqb_refl, B. ring.
  - intros i Hi Ni. rewrite start_nth. destruct (Nat.eqb_spec i m); [congruence|]. ring.
Qed.
(** C290: refuted for more tests than the run: a covariance of the m tests says nothing about the others.  For runs of one the
    answer is 1 - (1 - p)^n whatever the correlation, and too large when all tests agree. *)
Theorem C290_correlation_refuted : forall (O : Type) (P : (O -> bool) -> R) X n mvn p z t,
  probability P -> integral_of P X 1 mvn -> stationary P X 1 -> no_ties P X 1 z -> 0 < z -> (2 <= n)%nat ->
  (forall i o, X i o = X 0%nat o) -> p = P (fun o => rejects t z (X 0%nat o)) -> 0 < p < 1 ->
  run_probability (Some mvn) p z n 1 t = Some (1 - (1 - p) ^ n) /\
  P (fun o => existsb (fun i => rejects t z (X i o)) (seq 0 n)) = p /\ p < 1 - (1 - p) ^ n.
Proof.
  intros O P X n mvn p z t H I S T Z Hn Same Ep Rp. destruct (C290_weights O P X 1 mvn p z t H I S T Z) as (w & Ew & L & A & B & _ & Tt).
  assert (nth 1 w 0 = p) as W1.
  { rewrite B, Ep. apply (p_ext P H). intros o. unfold run. cbn. apply andb_true_r. }
  assert (nth 0 w 0 = 1 - p) as W0.
  { rewrite <- Tt. destruct w as [|w0 [|w1 [|w2 w]]]; try discriminate L. cbn in W1 |- *. lra. }
  split; [|split].
  - unfold run_probability. rewrite Ew. cbn [Nat.eqb]. destruct n as [|[|n]]; [lia|lia|]. cbn [Nat.eqb Nat.ltb Nat.leb]. replace (Datatypes.S (Datatypes.S n) - 1 + 1)%nat with (Datatypes.S (Datatypes.S n)) by lia. f_equal.
    clear Hn. generalize (Datatypes.S (Datatypes.S n)). clear n. intros n.
    assert (nth 0 (Nat.iter n (step 1 w) (start 1)) 0 = 1 - (1 - p) ^ n /\ nth 1 (Nat.iter n (step 1 w) (start 1)) 0 = 1) as [G _]; [|exact G].
    induction n as [|n [IH0 IH1]]; [cbn; split; lra|]. change (Nat.iter (Datatypes.S n) (step 1 w) (start 1)) with (step 1 w (Nat.iter n (step 1 w) (start 1))).
    rewrite step_first, step_last by lia. set (r := Nat.iter n (step 1 w) (start 1)) in *. cbn [seq map total]. rewrite IH0, IH1, W0, W1. cbn [pow]. split; ring.
  - rewrite Ep. apply (p_ext P H). intros o. destruct n as [|n]; [lia|]. cbn [seq existsb].
    destruct (rejects t z (X 0%nat o)) eqn:E; [reflexivity|]. cbn [orb]. destruct (existsb _ _) eqn:F; [|reflexivity]. apply existsb_exists in F as (i & _ & F). rewrite Same in F. congruence.
  - destruct n as [|[|n]]; [lia|lia|]. clear -Rp. assert ((1 - p) ^ n <= 1) by (clear -Rp; induction n as [|n IH]; cbn; [lra|]; pose proof (pow_le (1 - p) n ltac:(lra)); nra).
    pose proof (pow_le (1 - p) n ltac:(lra)). cbn [pow]. set (q := (1 - p) ^ n) in *. assert ((1 - p) * q <= 1 - p) by nra. assert ((1-p) * ((1 - p) * q) <= (1 - p) * (1 - p)) by nra. nra.
Qed.

(** ** Two tests decided by a fair coin *)
Definition b2r (b : bool) : R := if b then 1 else 0.
Definition coin (A : bool -> bool) : R := (b2r (A true) + b2r (A false)) / 2.
Lemma coin_probability : probability coin.
Proof.
  constructor; unfold coin.
  - intros A B E. rewrite !E. reflexivity.
  - intros A. destruct (A true), (A false); cbn; lra.
  - cbn. lra.
  - intros A B E. pose proof (E true). pose proof (E false). destruct (A true), (A false), (B true), (B false); try discriminate; cbn; lra.
Qed.
Definition integral {O} (P : (O -> bool) -> R) (X : nat -> O -> R) : nat -> list ext -> list ext -> R :=
  fun k lo up => P (fun o => holds (map within (combine lo up)) (fun i => X (k + i)%nat o)).
Lemma integral_ok {O} (P : (O -> bool) -> R) X m : integral_of P X m (integral P X).
Proof. intros k lo up _ _. reflexivity. Qed.
(** C290: refuted for statistics that are not stationary, here with different variances: weight j is taken from the tests
    before the last, and the weights add up to more than 1. *)
Theorem C290_sum_refuted : exists (X : nat -> bool -> R) (z : R) (w : list R), 0 < z /\ no_ties coin X 2 z /\
  weights (Some (integral coin X)) 2 (1 / 2) z Upper = Some w /\ total w = 3 / 2 /\
  nth 1 w 0 = 1 / 2 /\ (forall o, X 1%nat o <= z).
Proof.
  exists (fun i (o : bool) => if (i =? 0)%nat then (if o then 2 else -2) else (if o then 1 / 2 else -1 / 2)), 1.
  eexists. split; [lra|]. split; [|split; [reflexivity|]].
  - intros i Hi. destruct i as [|[|i]]; [| |lia]; unfold coin; cbn; repeat (destruct (Req_EM_T _ _); [exfalso; lra|]); cbn; lra.
  - unfold integral, coin, within, leb. cbn. repeat match goal with |- context [Rle_dec ?a ?b] => destruct (Rle_dec a b); try (exfalso; lra) end. cbn.
    split; [lra|]. split; [lra|]. intros [|]; lra.
Qed.
Example C290_case : exists (X : nat -> bool -> R) (z : R), 0 < z /\ no_ties coin X 2 z /\ stationary coin X 2 /\
  run_probability (Some (integral coin X)) (1 / 2) z 2 2 Upper = Some (1 / 2).
Proof.
  exists (fun _ (o : bool) => if o then 2 else -2), 1. 
  assert (no_ties coin (fun _ (o : bool) => if o then 2 else -2) 2 1) as T by (intros i Hi; unfold coin; repeat (destruct (Req_EM_T _ _); [exfalso; lra|]); cbn; lra).
  assert (stationary coin (fun _ (o : bool) => if o then 2 else -2) 2) as S by (intros k l _; reflexivity).
  split; [lra|]. split; [exact T|]. split; [exact S|].
  rewrite (C290_all bool coin (fun _ (o : bool) => if o then 2 else -2) 2 _ (1 / 2) 1 Upper coin_probability (integral_ok _ _ _) S T ltac:(lra) ltac:(lia)).
  f_equal. unfold coin, run, rejects, ltb. cbn. destruct (Rlt_dec 1 2); [|exfalso; lra]. destruct (Rlt_dec 1 (-2)); [exfalso; lra|]. cbn. lra.
Qed.

Print Assumptions C290_weights.
Print Assumptions C290_independent.
Print Assumptions C290_range.
Print Assumptions C290_all.
Print Assumptions C290_correlation_refuted.
Print Assumptions C290_sum_refuted.
