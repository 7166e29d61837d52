(** Theorems about the Bollinger band columns (C140). *)
From Coq Require Import Reals List Lia Lra.
From Verif Require Import FeatModel FeatProofs FeatBandModel.
Import ListNotations.
Open Scope R_scope.

(** [m] is the mean and [s] the sample standard deviation of the values [w]. *)
Definition mean_and_sd (w : list R) (m s : R) : Prop :=
  m * INR (length w) = fold_right Rplus 0 w /\ 0 <= s /\
  s * s * (INR (length w) - 1) = fold_right Rplus 0 (map (fun x => (x - m) * (x - m)) w).
Lemma sq_sum_nonneg m : forall w, 0 <= rsum (map (fun x => (x - m) * (x - m)) w).
Proof. induction w as [|x w IH]; cbn; [lra|]. pose proof (Rle_0_sqr (x - m)) as H. unfold Rsqr in H. unfold rsum in IH. lra. Qed.
Lemma stats_window n close i w : (i < length close)%nat -> (2 <= n <= S i)%nat ->
  firstn n (skipn (S i - n) close) = map Some w -> length w = n ->
  exists m s, nth i (rolling rmean n close) None = Some m /\ nth i (rolling rstd n close) None = Some s /\ mean_and_sd w m s.
Proof.
  intros H N E L. destruct w as [|x [|y w]]; [cbn in L; lia|cbn in L; lia|].
  assert (P : 2 <= INR (length (x :: y :: w))).
  { change 2 with (INR 2). apply le_INR. cbn. lia. }
  exists (rsum (x :: y :: w) / INR (length (x :: y :: w))).
  exists (sqrt (rsum (map (fun z => (z - rsum (x :: y :: w) / INR (length (x :: y :: w))) * (z - rsum (x :: y :: w) / INR (length (x :: y :: w)))) (x :: y :: w)) / (INR (length (x :: y :: w)) - 1))).
  split; [apply (rolling_some rmean n close i (x :: y :: w) H ltac:(lia) E)|].
  split; [apply (rolling_some rstd n close i (x :: y :: w) H ltac:(lia) E)|].
  set (W := x :: y :: w) in *. set (K := INR (length W)) in *. set (m := rsum W / K).
  split; [change (rsum W / K * K = rsum W); field; lra|]. split; [apply sqrt_pos|].
  rewrite sqrt_sqrt.
  - change (rsum (map (fun z => (z - m) * (z - m)) W) / (K - 1) * (K - 1) = rsum (map (fun z => (z - m) * (z - m)) W)). field. lra.
  - apply Rmult_le_pos; [apply sq_sum_nonneg|]. left. apply Rinv_0_lt_compat. lra.
Qed.
(** With m and s the mean and standard deviation of the last n values (not all equal): the first column is the width of the
    band from m - 2s to m + 2s relative to m, the second the position of the value within the band, 0 at the lower and 1 at
    the upper end. *)
Theorem C140_bands : forall n close i w c, (i < length close)%nat -> (2 <= n <= S i)%nat ->
  firstn n (skipn (S i - n) close) = map Some w -> length w = n -> nth i close None = Some c ->
  exists m s, mean_and_sd w m s /\
    (m <> 0 -> exists b, nth i (band1 n close) None = Some b /\ b * m = (m + 2 * s) - (m - 2 * s)) /\
    (s <> 0 -> exists b, nth i (band2 n close) None = Some b /\ c = (m - 2 * s) + b * ((m + 2 * s) - (m - 2 * s)) /\
       (0 <= b <= 1 <-> m - 2 * s <= c <= m + 2 * s)) /\
    (s = 0 -> nth i (band2 n close) None = None).
Proof.
  intros n close i w c H N E L C. destruct (stats_window n close i w H N E L) as (m & s & EM & ES & MS).
  assert (LM : length (rolling rmean n close) = length close) by apply rolling_go_length.
  assert (LS : length (rolling rstd n close) = length close) by apply rolling_go_length.
  assert (E4 : nth i (map (option_map (fun s => 4 * s)) (rolling rstd n close)) None = Some (4 * s)).
  { rewrite (nth_indep _ None (option_map (fun s => 4 * s) None)) by (rewrite map_length, LS; exact H). rewrite map_nth, ES. reflexivity. }
  assert (E2 : nth i (band2 n close) None = rdiv (Some (c - m + 2 * s)) (Some (4 * s))).
  { unfold band2. cbv zeta. rewrite (map2_nth rdiv _ _ i None None), E4; [|rewrite ?map2_length, ?LM, ?LS; lia|rewrite map_length, LS; exact H].
    f_equal. rewrite (map2_nth _ _ _ i None None), ES; [|rewrite ?map2_length, ?LM; lia|rewrite LS; exact H].
    rewrite (map2_nth _ _ _ i None None), EM, C; [reflexivity|exact H|rewrite LM; exact H]. }
  exists m, s. split; [exact MS|]. destruct MS as (_ & S0 & _). split; [|split].
  - intros M0. unfold band1. rewrite (map2_nth rdiv _ _ i None None), E4, EM; [|rewrite map_length, LS; exact H|rewrite LM; exact H].
    cbn. destruct (Req_EM_T m 0); [contradiction|]. eexists. split; [reflexivity|]. field. exact M0.
  - intros SN. rewrite E2. cbn. destruct (Req_EM_T (4 * s) 0) as [Z|Z]; [lra|]. eexists. split; [reflexivity|].
    assert (SP : 0 < 4 * s) by lra. split; [field; lra|].
    set (b := (c - m + 2 * s) / (4 * s)). assert (B : b * (4 * s) = c - m + 2 * s) by (unfold b; field; lra).
    split; intros [X Y]; split; nra.
  - intros ->. rewrite E2. cbn. destruct (Req_EM_T (4 * 0) 0) as [Z|Z]; [reflexivity|lra].
Qed.
(** Until the window is full, and where a value in it is missing, both columns are missing. *)
Theorem C140_missing : forall n close i, (i < length close)%nat -> (1 <= n)%nat ->
  ((S i < n)%nat \/ exists j, (S i - n <= j <= i)%nat /\ nth j close None = None) ->
  nth i (band1 n close) None = None /\ nth i (band2 n close) None = None.
Proof.
  intros n close i H N C.
  assert (EM : nth i (rolling rmean n close) None = None) by (apply rolling_none; assumption).
  assert (LM : length (rolling rmean n close) = length close) by apply rolling_go_length.
  assert (LS : length (rolling rstd n close) = length close) by apply rolling_go_length.
  split.
  - unfold band1. rewrite (map2_nth rdiv _ _ i None None), EM; [|rewrite map_length, LS; exact H|rewrite LM; exact H].
    destruct (nth i (map _ _) None); reflexivity.
  - unfold band2. cbv zeta. rewrite (map2_nth rdiv _ _ i None None); [|rewrite ?map2_length, ?LM, ?LS; lia|rewrite map_length, LS; exact H].
    rewrite (map2_nth _ _ _ i None None); [|rewrite ?map2_length, ?LM; lia|rewrite LS; exact H].
    rewrite (map2_nth _ _ _ i None None), EM; [|exact H|rewrite LM; exact H]. destruct (nth i close None); reflexivity.
Qed.
Example C140_case : firstn 3 (skipn (4 - 3) [Some 9; Some 1; Some 2; Some 3]) = map Some [1; 2; 3] /\ exists m s, mean_and_sd [1; 2; 3] m s /\ s <> 0 /\ m <> 0.
Proof.
  split; [reflexivity|]. exists 2, 1. unfold mean_and_sd. cbn. repeat split; try lra.
Qed.

Print Assumptions C140_bands.
Print Assumptions C140_missing.
