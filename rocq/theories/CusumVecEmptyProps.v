(** C272: a window of interest without a point. *)
From Verif Require Import Common PySlice CusumModel CusumDetModel CusumSpec CusumProofs CusumLlrProps CusumDetProps CusumVecProps.
Require Import Reals Lra Qreals.
Open Scope Z_scope.

(** A window that ends before it starts. *)
Definition empty_window (A : args) : Prop :=
  exists a b, a_window A = Some (a, b) /\ 0 <= b <= a.

Lemma empty_slice (l : list Q) a b : 0 <= b <= a -> py_slice l (Some a) (Some b) = [].
Proof.
  intros H. unfold py_slice, norm_idx. destruct (Z.ltb_spec a 0); [lia|]. destruct (Z.ltb_spec b 0); [lia|].
  replace (Z.to_nat _) with 0%nat by lia. reflexivity.
Qed.

Lemma empty_points A d cols start : empty_window A ->
  vec_change_points d cols (a_window A) (a_max_iter A) start = [].
Proof.
  intros (a & b & E & H). unfold vec_change_points. rewrite E. destruct cols as [|c cols]; [reflexivity|].
  cbn [map]. rewrite (empty_slice c a b H). reflexivity.
Qed.

Lemma empty_all A times cols ds : empty_window A -> vec_all_ A times cols ds = Some [].
Proof.
  intros H. induction ds as [|d ds IH]; [reflexivity|]. cbn [vec_all_].
  rewrite (empty_points A d cols None H). exact IH.
Qed.

(** With a window that ends before it starts, [detector_] reports no change for any column,
    while [detector] of the same class raises for the same call. *)
Theorem C272_empty A dirs times cols :
  empty_window A -> cols <> [] ->
  (dirs = DNone \/ exists l, dirs = DList l /\ l <> [] /\ forall s, In s l -> s = NInc \/ s = NDec) ->
  vec_detector_ A dirs times cols = Some (map (fun _ => []) cols) /\
  vec_detector A dirs times cols = None.
Proof.
  intros H NC HD.
  assert (G : forall (l : list (list Q)) o, map (fun i => convert (a_all A) (pick_col i [])) (seq o (length l)) = map (fun _ => []) l).
  { induction l as [|x l IH]; intros o; [reflexivity|]. simpl. f_equal. apply IH. }
  assert (DE : exists d ds, directions_ dirs = Some (d :: ds) /\ directions dirs = Some (d :: ds)).
  { destruct HD as [->|(l & -> & NE & HL)]; [exists Increase, [Decrease]; split; reflexivity|].
    assert (AD : forall l, (forall s, In s l -> s = NInc \/ s = NDec) -> exists ds, all_dirs l = Some ds /\ length ds = length l).
    { clear. induction l as [|s l IH]; intros HL; [exists []; split; reflexivity|].
      destruct (IH (fun q I => HL q (or_intror I))) as (ds & E & L).
      destruct (HL s (or_introl eq_refl)) as [-> | ->]; cbn [all_dirs dir_of]; rewrite E;
        eexists; (split; [reflexivity|]); cbn [length]; rewrite L; reflexivity. }
    destruct (AD l HL) as (ds & E & L). destruct ds as [|d ds]; [destruct l; [congruence|discriminate]|].
    exists d, ds. split; [exact E|]. destruct l as [|s [|s' l]]; [congruence| |].
    - destruct (HL s (or_introl eq_refl)) as [-> | ->]; exact E.
    - destruct s; exact E. }
  destruct DE as (d & ds & E1 & E2). unfold vec_detector_, vec_detector. rewrite E1, E2. split.
  - rewrite (empty_all A times cols _ H). f_equal. apply G.
  - cbn [keys existsb vec_all]. rewrite (empty_points A d cols (a_start A) H).
    destruct cols as [|c cols]; [congruence|]. reflexivity.
Qed.

Example C272_empty_case :
  let A := MkArgs (a_threshold demo_args) (a_max_iter demo_args) (a_std_ratio demo_args) (a_min_abs demo_args)
    None (Some (4, 2)) (a_magnitude demo_args) (a_ratio demo_args) (a_days demo_args) (a_all demo_args) in
  empty_window A /\
  vec_detector_ A DNone [0; 1; 2; 3; 4] [[1; 1; 1; 5; 5]%Q; [5; 5; 1; 1; 1]%Q] = Some [[]; []].
Proof.
  cbv zeta. set (A := MkArgs _ _ _ _ _ _ _ _ _ _).
  assert (H : empty_window A) by (exists 4, 2; split; [reflexivity|lia]).
  split; [exact H|]. apply (proj1 (C272_empty A DNone [0; 1; 2; 3; 4] [[1; 1; 1; 5; 5]%Q; [5; 5; 1; 1; 1]%Q] H ltac:(discriminate) (or_introl eq_refl))).
Qed.

Print Assumptions C272_empty.
