(** Property theorems for the m-run probability and critical value searches
    (kats/detectors/interval_detector.py): C03, C04, C05, C60, C61. *)
From Verif Require Import Common RunProbModel RunProbSpec RunProbProofs RunSearchProofs.
Open Scope Q_scope.

(** C03. The matrix-power routine returns the exact probability of a run; it raises exactly
    for an empty run or a run longer than the sequence. *)
Theorem C03_run_probability_exact p n m :
  (0 < m <= n)%nat ->
  exists v, run_probability p n m = Some v /\ v == true_run_probability p n m.
Proof. intros [H1 H2]. exact (run_probability_correct p n m H1 H2). Qed.

Theorem C03_run_probability_raises p n m :
  run_probability p n m = None <-> (m = 0 \/ n < m)%nat.
Proof. exact (run_probability_error p n m). Qed.

(** The boolean event summed over by the specification is the readable one. *)
Theorem C03_event_meaning m l : (0 < m)%nat -> has_run m l = true <-> has_run_prop m l.
Proof. intros _. exact (has_run_iff m l). Qed.

Example C03_example : exists v, run_probability (1#3) 4 2 = Some v /\ v == 7#27.
Proof. eexists; split; [reflexivity|vm_compute; reflexivity]. Qed.
Example C03_example_spec : true_run_probability (1#3) 4 2 == 7#27.
Proof. vm_compute. reflexivity. Qed.

(** C04. Range, monotonicity and the two bracket bounds. *)
Theorem C04_run_probability_range p n m v :
  0 <= p -> p <= 1 -> run_probability p n m = Some v -> 0 <= v /\ v <= 1.
Proof. exact (rp_range p n m v). Qed.

Theorem C04_monotone_in_p p q n m v w :
  0 <= p -> p <= q -> q <= 1 ->
  run_probability p n m = Some v -> run_probability q n m = Some w -> v <= w.
Proof. exact (rp_mono_p p q n m v w). Qed.

Theorem C04_monotone_in_n p n n' m v w :
  0 <= p -> p <= 1 -> (n <= n')%nat ->
  run_probability p n m = Some v -> run_probability p n' m = Some w -> v <= w.
Proof. exact (rp_mono_n p n n' m v w). Qed.

Theorem C04_antitone_in_m p n m m' v w :
  0 <= p -> p <= 1 -> (m <= m')%nat ->
  run_probability p n m = Some v -> run_probability p n m' = Some w -> w <= v.
Proof. exact (rp_anti_m p n m m' v w). Qed.

Theorem C04_union_bound p n m v :
  0 <= p -> p <= 1 -> run_probability p n m = Some v ->
  v <= inject_Z (Z.of_nat n) * qpow p m.
Proof. exact (rp_union p n m v). Qed.

Theorem C04_block_bound p n m v :
  0 <= p -> p <= 1 -> run_probability p n m = Some v ->
  1 - qpow (1 - qpow p m) (n / m) <= v.
Proof. exact (rp_block p n m v). Qed.

Example C04_example :
  exists v w, run_probability (1#3) 4 2 = Some v /\ run_probability (1#2) 5 2 = Some w /\ v < w.
Proof. do 2 eexists. split; [reflexivity|]. split; [reflexivity|]. vm_compute. reflexivity. Qed.

(** C05. The duration search: a returned duration meets the tolerated target and every smaller
    one misses it; it raises exactly when no duration within the limits meets the target. *)
Theorem C05_lowest_m_sound alpha r_tol n max_iter m v :
  get_lowest_m alpha n r_tol max_iter = Some (m, v) ->
  (0 < m <= n)%nat /\ (m < max_iter)%nat /\ v == true_run_probability alpha n m /\
  true_run_probability alpha n m <= alpha * (1 + r_tol) /\
  (forall k, (0 < k < m)%nat -> alpha * (1 + r_tol) < true_run_probability alpha n k).
Proof. exact (lowest_m_sound alpha r_tol n max_iter m v). Qed.

Theorem C05_lowest_m_raises alpha r_tol n max_iter :
  0 <= alpha -> 0 <= r_tol ->
  get_lowest_m alpha n r_tol max_iter = None <->
  (forall k, (0 < k <= n)%nat -> (k < max_iter)%nat ->
     alpha * (1 + r_tol) < true_run_probability alpha n k).
Proof. exact (lowest_m_none alpha r_tol n max_iter). Qed.

(** The level search: a returned level has a global probability within tolerance, whatever the
    bracket ends were. The bracket ends are correct and ordered, and the search succeeds when
    2^max_iter is large enough for the tolerance. The m-th roots computed in floating point are
    represented by any p_low, p_high satisfying the two inequalities that define them. *)
Theorem C05_lowest_p_sound root lo hi m n goal r_tol max_iter pc pgl :
  (0 < m < n)%nat ->
  get_lowest_p root lo hi m n goal r_tol max_iter = Some (pc, pgl) ->
  lo <= pc <= hi /\ pgl == true_run_probability pc n m /\
  goal * (1 - r_tol) <= pgl <= goal * (1 + r_tol).
Proof. exact (lowest_p_sound root lo hi m n goal r_tol max_iter pc pgl). Qed.

(** Full-length duration: the level is the m-th root of the target, and is exact. *)
Theorem C05_lowest_p_full_length root lo hi m goal r_tol max_iter pc pgl :
  (0 < m)%nat -> qpow root m == goal ->
  get_lowest_p root lo hi m m goal r_tol max_iter = Some (pc, pgl) ->
  pgl == goal /\ true_run_probability pc m m == goal.
Proof. exact (lowest_p_full root lo hi m goal r_tol max_iter pc pgl). Qed.

Theorem C05_bracket lo hi n m goal :
  0 <= lo -> lo <= 1 -> 0 <= hi -> hi <= 1 -> (0 < m <= n)%nat ->
  inject_Z (Z.of_nat n) * qpow lo m <= goal ->
  qpow (1 - qpow hi m) (n / m) <= 1 - goal ->
  lo <= hi /\ true_run_probability lo n m <= goal /\ goal <= true_run_probability hi n m.
Proof. exact (bracket_ok lo hi n m goal). Qed.

Theorem C05_lowest_p_succeeds root lo hi m n goal r_tol max_iter :
  0 <= lo -> 0 <= hi -> hi <= 1 -> (0 < m < n)%nat ->
  inject_Z (Z.of_nat n) * qpow lo m <= goal ->
  qpow (1 - qpow hi m) (n / m) <= 1 - goal ->
  0 < goal -> 1#1000000000 <= r_tol ->
  inject_Z (Z.of_nat n) <= r_tol * goal * qpow 2 max_iter ->
  exists pc pgl, get_lowest_p root lo hi m n goal r_tol max_iter = Some (pc, pgl).
Proof. exact (lowest_p_succeeds root lo hi m n goal r_tol max_iter). Qed.

Example C05_example_m : exists v, get_lowest_m (1#4) 4 (1#10) 1000 = Some (2%nat, v).
Proof. eexists. vm_compute. reflexivity. Qed.

(** bracket for n = 4, m = 2, goal = 1/4 : lo = 1/4 (4 * 1/16 <= 1/4), hi = 2/5
    ((1 - 4/25)^2 <= 3/4); the search with tolerance 1/10 succeeds. *)
Example C05_example_p :
  inject_Z (Z.of_nat 4) * qpow (1#4) 2 <= (1#4) /\
  qpow (1 - qpow (2#5) 2) (4 / 2) <= 1 - (1#4) /\
  inject_Z (Z.of_nat 4) <= (1#10) * (1#4) * qpow 2 8 /\
  exists pc pgl, get_lowest_p 0 (1#4) (2#5) 2 4 (1#4) (1#10) 8 = Some (pc, pgl).
Proof. repeat split; try (vm_compute; discriminate). do 2 eexists. vm_compute. reflexivity. Qed.

(** C60. Repeatability of the critical value. With an explicit duration a second call leaves the
    same state; with an automatic duration it need not. *)
Theorem C60_repeatable_with_duration_partial root lo hi alpha length r_tol d c s1 :
  get_critical_value_state root lo hi alpha length r_tol
    {| cv_duration := Some d; cv_corrected := c |} = Some s1 ->
  get_critical_value_state root lo hi alpha length r_tol s1 = Some s1.
Proof. exact (cv_repeatable root lo hi alpha length r_tol d c s1). Qed.

Theorem C60_repeatable_refuted :
  exists alpha length r_tol, 0 < alpha < 1 /\ 0 < r_tol /\
  forall root lo hi,
    (* the root oracle is right at the one place it is used *)
    qpow (root length length alpha) length == alpha -> 0 <= root length length alpha ->
    exists s1 s2 a1 a2,
      get_critical_value_state root lo hi alpha length r_tol
        {| cv_duration := None; cv_corrected := None |} = Some s1 /\
      get_critical_value_state root lo hi alpha length r_tol s1 = Some s2 /\
      cv_corrected s1 = Some a1 /\ cv_corrected s2 = Some a2 /\ ~ a1 == a2.
Proof. exact cv_not_repeatable. Qed.

(** C61. With an automatic duration the level used per point is the global probability of the
    chosen duration; the resulting global error can exceed the tolerated target. *)
Theorem C61_auto_duration_error_refuted :
  exists alpha n r_tol m pc,
    0 < alpha < 1 /\ 0 < r_tol /\
    get_lowest_m alpha n r_tol 1000 = Some (m, pc) /\
    alpha * (1 + r_tol) < true_run_probability pc n m.
Proof. exact auto_duration_refuted. Qed.

Theorem C61_auto_duration_error_partial alpha n r_tol max_iter m pc :
  0 <= alpha -> alpha <= 1 ->
  get_lowest_m alpha n r_tol max_iter = Some (m, pc) -> pc <= alpha ->
  true_run_probability pc n m <= alpha.
Proof. exact (auto_duration_partial alpha n r_tol max_iter m pc). Qed.

Example C61_partial_example :
  exists m pc, get_lowest_m (1#4) 4 (1#10) 1000 = Some (m, pc) /\ pc <= (1#4).
Proof. do 2 eexists. split; [vm_compute; reflexivity|]. vm_compute. discriminate. Qed.

Print Assumptions C03_run_probability_exact.
Print Assumptions C03_run_probability_raises.
Print Assumptions C03_event_meaning.
Print Assumptions C04_run_probability_range.
Print Assumptions C04_monotone_in_p.
Print Assumptions C04_monotone_in_n.
Print Assumptions C04_antitone_in_m.
Print Assumptions C04_union_bound.
Print Assumptions C04_block_bound.
Print Assumptions C05_lowest_m_sound.
Print Assumptions C05_lowest_m_raises.
Print Assumptions C05_lowest_p_sound.
Print Assumptions C05_lowest_p_full_length.
Print Assumptions C05_bracket.
Print Assumptions C05_lowest_p_succeeds.
Print Assumptions C60_repeatable_with_duration_partial.
Print Assumptions C60_repeatable_refuted.
Print Assumptions C61_auto_duration_error_refuted.
Print Assumptions C61_auto_duration_error_partial.
