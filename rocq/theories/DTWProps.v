(** C20-C23, C77-C79: the dynamic time warping change point detector. *)
From Verif Require Import Common DTWModel DTWSpec DTWProofs DTWSearchProofs.
From Coq Require Import Lqa Lia.
Open Scope nat_scope.

(** *** C20 *)
(** the effective width is at least the difference of the lengths *)
Theorem C20_least_warping_path : forall s1 s2 w w', s1 <> [] -> s2 <> [] ->
  w' = Nat.max w (Nat.max (length s1 - length s2) (length s2 - length s1)) ->
  least_cost s1 s2 (warping_path (in_band w') (length s1) (length s2)) (dtw s1 s2 w).
Proof.
  intros s1 s2 w w' H1 H2 ->. pose proof (c20_best s1 s2 w H1 H2) as C.
  replace (Nat.max w (Nat.max (length s1 - length s2) (length s2 - length s1))) with (band_width s1 s2 w)
    by (unfold band_width; lia).
  exact C.
Qed.
Theorem C20_empty_series : forall w,
  dtw [] [] w = Some 0%Q /\ forall x t, dtw [] (x :: t) w = None /\ dtw (x :: t) [] w = None.
Proof. intros w. split; [apply dtw_nil_nil|]. intros x t. split; [apply dtw_nil_l|apply dtw_nil_r]. Qed.
(** widths at least as long as the series leave every path in the band *)
Theorem C20_unrestricted : forall s1 s2 w, s1 <> [] -> s2 <> [] -> length s1 <= w -> length s2 <= w ->
  least_cost s1 s2 (warping_path (fun _ => True) (length s1) (length s2)) (dtw s1 s2 w).
Proof.
  intros s1 s2 w H1 H2 L1 L2.
  pose proof (C20_least_warping_path s1 s2 w _ H1 H2 eq_refl) as C.
  replace (Nat.max w (Nat.max (length s1 - length s2) (length s2 - length s1))) with w in C by lia.
  assert (P1 : 0 < length s1) by (destruct s1; [congruence|cbn; lia]).
  assert (P2 : 0 < length s2) by (destruct s2; [congruence|cbn; lia]).
  eapply least_cost_iff; [|exact C]. intros p. split.
  - intros (A & B & S & _). split; [exact A|]. split; [exact B|]. split; [exact S|]. apply Forall_forall. trivial.
  - intros H. pose proof (warping_bounds _ _ _ _ P1 P2 H) as Bd. destruct H as (A & B & S & _).
    split; [exact A|]. split; [exact B|]. split; [exact S|].
    rewrite Forall_forall in *. intros c Hc. specialize (Bd c Hc). cbn beta in Bd. unfold in_band. lia.
Qed.
Example C20_case : eq_inf (dtw [1; 2; 4]%Q [1; 1; 3; 4]%Q 2) (Some 1%Q)
  /\ eq_inf (dtw [1; 2; 4]%Q [1; 1; 3; 4]%Q 1) None.
Proof. vm_compute. auto. Qed.

(** *** C21 *)
Theorem C21_lower_bound : forall s1 s2 w, length s1 = length s2 -> 1 <= w ->
  exists b, lb_keogh s1 s2 w = Some b /\ le_inf (Some b) (dtw s1 s2 w).
Proof. exact c21_bound. Qed.
Example C21_case : lb_keogh [0; 5; 0]%Q [1; 1; 1]%Q 1 <> None
  /\ eq_inf (lb_keogh [0; 5; 0]%Q [1; 1; 2]%Q 1) (Some 18%Q) /\ eq_inf (dtw [0; 5; 0]%Q [1; 1; 2]%Q 1) (Some 21%Q).
Proof. vm_compute. split; [discriminate|auto]. Qed.

(** *** C22 *)
(** With windows of at least three points the search reports, for each series, a window
    whose first closest match (over all admissible windows, compared by the full
    distance) is farthest away; no candidate is lost to pruning. *)
Theorem C22_pruned_search_exact : forall win same all,
  3 <= win -> (forall n i v, has_window all n i v -> length v = win) ->
  (forall name ss, In (name, ss) all ->
     exists i v n' i' u, In (i, v) ss /\ admissible all win same name i n' i' u) ->
  exists r, max_min_dists win same all = Some r
    /\ Forall2 (fun a b => fst b = fst a /\ m_name (snd b) = fst a
         /\ is_farthest (fun v u => dtw v u (length u / 3)) all win same (fst a) (snd a)
              (m_index (snd b)) (o_name (snd b)) (o_index (snd b)) (m_dist (snd b))) all r.
Proof. exact max_min_spec. Qed.
(** one window: its first closest admissible match, or no match if there is no candidate *)
Theorem C22_closest_match : forall win same all name ind v,
  3 <= win -> (forall n i u, has_window all n i u -> length u = win) -> length v = win ->
  exists r, closest win same all name ind v = Some r
    /\ match r with
       | None => forall n i u, ~ admissible all win same name ind n i u
       | Some m => m_name m = name /\ m_index m = ind
           /\ is_nearest (fun v u => dtw v u (length u / 3)) all win same name ind v
                (o_name m) (o_index m) (m_dist m)
       end.
Proof. exact closest_spec. Qed.
(** windows of one or two points: the width is zero and the search raises *)
Theorem C22_short_windows_raise : forall win same all name ind v n i u,
  1 <= win -> win <= 2 -> length v = win -> length u = win ->
  hd_error (candidates win same all name ind) = Some (n, i, u) ->
  closest win same all name ind v = None.
Proof.
  intros win same all name ind v n i u H1 H2 Lv Lu Hd. unfold closest.
  destruct (candidates win same all name ind) as [|c t]; [discriminate|]. cbn in Hd. injection Hd as ->.
  cbn [pruned]. replace (length u / 3) with 0 by (rewrite Lu; destruct win as [|[|[|?]]]; try lia; reflexivity).
  destruct v as [|x v]; [cbn in Lv; lia|].
  assert (E : lb_keogh (x :: v) u 0 = None).
  { unfold lb_keogh. cbn [keogh_from]. unfold keogh_term, keogh_window. reflexivity. }
  rewrite E. reflexivity.
Qed.
Definition c22_all : list (nat * list (nat * list Q)) :=
  [(0, [(0, [1; 2; 3]%Q); (3, [1; 2; 4]%Q)]); (1, [(0, [1; 2; 3]%Q); (3, [9; 9; 9]%Q)])].
Example C22_case :
  (forall n i v, has_window c22_all n i v -> length v = 3)
  /\ (forall name ss, In (name, ss) c22_all ->
        exists i v n' i' u, In (i, v) ss /\ admissible c22_all 3 false name i n' i' u)
  /\ option_map (map (fun p => (fst p, m_index (snd p), o_name (snd p), o_index (snd p))))
       (max_min_dists 3 false c22_all) = Some [(0, 3, 1, 0); (1, 3, 0, 3)].
Proof.
  split; [|split].
  - intros n i v (ss & [E|[E|[]]] & H); injection E as <- <-;
      destruct H as [H|[H|[]]]; injection H as <- <-; reflexivity.
  - intros name ss [E|[E|[]]]; injection E as <- <-.
    + exists 0, [1; 2; 3]%Q, 1, 0, [1; 2; 3]%Q. split; [left; reflexivity|]. split; [|left; lia].
      eexists. split; [right; left; reflexivity|left; reflexivity].
    + exists 0, [1; 2; 3]%Q, 0, 0, [1; 2; 3]%Q. split; [left; reflexivity|]. split; [|left; lia].
      eexists. split; [left; reflexivity|left; reflexivity].
  - vm_compute. reflexivity.
Qed.

(** *** C23 *)
Theorem C23_self_zero_partial : forall s w, 1 <= w -> exists d, dtw s s w = Some d /\ (d == 0)%Q.
Proof. exact c23_self. Qed.
Theorem C23_wide_symmetric_partial : forall s1 s2 w, length s1 <= w -> length s2 <= w ->
  eq_inf (dtw s1 s2 w) (dtw s2 s1 w).
Proof. exact c23_wide. Qed.
(** width zero: every nonempty series is infinitely far from itself *)
Theorem C23_zero_width_refuted : forall x t, dtw (x :: t) (x :: t) 0 = None.
Proof. exact c23_zero_width. Qed.
(** the band reaches one step further back than ahead, so order matters *)
Theorem C23_symmetry_refuted : exists s1 s2 w, length s1 = length s2 /\ 1 <= w
  /\ ~ eq_inf (dtw s1 s2 w) (dtw s2 s1 w).
Proof. exists [0; 0; 1]%Q, [0; 1; 1]%Q, 1. split; [reflexivity|]. split; [lia|]. vm_compute. discriminate. Qed.
Example C23_case : eq_inf (dtw [0; 0; 1]%Q [0; 1; 1]%Q 1) (Some 0%Q) /\ eq_inf (dtw [0; 1; 1]%Q [0; 0; 1]%Q 1) (Some 1%Q).
Proof. vm_compute. auto. Qed.

(** *** C77 *)
Theorem C77_windows_considered : forall win skip low data, 1 <= win -> 1 <= skip ->
  (forall name ts, In (name, ts) data -> win <= length ts) ->
  forall name ind v,
    has_window (all_nonzero_subs win skip low data) name ind v
    <-> exists ts, In (name, ts) data /\ active_window win skip low ts ind v.
Proof.
  intros win skip low data Hw Hs Hl name ind v. unfold has_window, all_nonzero_subs. split.
  - intros (ss & Hin & Hv). apply filter_In in Hin as [Hin _]. apply in_map_iff in Hin as ((n & ts) & E & Hin).
    cbn [fst snd] in E. injection E as -> <-. exists ts. split; [exact Hin|].
    apply c77_windows; try assumption. apply (Hl _ _ Hin).
  - intros (ts & Hin & Ha). apply c77_windows in Ha; [|assumption|assumption|apply (Hl _ _ Hin)].
    exists (nonzero_subs win skip low ts). split; [|exact Ha]. apply filter_In. split.
    + apply in_map_iff. exists (name, ts). split; [reflexivity|exact Hin].
    + cbn [snd]. destruct (nonzero_subs win skip low ts); [contradiction|reflexivity].
Qed.
Theorem C77_each_window_once : forall win skip low ts, 1 <= skip ->
  NoDup (map fst (nonzero_subs win skip low ts)).
Proof. exact c77_once. Qed.
Example C77_case : all_nonzero_subs 2 2 (1 # 10) [(0, [0; 0; 1; 0; 0]%Q); (1, [0; 0; 0]%Q)]
  = [(0, [(2, [1; 0]%Q)])].
Proof. vm_compute. reflexivity. Qed.

(** *** C78 *)
Theorem C78_reported_fraction : forall med cutoff dists, (0 <= cutoff)%Q ->
  anomalies med cutoff dists <> [] ->
  (inject_Z (Z.of_nat (length (anomalies med cutoff dists))) * cutoff
   < inject_Z (Z.of_nat (length dists)))%Q.
Proof. exact c78_count. Qed.
Theorem C78_equal_distances_silent : forall med cutoff dists,
  (forall p, In p dists -> snd p == med)%Q -> anomalies med cutoff dists = [].
Proof. exact c78_equal. Qed.
Theorem C78_not_every_series : forall med cutoff dists, (1 <= cutoff)%Q -> dists <> [] ->
  length (anomalies med cutoff dists) < length dists.
Proof.
  intros med cutoff dists Hc N. destruct (anomalies med cutoff dists) as [|p t] eqn:E.
  - destruct dists; [congruence|cbn; lia].
  - assert (Hn : anomalies med cutoff dists <> []) by (rewrite E; discriminate).
    assert (H0 : (0 <= cutoff)%Q) by lra.
    pose proof (c78_count med cutoff dists H0 Hn) as H. rewrite E in H.
    set (k := Z.of_nat (length (p :: t))) in *. set (n := Z.of_nat (length dists)) in *.
    assert (K : (0 <= inject_Z k)%Q) by (rewrite <- (Zle_Qle 0); unfold k; lia).
    assert (inject_Z k < inject_Z n)%Q as L by nra. rewrite <- Zlt_Qlt in L. unfold k, n in L. lia.
Qed.
Example C78_case : anomalies 1 1 [(0, 1%Q); (1, 1%Q); (2, 4%Q)] = [(2, 4%Q)].
Proof. vm_compute. reflexivity. Qed.

(** *** C79 *)
(** running the same detector object twice on its data gives the same change points, when
    the number of series with an active window is not one *)
Theorem C79_repeatable_partial : forall win skip low data rest r1 r2,
  length (all_nonzero_subs win skip low data) <> 1 ->
  detector win skip low data rest [] = Some r1 -> detector win skip low data rest r1 = Some r2 -> r2 = r1.
Proof.
  intros win skip low data rest r1 r2 N. unfold detector.
  destruct (all_nonzero_subs win skip low data) as [|[n ss] [|b t]].
  - congruence.
  - cbn in N. lia.
  - congruence.
Qed.
Theorem C79_repeat_refuted : exists win skip low data, forall rest, exists r1 r2,
  detector win skip low data rest [] = Some r1 /\ detector win skip low data rest r1 = Some r2
  /\ length r1 = 1 /\ length r2 = 2.
Proof.
  exists 3, 1, (1 # 10)%Q, [(0, [0; 0; 0; 1; 0]%Q); (1, [0; 0; 0; 0; 0]%Q)]. intros rest.
  exists [(0, 1)], [(0, 1); (0, 1)]. split; [vm_compute; reflexivity|]. split; [vm_compute; reflexivity|]. split; reflexivity.
Qed.
Example C79_case : length (all_nonzero_subs 3 1 (1 # 10) [(0, [0; 1; 0; 1]%Q); (1, [0; 1; 0; 2]%Q)]) = 2.
Proof. vm_compute. reflexivity. Qed.

Print Assumptions C20_least_warping_path.
Print Assumptions C20_empty_series.
Print Assumptions C20_unrestricted.
Print Assumptions C21_lower_bound.
Print Assumptions C22_pruned_search_exact.
Print Assumptions C22_closest_match.
Print Assumptions C22_short_windows_raise.
Print Assumptions C23_self_zero_partial.
Print Assumptions C23_wide_symmetric_partial.
Print Assumptions C23_zero_width_refuted.
Print Assumptions C23_symmetry_refuted.
Print Assumptions C77_windows_considered.
Print Assumptions C77_each_window_once.
Print Assumptions C78_reported_fraction.
Print Assumptions C78_equal_distances_silent.
Print Assumptions C78_not_every_series.
Print Assumptions C79_repeatable_partial.
Print Assumptions C79_repeat_refuted.
