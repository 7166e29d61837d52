(** C15-C17, C68: the statistical significance detector. *)
From Verif Require Import Common PySlice TSDataModel StatSigModel StatSigSpec StatSigProofs.
Open Scope Z_scope.

(** *** C15 *)
Theorem C15_scores : forall {V S} (T : list V -> list V -> S) (zero : S) (nc nt u : Z),
  0 < u -> 1 <= nt -> forall hist data,
  data <> [] -> increasing (all_of hist data) ->
  fst (fit_predict T zero nc nt u hist data)
  = map (fun r => (fst r, expected_score T zero nc nt u (all_of hist data) (first_time hist data) (fst r))) data.
Proof. intros V S T zero nc nt u Hu Ht hist data. apply fit_predict_spec; assumption. Qed.
Theorem C15_scores_only : forall {V S} (T : list V -> list V -> S) (zero : S) (nc nt u : Z),
  0 < u -> 1 <= nt -> 0 <= nc -> forall hist data,
  data <> [] -> increasing (all_of hist data) ->
  fst (scores_only T zero nc nt u hist data)
  = map (fun r => (fst r, expected_score T zero nc nt u (all_of hist data) (first_time hist data) (fst r))) data.
Proof. intros V S T zero nc nt u Hu Ht Hc hist data. apply scores_only_spec; assumption. Qed.
(** For a regular series the windows hold exactly [nt] and [nc] values: those at positions
    k-nt+1..k and k-nt-nc+1..k-nt. *)
Theorem C15_regular_windows : forall {V S} (T : list V -> list V -> S) (zero : S) (nc nt u : Z),
  0 < u -> 1 <= nt -> 0 <= nc -> forall vals t0 k, 0 <= k ->
  expected_score T zero nc nt u (grid t0 u vals) t0 (t0 + k * u)
  = if k <? nc + nt - 1 then zero
    else T (firstn (Z.to_nat nt) (skipn (Z.to_nat (k - nt + 1)) vals))
           (firstn (Z.to_nat nc) (skipn (Z.to_nat (k - nt - nc + 1)) vals)).
Proof. intros V S T zero nc nt u Hu Ht Hc vals t0 k Hk. apply expected_grid; assumption. Qed.
Definition pair_score (a b : list Z) : list Z * list Z := (a, b).
Example C15_case :
  let hist := [(0, 10); (1, 11); (3, 13)] in
  let data := [(4, 14); (5, 15); (7, 17)] in
  increasing (all_of (Some hist) data) /\
  fst (fit_predict pair_score ([], []) 3 2 1 (Some hist) data)
  = [(4, ([13; 14], [10; 11])); (5, ([14; 15], [11; 13])); (7, ([17], [13; 14; 15]))]
  /\ fst (scores_only pair_score ([], []) 3 2 1 (Some hist) data)
  = [(4, ([13; 14], [10; 11])); (5, ([14; 15], [11; 13])); (7, ([17], [13; 14; 15]))].
Proof. split; [|split]. - unfold increasing. simpl. repeat constructor; lia. - reflexivity. - reflexivity. Qed.

(** *** C16 *)
(** For regular series the split path gives the same scores as the point loop, unless the
    number of scored points is a multiple of the split length. *)
Theorem C16_split_same_scores_partial :
  forall {V S} (T : list V -> list V -> S) (zero : S) (one : V) (nc nt u : Z),
  0 < u -> 1 <= nt -> 1 <= nc -> 3 <= nc + nt ->
  forall (m : nat) t0 vh vd given,
  (0 < m)%nat -> (given = false -> vh = []) -> vd <> [] ->
  let hist := grid_hist u t0 vh given in
  let data := grid (t0 + Z.of_nat (length vh) * u) u vd in
  (scored_points (Z.to_nat (nc + nt - 1)) (length vh) (length vd) mod m <> 0)%nat ->
  fit_predict_split T T zero one nc nt u m hist data = Some (fst (fit_predict T zero nc nt u hist data)).
Proof.
  intros V S T zero one nc nt u Hu Ht Hc H3 m t0 vh vd given Hm Hg Hv hist data Hk.
  unfold hist, data. rewrite split_scores; try assumption; try lia.
  apply Nat.eqb_neq in Hk. rewrite Hk. destruct (Nat.ltb _ _); reflexivity.
Qed.
(** When it is a multiple, every score of the long series is zero. *)
Theorem C16_multiple_of_split_refuted :
  forall {V S} (T : list V -> list V -> S) (zero : S) (one : V) (nc nt u : Z),
  0 < u -> 1 <= nt -> 1 <= nc -> 3 <= nc + nt ->
  forall (m : nat) t0 vh vd given,
  (0 < m)%nat -> (given = false -> vh = []) -> vd <> [] ->
  let hist := grid_hist u t0 vh given in
  let data := grid (t0 + Z.of_nat (length vh) * u) u vd in
  let k := scored_points (Z.to_nat (nc + nt - 1)) (length vh) (length vd) in
  (m < k)%nat -> (k mod m = 0)%nat ->
  fit_predict_split T T zero one nc nt u m hist data = Some (map (fun r => (fst r, zero)) data).
Proof.
  intros V S T zero one nc nt u Hu Ht Hc H3 m t0 vh vd given Hm Hg Hv hist data k Hmk Hk.
  unfold hist, data. rewrite split_scores; try assumption; try lia. fold k.
  apply Nat.eqb_eq in Hk. rewrite Hk. apply Nat.ltb_lt in Hmk. rewrite Hmk. reflexivity.
Qed.
(** The split path scores with the multivariate detector's settings, not with the caller's:
    a minimum percentage change passed by the caller is ignored. *)
Theorem C16_min_change_ignored_refuted :
  forall {V S} (T T_multi : list V -> list V -> S) (zero : S) (one : V) (nc nt u : Z),
  0 < u -> 1 <= nt -> 1 <= nc -> 3 <= nc + nt ->
  forall (m : nat) t0 vh vd given,
  (0 < m)%nat -> (given = false -> vh = []) -> vd <> [] ->
  let hist := grid_hist u t0 vh given in
  let data := grid (t0 + Z.of_nat (length vh) * u) u vd in
  let k := scored_points (Z.to_nat (nc + nt - 1)) (length vh) (length vd) in
  (m < k)%nat -> (k mod m <> 0)%nat ->
  fit_predict_split T T_multi zero one nc nt u m hist data
  = Some (fst (fit_predict T_multi zero nc nt u hist data)).
Proof.
  intros V S T T_multi zero one nc nt u Hu Ht Hc H3 m t0 vh vd given Hm Hg Hv hist data k Hmk Hk.
  unfold hist, data. rewrite split_scores; try assumption; try lia. fold k.
  apply Nat.eqb_neq in Hk. rewrite Hk. apply Nat.ltb_lt in Hmk. rewrite Hmk. reflexivity.
Qed.
(** With one control and one test point, a long series without history raises. *)
Theorem C16_raises_refuted : exists data : list (Z * Z),
  increasing data /\ fit_predict_split pair_score pair_score ([], []) 1 1 1 1 3 None data = None.
Proof.
  exists [(0, 0); (1, 1); (2, 2); (3, 3); (4, 4); (5, 5)]. split; [|reflexivity].
  unfold increasing. simpl. repeat constructor; lia.
Qed.
Example C16_case :
  let data n := grid 0 1 (map Z.of_nat (seq 0 n)) in
  let split n := fit_predict_split pair_score pair_score ([], []) 1 2 1 1 3 None (data n) in
  let direct n := fst (fit_predict pair_score ([], []) 2 1 1 None (data n)) in
  split 10%nat = Some (direct 10%nat) /\ split 9%nat = Some (direct 9%nat)
  /\ split 8%nat = Some (map (fun r => (fst r, ([], []))) (data 8%nat))
  /\ nth 7 (direct 8%nat) (0, ([], [])) = (7, ([7], [5; 6])).
Proof. repeat split; reflexivity. Qed.

(** *** C17 *)
Theorem C17_padding : forall {V} (nc nt u : Z) (hist : option (list (Z * V))) (data : list (Z * V)),
  data <> [] -> increasing (all_of hist data) ->
  let start := first_time hist data + (nc + nt - 1) * u in
  let '(data', hist', user) := handle_not_enough_history nc nt u hist data in
  hist' ++ data' = all_of hist data
  /\ (forall r, In r data' <-> In r data /\ start <= fst r)
  /\ ((exists r0, In r0 (hist_list hist) /\ start <= fst r0) ->
        hist' = hist_list hist /\ data' = data /\ user = hist)
  /\ (~ (exists r0, In r0 (hist_list hist) /\ start <= fst r0) ->
        hist' = filter (fun r => fst r <? start) (all_of hist data)
        /\ data' = filter (fun r => start <=? fst r) (all_of hist data)
        /\ user = (match hist with Some h => Some (h ++ data) | None => None end)).
Proof. intros V nc nt u hist data. apply handle_spec. Qed.
Theorem C17_response_covers_data : forall {V S} (T : list V -> list V -> S) (zero : S) (nc nt u : Z),
  0 < u -> 1 <= nt -> forall hist data,
  data <> [] -> increasing (all_of hist data) ->
  map fst (fst (fit_predict T zero nc nt u hist data)) = map fst data.
Proof.
  intros V S T zero nc nt u Hu Ht hist data Hd Hi. rewrite C15_scores by assumption.
  rewrite map_map. reflexivity.
Qed.
Example C17_case :
  handle_not_enough_history 2 2 1 (Some [(0, 10); (1, 11)]) [(2, 12); (3, 13); (4, 14)]
  = ([(3, 13); (4, 14)], [(0, 10); (1, 11); (2, 12)], Some [(0, 10); (1, 11); (2, 12); (3, 13); (4, 14)])
  /\ handle_not_enough_history 2 2 1 (Some [(0, 10); (3, 11)]) [(4, 12)]
     = ([(4, 12)], [(0, 10); (3, 11)], Some [(0, 10); (3, 11)]).
Proof. split; reflexivity. Qed.

(** *** C68 *)
(** The caller's history is left alone exactly when it is long enough (point loop). *)
Theorem C68_long_history_unchanged_partial :
  forall {V S} (T : list V -> list V -> S) (zero : S) (nc nt u : Z) hist data,
  data <> [] -> increasing (all_of hist data) ->
  (exists r0, In r0 (hist_list hist) /\ first_time hist data + (nc + nt - 1) * u <= fst r0) ->
  snd (fit_predict T zero nc nt u hist data) = hist.
Proof.
  intros V S T zero nc nt u hist data Hd Hi Hex. unfold fit_predict.
  destruct (should_update nc nt u hist data); [|reflexivity].
  pose proof (handle_spec nc nt u hist data Hd Hi) as H.
  destruct (handle_not_enough_history nc nt u hist data) as [[d h] us]. cbn [snd].
  destruct H as [_ [_ [H _]]]. apply H, Hex.
Qed.
(** A short history comes back with the data appended to it. *)
Theorem C68_short_history_extended_refuted :
  forall {V S} (T : list V -> list V -> S) (zero : S) (nc nt u : Z) h data,
  data <> [] -> increasing (h ++ data) ->
  should_update nc nt u (Some h) data = true ->
  ~ (exists r0, In r0 h /\ first_time (Some h) data + (nc + nt - 1) * u <= fst r0) ->
  snd (fit_predict T zero nc nt u (Some h) data) = Some (h ++ data)
  /\ Some (h ++ data) <> Some h.
Proof.
  intros V S T zero nc nt u h data Hd Hi Hup Hno. split.
  - unfold fit_predict. rewrite Hup.
    pose proof (handle_spec nc nt u (Some h) data Hd Hi) as H.
    destruct (handle_not_enough_history nc nt u (Some h) data) as [[d h'] us]. cbn [snd].
    destruct H as [_ [_ [_ H]]]. destruct (H Hno) as [_ [_ H3]]. exact H3.
  - intros E. injection E as E. apply Hd. apply (app_inv_head h). rewrite E, app_nil_r. reflexivity.
Qed.
(** The scores-only path always appends the data to the caller's history. *)
Theorem C68_scores_only_refuted :
  forall {V S} (T : list V -> list V -> S) (zero : S) (nc nt u : Z) h data,
  should_update nc nt u (Some h) data = true ->
  snd (scores_only T zero nc nt u (Some h) data) = Some (h ++ data).
Proof. intros V S T zero nc nt u h data H. unfold scores_only. rewrite H. reflexivity. Qed.
(** Hence a second identical call can raise or change scores: the history now overlaps
    the data, and scores differ. *)
Theorem C68_second_call_differs_refuted :
  let h := [(0, 5); (1, 7)] in
  let data := [(2, 1); (3, 2); (4, 4)] in
  let first := fit_predict pair_score ([], []) 2 2 1 (Some h) data in
  let second := fit_predict pair_score ([], []) 2 2 1 (snd first) data in
  fst first <> fst second.
Proof. cbv zeta. vm_compute. discriminate. Qed.

Print Assumptions C15_scores.
Print Assumptions C15_scores_only.
Print Assumptions C16_split_same_scores_partial.
Print Assumptions C16_multiple_of_split_refuted.
Print Assumptions C17_padding.
Print Assumptions C68_short_history_extended_refuted.
Print Assumptions C68_second_call_differs_refuted.

Print Assumptions C15_regular_windows.
Print Assumptions C16_min_change_ignored_refuted.
Print Assumptions C16_raises_refuted.
Print Assumptions C17_response_covers_data.
Print Assumptions C68_long_history_unchanged_partial.
Print Assumptions C68_scores_only_refuted.
