(** Theorems about MultivariateAnomalyDetectorModel (C168). *)
From Verif Require Import Common OutlierModel OutlierProps OutlierMvProps WrapModel WrapProps.
Open Scope nat_scope.

Section Multivariate.
Variable M : Type.
Variable fit : list Z -> list (list (option Q)) -> option M.
Variable predict : M -> list Q.
Variable single : M -> list Q -> list Q.
Variable overall : M -> list Q -> Q.
Variable chi2_sf : nat -> Q -> Q.
Variable valid : list Z -> bool.
Notation detector := (mv_detector M fit predict single overall chi2_sf).
Notation fit_predict := (mv_fit_predict M fit predict single overall chi2_sf).

Lemma gaps_grid (g : Z) : forall rows t0, on_grid t0 g rows -> gaps (map fst rows) = repeat g (length rows - 1).
Proof.
  induction rows as [|r rows IH]; intros t0 G; [reflexivity|]. destruct rows as [|r' rows]; [reflexivity|].
  assert (G' : on_grid (t0 + g) g (r' :: rows)) by (intros i x E; specialize (G (S i) x E); lia). specialize (IH _ G'). cbn [map] in *. change (gaps (fst r :: fst r' :: map fst rows)) with ((fst r' - fst r)%Z :: gaps (fst r' :: map fst rows)). rewrite IH.
  pose proof (G 0 r eq_refl). pose proof (G 1 r' eq_refl). cbn [length Nat.sub repeat]. rewrite Nat.sub_0_r. f_equal. lia.
Qed.
Lemma granularity_grid g t0 rows : on_grid t0 g rows -> 2 <= length rows -> granularity (map fst rows) = Some g.
Proof.
  intros G L. unfold granularity. rewrite (gaps_grid g rows t0 G). destruct (length rows - 1) as [|n] eqn:E; [lia|]. cbn [repeat].
  assert (F : forallb (Z.eqb g) (repeat g n) = true) by (clear; induction n; cbn [repeat forallb]; [reflexivity|rewrite Z.eqb_refl; exact IHn]).
  rewrite F. reflexivity.
Qed.

Lemma filter_from (t0 g : Z) (a : nat) : (0 < g)%Z -> forall (table : list scores) c,
  (forall j s, nth_error table j = Some s -> s_time s = (t0 + g * Z.of_nat (c + j))%Z) ->
  filter (fun s => Z.leb (t0 + g * Z.of_nat a) (s_time s)) table = skipn (a - c) table.
Proof.
  intros Hg. induction table as [|s table IH]; intros c H; [rewrite skipn_nil; reflexivity|]. cbn [filter].
  assert (H' : forall j x, nth_error table j = Some x -> s_time x = (t0 + g * Z.of_nat (S c + j))%Z) by (intros j x E; rewrite (H (S j) x E); lia).
  rewrite (IH (S c) H'). pose proof (H 0 s eq_refl) as T. destruct (Z.leb_spec (t0 + g * Z.of_nat a) (s_time s)) as [L|L].
  - replace (a - c) with 0 by nia. replace (a - S c) with 0 by nia. reflexivity.
  - destruct (a - c) as [|n] eqn:E; [nia|]. replace (a - S c) with n by lia. reflexivity.
Qed.
Lemma nth_error_skipn_at {A} : forall n (l : list A) i, nth_error (skipn n l) i = nth_error l (n + i).
Proof. induction n as [|n IH]; intros [|x l] i; try reflexivity; [destruct i; reflexivity|]. apply IH. Qed.
Lemma combine_nth_error {A B} : forall (a : list A) (b : list B) i x y, nth_error (combine a b) i = Some (x, y) -> nth_error a i = Some x /\ nth_error b i = Some y.
Proof. induction a as [|p a IH]; intros [|q b] [|i] x y E; try discriminate; cbn in E; [injection E as <- <-; auto|]. exact (IH _ _ _ _ E). Qed.

Definition all_mrows (hp : list (list (Z * list Q))) (d : nat) (h : option nat) : list (Z * list Q) :=
  match h with None => nth d hp [] | Some h => nth h hp [] ++ nth d hp [] end.
(** A new model on a regular series (history followed by data, training over m whole steps): it raises exactly when the
    detector fails or there is nothing after the training period; otherwise row i of the scores is the score the detector gave
    to the time of row i of the data, and missing if it gave none. *)
Theorem C168_aligned_partial : forall hp d h t0 g m width, d < length hp -> match h with None => True | Some h => h < length hp /\ h <> d end ->
  nth d hp [] <> [] -> (0 < g)%Z -> let total := all_mrows hp d h in on_grid t0 g total -> valid (map fst total) = true ->
  match snd (fit_predict (g * Z.of_nat m)%Z width valid hp d h) with
  | None => detector g (g * Z.of_nat m)%Z width total = None \/ length total <= S m
  | Some out => exists table, detector g (g * Z.of_nat m)%Z width total = Some table /\ length out = length (nth d hp []) /\
      forall i t v, nth_error out i = Some (t, v) -> nth_error (map fst (nth d hp [])) i = Some t /\
        match v with Some s => In s table /\ s_time s = t | None => forall s, In s table -> s_time s <> t end
  end.
Proof.
  intros hp d h t0 g m width D H ND Hg total G V. unfold mv_fit_predict, mv_fit.
  set (hp' := match h with None => hp | Some h => extend h d hp end).
  assert (A : nth (match h with None => d | Some h => h end) hp' [] = total /\ nth d hp' [] = nth d hp []).
  { unfold hp', total, all_mrows. destruct h as [h|]; [|split; reflexivity]. destruct H as [H N]. split; [apply extend_h, H|apply extend_o; congruence]. }
  destruct A as [A B]. rewrite A. cbn [snd]. rewrite B. assert (VV : match h with None => true | Some _ => valid (map fst total) end = true) by (destruct h; auto). rewrite VV. clear A B VV hp'.
  set (data := nth d hp []) in *. assert (TD : exists hist, total = hist ++ data) by (unfold total, all_mrows; destruct h as [h|]; [eexists; reflexivity|exists []; reflexivity]).
  clearbody total data. clear H D hp d h. destruct TD as (hist & ->). assert (LD : 1 <= length data) by (destruct data; [contradiction|cbn; lia]).
  destruct (Nat.le_gt_cases (length (hist ++ data)) 1) as [L1|L1].
  { assert (GN : forall rows : list (Z * list Q), length rows <= 1 -> granularity (map fst rows) = None) by (intros [|x [|y l]] X; [reflexivity|reflexivity|cbn in X; lia]).
    rewrite (GN _ L1). right. lia. }
  pose proof (granularity_grid g t0 _ G ltac:(lia)) as GR. rewrite GR.
  destruct (C109_schedule M fit predict single overall chi2_sf t0 g m width (hist ++ data) Hg ltac:(intros E; apply app_eq_nil in E as [_ E]; contradiction) G) as [_ S]. cbv zeta in S.
  destruct (detector g (g * Z.of_nat m)%Z width (hist ++ data)) as [table|]; [|left; reflexivity]. destruct (S table eq_refl) as [L T]. clear S. rewrite app_length in *.
  assert (T' : forall j s, nth_error table j = Some s -> s_time s = (t0 + g * Z.of_nat (S m + j))%Z).
  { intros j s E. destruct (T j s E) as (_ & _ & actual & _ & _ & _ & X & _). pose proof (G _ _ X) as Y. cbn [fst] in Y. rewrite Y. do 2 f_equal. lia. }
  assert (GD : on_grid (t0 + g * Z.of_nat (length hist))%Z g data).
  { intros i r E. rewrite (G (length hist + i) r) by (rewrite nth_error_app2 by lia; replace (length hist + i - length hist) with i by lia; exact E). lia. }
  unfold mv_predict. destruct (grid_minmax _ _ _ Hg ND GD) as [-> _]. rewrite (filter_from t0 g (length hist) Hg table (S m) T').
  destruct table as [|s0 tl]; [right; cbn in L; lia|]. set (table := s0 :: tl) in *. assert (TL : 1 <= length table) by (cbn; lia). clearbody table.
  rewrite skipn_length. destruct (Nat.leb_spec (length table - (length hist - S m)) (length data)); [|lia].
  exists table. split; [reflexivity|]. split; [rewrite combine_length, map_length, app_length, repeat_length, map_length, skipn_length; lia|].
  intros i t v E. apply combine_nth_error in E as [E1 E2]. split; [exact E1|].
  assert (ET : t = (t0 + g * Z.of_nat (length hist + i))%Z).
  { rewrite nth_error_map in E1. destruct (nth_error data i) as [r|] eqn:X; [|discriminate]. injection E1 as <-. rewrite (GD i r X). lia. }
  set (pad := length data - (length table - (length hist - S m))) in *. destruct (Nat.lt_ge_cases i pad) as [Hi|Hi].
  - rewrite nth_error_app1 in E2 by (rewrite repeat_length; exact Hi). apply nth_error_In, repeat_spec in E2. subst v. intros s I X.
    apply In_nth_error in I as (j & J). rewrite (T' j s J) in X. nia.
  - rewrite nth_error_app2 in E2 by (rewrite repeat_length; exact Hi). rewrite repeat_length, nth_error_map in E2.
    destruct (nth_error (skipn (length hist - S m) table) (i - pad)) as [s|] eqn:X; [|discriminate]. injection E2 as <-. rewrite nth_error_skipn_at in X.
    split; [eapply nth_error_In, X|]. rewrite (T' _ _ X), ET. f_equal. f_equal. f_equal. lia.
Qed.
(** The history of the caller is extended, also when the call raises. *)
Theorem C168_history_refuted : forall hp d h look width, h < length hp ->
  nth h (fst (fit_predict look width valid hp d (Some h))) [] = nth h hp [] ++ nth d hp [].
Proof. intros hp d h look width H. unfold mv_fit_predict, mv_fit. cbn [fst]. apply extend_h, H. Qed.
End Multivariate.

(** A model fitted before, on data that begins later than its last score: every score is missing and nothing is raised. *)
Theorem C168_later_refuted : forall table data, table <> [] -> data <> [] ->
  (forall s r, In s table -> In r data -> (s_time s < fst r)%Z) ->
  mv_predict table data = Some (map (fun r => (fst r, None)) data).
Proof.
  intros table data NT ND H. unfold mv_predict.
  assert (F : filter (fun s => Z.leb (zmin (map fst data)) (s_time s)) table = []).
  { assert (NM : map fst data <> []) by (intros E; apply map_eq_nil in E; contradiction). destruct (zmin_spec _ NM) as (A & _). apply in_map_iff in A as (r & A & I). rewrite <- A.
    clear NT. induction table as [|s table IH]; [reflexivity|]. cbn [filter]. destruct (Z.leb_spec (fst r) (s_time s)) as [L|L]; [specialize (H s r (or_introl eq_refl) I); lia|].
    apply IH. intros s' r' I' J. apply H; [now right|exact J]. }
  rewrite F. destruct table; [contradiction|]. cbn [length Nat.leb]. rewrite Nat.sub_0_r, app_nil_r. f_equal. clear. induction data as [|r data IH]; [reflexivity|]. cbn. rewrite <- IH. reflexivity.
Qed.
(** On other data the scores go to rows by position: if the data begins no later than the first score and ends after the last
    one, the last score is reported for another time than its own. *)
Theorem C168_position_refuted : forall table s data r, length table <= length data ->
  (exists r0, In r0 (data ++ [r]) /\ forall s', In s' (table ++ [s]) -> (fst r0 <= s_time s')%Z) -> (s_time s < fst r)%Z ->
  exists out, mv_predict (table ++ [s]) (data ++ [r]) = Some (out ++ [(fst r, Some s)]).
Proof.
  intros table s data r L (r0 & I0 & H) T. unfold mv_predict.
  assert (F : filter (fun s => Z.leb (zmin (map fst (data ++ [r]))) (s_time s)) (table ++ [s]) = table ++ [s]).
  { assert (NM : map fst (data ++ [r]) <> []) by (rewrite map_app; intros E; apply app_eq_nil in E as [_ E]; discriminate). destruct (zmin_spec _ NM) as (_ & B).
    specialize (B (fst r0) (in_map fst _ _ I0)). revert H. generalize (table ++ [s]). induction l as [|x l IH]; intros H; [reflexivity|]. cbn [filter].
    destruct (Z.leb_spec (zmin (map fst (data ++ [r]))) (s_time x)) as [_|X]; [f_equal; apply IH; intros y Y; apply H; now right|specialize (H x (or_introl eq_refl)); lia]. }
  rewrite F. destruct (table ++ [s]) as [|x l] eqn:E; [apply app_eq_nil in E as [_ E]; discriminate|]. rewrite <- E. clear x l E F H. rewrite !app_length. cbn [length].
  destruct (Nat.leb_spec (length table + 1) (length data + 1)); [|lia]. eexists. f_equal. rewrite !map_app. cbn [map]. rewrite app_assoc.
  assert (C : forall (a : list Z) (b : list (option scores)) x y, length a = length b -> combine (a ++ [x]) (b ++ [y]) = combine a b ++ [(x, y)]).
  { induction a as [|p a IH]; intros [|q b] x y X; try discriminate; [reflexivity|]. cbn. f_equal. apply IH. now injection X. }
  apply C. rewrite app_length, repeat_length, !map_length. lia.
Qed.
Example C168_case :
  let hp := [firstn 4 c109_rows; skipn 4 c109_rows] in
  match snd (mv_fit_predict (list Q) c109_fit (fun m => m) (fun _ e => e) c109_overall c109_sf 15 2 (fun _ => true) hp 1 (Some 0)) with
  | Some [(30%Z, Some a); (35%Z, Some b); (40%Z, Some c)] => s_time a = 30%Z /\ s_time c = 40%Z /\ (0 < s_overall a)%Q
  | _ => False
  end /\
  match snd (mv_fit_predict (list Q) c109_fit (fun m => m) (fun _ e => e) c109_overall c109_sf 20 2 (fun _ => true) hp 1 (Some 0)) with
  | Some [(30%Z, None); (35%Z, Some b); (40%Z, Some c)] => s_time b = 35%Z
  | _ => False
  end.
Proof. vm_compute. repeat split. Qed.

Print Assumptions C168_aligned_partial.
Print Assumptions C168_history_refuted.
Print Assumptions C168_later_refuted.
Print Assumptions C168_position_refuted.
