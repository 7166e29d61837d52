(** The STL-decomposition forecaster. *)
From Coq Require Import List ZArith Reals Bool Lia Lra Arith.
From Verif Require Import PySlice OutlierModel OutlierProps HeuristicModel HeuristicSpec HeuristicProps LsqModel RegModel RegProps RegBandProps StlfModel.
Import ListNotations.
Open Scope nat_scope.

Lemma last_slice {A} (l : list A) m : 0 < m <= length l -> py_slice l (Some (- Z.of_nat m))%Z None = skipn (length l - m) l.
Proof.
  intros H. unfold py_slice, norm_idx. destruct (Z.ltb_spec (- Z.of_nat m) 0); [|lia]. replace (Z.max 0 (- Z.of_nat m + Z.of_nat (length l)))%Z with (Z.of_nat (length l - m)) by lia.
  rewrite Nat2Z.id. apply firstn_all2. rewrite skipn_length. lia.
Qed.
Lemma tile_len {A} (l : list A) rep : length (tile l rep) = rep * length l.
Proof. unfold tile. induction rep as [|rep IH]; [reflexivity|]. cbn. rewrite app_length, IH. reflexivity. Qed.
Lemma tile_nth {A} (l : list A) rep i d : i < rep * length l -> nth i (tile l rep) d = nth (i mod length l) l d.
Proof.
  unfold tile. revert i. induction rep as [|rep IH]; intros i Hi; [lia|]. cbn [repeat concat]. destruct (le_lt_dec (length l) i) as [G|G].
  - rewrite app_nth2 by exact G. rewrite IH by (cbn in Hi; lia). f_equal. replace i with ((i - length l) + 1 * length l) at 2 by lia. rewrite Nat.mod_add by lia. reflexivity.
  - rewrite app_nth1 by exact G. rewrite Nat.mod_small by exact G. reflexivity.
Qed.
Lemma zip_with_len {A B C} (f : A -> B -> C) l r : length (zip_with f l r) = Nat.min (length l) (length r).
Proof. unfold zip_with. rewrite map_length, combine_length. reflexivity. Qed.
Lemma zip_with_nth {A B C} (f : A -> B -> C) l r i a b c : i < length l -> i < length r -> nth i (zip_with f l r) c = f (nth i l a) (nth i r b).
Proof.
  unfold zip_with. revert r i. induction l as [|x l IH]; intros [|y r] i H1 H2; cbn in *; try lia. destruct i as [|i]; [reflexivity|]. apply IH; lia.
Qed.

Lemma nth_firstn' {A} n i (l : list A) d : i < n -> nth i (firstn n l) d = nth i l d.
Proof. revert n l. induction i as [|i IH]; intros [|n] [|x l] H; try lia; try reflexivity. cbn. apply IH. lia. Qed.

Section Grid.
Variable roll next : Z -> Z.
Hypothesis next_later : forall t, (t < next t)%Z.
Variable decompose : list R -> list R * list R.
Variable inner : list R -> bool -> nat -> option (list inner_row).
Notation predict := (StlfModel.predict roll next decompose inner).
Definition none_row : row := {| s_time := 0; s_fcst := 0; s_bounds := None |}.
Definition none_inner : inner_row := (0%R, None).
(** a well-behaved inner model answers with a row for every observation asked for and every step *)
Definition answers (history : bool) (n steps : nat) (fcst : list inner_row) := length fcst = if history then n + steps else steps.

Lemma predict_rows d simple m history steps times values last fcst :
  length times = length values -> length (fst (decompose values)) = length values -> 0 < m <= length values ->
  In last times -> (forall t, In t times -> (t <= last)%Z) -> roll last = last ->
  inner (deseasonalize decompose d simple values) history steps = Some fcst -> answers history (length values) steps fcst ->
  exists rows, predict d simple m history steps times values = Some rows /\ length rows = length fcst /\
    forall i, i < length fcst ->
      let s := nth (length values - m + i mod m) (fst (decompose values)) 0%R in
      s_time (nth i rows none_row) = stamp next history times last i /\
      s_fcst (nth i rows none_row) = reseason d (fst (nth i fcst none_inner)) s /\
      s_bounds (nth i rows none_row) = option_map (fun b => (reseason d (fst b) s, reseason d (snd b) s)) (snd (nth i fcst none_inner)).
Proof.
  intros LT LS HM IL ML RL E A. unfold StlfModel.predict. destruct (Nat.ltb_spec (length values) m); [lia|]. rewrite E. destruct (Nat.eqb_spec m 0); [lia|]. cbv zeta.
  set (season := fst (decompose values)) in *. rewrite (last_slice season m) by lia. rewrite (last_ok times last IL ML), future_on by assumption.
  set (sl := skipn (length season - m) season). assert (LL : length sl = m) by (unfold sl; rewrite skipn_length; lia).
  set (tl := firstn (length fcst) (tile sl (1 + length fcst / m))). assert (BIG : length fcst <= (1 + length fcst / m) * m). { pose proof (Nat.div_mod (length fcst) m ltac:(lia)). pose proof (Nat.mod_upper_bound (length fcst) m ltac:(lia)). nia. }
  assert (LTL : length tl = length fcst) by (unfold tl; rewrite firstn_length, tile_len, LL; lia).
  set (fut := map _ (seq 0 steps)). assert (LF : length fut = steps) by (unfold fut; rewrite map_length, seq_length; reflexivity).
  set (dates := if history then times ++ fut else fut). assert (LD : length dates = length fcst) by (rewrite A; unfold dates; destruct history; rewrite ?app_length, LF, ?LT; reflexivity).
  rewrite zip_with_len, LTL, Nat.min_id, LD, Nat.eqb_refl. eexists. split; [reflexivity|]. split; [rewrite zip_with_len, zip_with_len, LTL, LD, !Nat.min_id; reflexivity|].
  intros i Hi. set (s := nth (length values - m + i mod m) season 0%R). rewrite (zip_with_nth _ _ _ i 0%Z none_inner) by (rewrite ?zip_with_len, ?LTL, ?Nat.min_id, ?LD; exact Hi). cbn [s_time s_fcst s_bounds].
  rewrite (zip_with_nth _ _ _ i none_inner 0%R) by (rewrite ?LTL; exact Hi). cbn [fst snd].
  assert (NT : nth i tl 0%R = s).
  { unfold tl. rewrite nth_firstn' by exact Hi. rewrite tile_nth by (rewrite LL; lia). rewrite LL. unfold sl. rewrite nth_skip. unfold s. f_equal. lia. }
  rewrite NT. split; [|split; reflexivity]. rewrite A in Hi. unfold dates, stamp, fut. destruct history; [|rewrite nth_map_seq by exact Hi; reflexivity]. destruct (Nat.ltb_spec i (length times)); [apply app_nth1; assumption|]. rewrite app_nth2 by lia. rewrite nth_map_seq by lia. reflexivity.
Qed.

(** ** C173: the season of a forecast *)
(** C173 (partial): without history, the row for step [i] is the row of the inner model with the seasonal component
    observed a whole number of periods before that step. *)
Theorem C173_season_partial : forall d simple m steps times values last fcst,
  length times = length values -> length (fst (decompose values)) = length values -> 0 < m <= length values ->
  In last times -> (forall t, In t times -> (t <= last)%Z) -> roll last = last ->
  inner (deseasonalize decompose d simple values) false steps = Some fcst -> length fcst = steps ->
  exists rows, predict d simple m false steps times values = Some rows /\ length rows = steps /\
    forall i, i < steps -> s_time (nth i rows none_row) = after next (S i) last /\
      exists x k, x < length values /\ k > 0 /\ x + k * m = length values + i /\ length values <= x + m /\
        s_fcst (nth i rows none_row) = reseason d (fst (nth i fcst none_inner)) (nth x (fst (decompose values)) 0%R).
Proof.
  intros d simple m steps times values last fcst LT LS HM IL ML RL E A. destruct (predict_rows d simple m false steps times values last fcst LT LS HM IL ML RL E A) as (rows & P & L & F). exists rows. split; [exact P|]. rewrite A in L. split; [exact L|]. intros i Hi.
  destruct (F i ltac:(lia)) as (T & V & _). split; [exact T|]. pose proof (Nat.div_mod i m ltac:(lia)) as DM. pose proof (Nat.mod_upper_bound i m ltac:(lia)) as MB.
  exists (length values - m + i mod m), (1 + i / m). split; [lia|]. split; [lia|]. split; [nia|]. split; [lia|]. exact V.
Qed.
(** With history, the row for observation (or step) number [x] gets the season of number [x] plus the length of the
    series: right only if the length is a multiple of the period. *)
Theorem C173_history_partial : forall d simple m steps times values last fcst g,
  length times = length values -> length (fst (decompose values)) = length values -> 0 < m <= length values ->
  In last times -> (forall t, In t times -> (t <= last)%Z) -> roll last = last ->
  inner (deseasonalize decompose d simple values) true steps = Some fcst -> length fcst = length values + steps ->
  (forall x, x < length values -> nth x (fst (decompose values)) 0%R = g (x mod m)) ->
  exists rows, predict d simple m true steps times values = Some rows /\ length rows = length values + steps /\
    forall x, x < length values + steps ->
      s_fcst (nth x rows none_row) = reseason d (fst (nth x fcst none_inner)) (g ((length values + x) mod m)) /\
      (length values mod m = 0 -> s_fcst (nth x rows none_row) = reseason d (fst (nth x fcst none_inner)) (g (x mod m))).
Proof.
  intros d simple m steps times values last fcst g LT LS HM IL ML RL E A G. destruct (predict_rows d simple m true steps times values last fcst LT LS HM IL ML RL E A) as (rows & P & L & F). exists rows. split; [exact P|]. split; [congruence|]. intros x Hx.
  destruct (F x ltac:(lia)) as (_ & V & _). pose proof (Nat.mod_upper_bound x m ltac:(lia)) as MB. rewrite G in V by lia.
  assert (EM : (length values - m + x mod m) mod m = (length values + x) mod m).
  { rewrite <- (Nat.mod_add (length values - m + x mod m) 1 m) by lia. replace (length values - m + x mod m + 1 * m) with (length values + x mod m) by lia. rewrite Nat.add_mod_idemp_r by lia. reflexivity. }
  rewrite EM in V. split; [exact V|]. intros Z. rewrite V. f_equal. f_equal. rewrite Nat.add_mod, Z, Nat.add_0_l, Nat.mod_mod by lia. reflexivity.
Qed.

(** ** C174: the bounds *)
(** The bounds keep their order, and keep the forecast between them; the seasonal component of a multiplicative
    decomposition is positive. *)
Theorem C174_order : forall d simple m history steps times values last fcst rows,
  length times = length values -> length (fst (decompose values)) = length values -> 0 < m <= length values ->
  In last times -> (forall t, In t times -> (t <= last)%Z) -> roll last = last ->
  inner (deseasonalize decompose d simple values) history steps = Some fcst -> answers history (length values) steps fcst ->
  (d = Multiplicative -> forall s, In s (fst (decompose values)) -> (0 < s)%R) ->
  (forall i, i < length fcst -> exists lo hi, snd (nth i fcst none_inner) = Some (lo, hi) /\ (lo <= fst (nth i fcst none_inner) <= hi)%R) ->
  predict d simple m history steps times values = Some rows ->
  forall i, i < length rows -> exists lo hi, s_bounds (nth i rows none_row) = Some (lo, hi) /\ (lo <= s_fcst (nth i rows none_row) <= hi)%R.
Proof.
  intros d simple m history steps times values last fcst rows LT LS HM IL ML RL E A PS BI P i Hi. destruct (predict_rows d simple m history steps times values last fcst LT LS HM IL ML RL E A) as (rows' & P' & L & F). rewrite P in P'. injection P' as <-.
  destruct (F i ltac:(lia)) as (_ & V & B). destruct (BI i ltac:(lia)) as (lo & hi & EB & OB). rewrite EB in B. cbn [option_map fst snd] in B. rewrite V, B. do 2 eexists. split; [reflexivity|].
  set (s := nth _ _ 0%R) in *. destruct d; cbn [reseason]; [lra|]. assert (0 < s)%R. { apply PS; [reflexivity|]. apply nth_In. pose proof (Nat.mod_upper_bound i m ltac:(lia)). lia. } split; apply Rmult_le_compat_r; lra.
Qed.
End Grid.

(** Asking for the history changes the forecasts: for every length that is not a multiple of the period there is a
    series (a season and no trend, decomposed without error, with an inner model that forecasts the trend without
    error) and a step whose forecast is right without history and wrong with it. *)
Theorem C173_history_refuted : forall n m, 0 < m <= n -> n mod m <> 0 ->
  exists (values : list R) (g : nat -> R), length values = n /\ (forall i, i < n -> nth i values 0%R = g (i mod m)) /\
    forall roll next times last steps, (forall t, (t < next t)%Z) -> length times = n -> In last times -> (forall t, In t times -> (t <= last)%Z) -> roll last = last -> m <= steps ->
    exists rows rows' i,
      StlfModel.predict roll next (fun v => (v, map (fun _ => 0%R) v)) (fun v h k => Some (repeat (0%R, None) (if h then length v + k else k))) Additive false m false steps times values = Some rows /\
      StlfModel.predict roll next (fun v => (v, map (fun _ => 0%R) v)) (fun v h k => Some (repeat (0%R, None) (if h then length v + k else k))) Additive false m true steps times values = Some rows' /\
      i < steps /\ s_time (nth i rows none_row) = s_time (nth (n + i) rows' none_row) /\
      s_fcst (nth i rows none_row) = g ((n + i) mod m) /\ s_fcst (nth (n + i) rows' none_row) <> g ((n + i) mod m).
Proof.
  intros n m HM NZ. set (g := fun x => if x =? 0 then 1%R else 0%R). set (values := map (fun i => g (i mod m)) (seq 0 n)). exists values, g.
  assert (LV : length values = n) by (unfold values; rewrite map_length, seq_length; reflexivity). assert (NV : forall i, i < n -> nth i values 0%R = g (i mod m)) by (intros i Hi; unfold values; rewrite nth_map_seq by exact Hi; reflexivity).
  split; [exact LV|]. split; [exact NV|]. intros roll next times last steps NL LT IL ML RL HS.
  set (dec := fun v : list R => (v, map (fun _ => 0%R) v)). set (inn := fun (v : list R) (h : bool) (k : nat) => Some (repeat (0%R, None) (if h then length v + k else k)) : option (list inner_row)).
  assert (LD : length (deseasonalize dec Additive false values) = n) by (unfold deseasonalize, dec; rewrite zip_with_len, LV; lia).
  set (i := m - n mod m). pose proof (Nat.mod_upper_bound n m ltac:(lia)) as MB. assert (IM : (n + i) mod m = 0). { unfold i. pose proof (Nat.div_mod n m ltac:(lia)) as DM. replace (n + (m - n mod m)) with (0 + (1 + n / m) * m) by lia. rewrite Nat.mod_add by lia. apply Nat.mod_0_l. lia. }
  destruct (predict_rows roll next NL dec inn Additive false m false steps times values last (repeat none_inner steps)) as (rows & P & L & F); [congruence|reflexivity|lia|exact IL|exact ML|exact RL|reflexivity|apply repeat_length|].
  destruct (predict_rows roll next NL dec inn Additive false m true steps times values last (repeat none_inner (n + steps))) as (rows' & P' & L' & F'); [congruence|reflexivity|lia|exact IL|exact ML|exact RL|unfold inn; rewrite LD; reflexivity|unfold answers; rewrite repeat_length, LV; reflexivity|].
  exists rows, rows', i. split; [exact P|]. split; [exact P'|]. assert (HI : i < steps) by (unfold i; lia). split; [exact HI|].
  destruct (F i) as (T & V & _); [rewrite repeat_length; exact HI|]. destruct (F' (n + i)) as (T' & V' & _); [rewrite repeat_length; lia|].
  split. { rewrite T, T'. unfold stamp. destruct (Nat.ltb_spec (n + i) (length times)); [lia|]. rewrite LT. replace (n + i - n) with i by lia. reflexivity. }
  rewrite IM. pose proof (Nat.mod_upper_bound i m ltac:(lia)). assert (RN : forall k j, nth j (repeat none_inner k) none_inner = none_inner) by (induction k as [|k IHk]; intros [|j]; cbn; try reflexivity; apply IHk).
  assert (SH : forall j, j < m -> (n - m + j) mod m = (n + j) mod m) by (intros j Hj; rewrite <- (Nat.mod_add (n - m + j) 1 m) by lia; f_equal; lia).
  rewrite RN in V, V'. cbn [none_inner fst reseason] in V, V'. rewrite LV in V, V'. unfold dec in V, V'. cbn [fst] in V, V'. rewrite NV in V by lia. rewrite IM, Nat.add_0_r, NV in V' by lia.
  rewrite SH, Nat.add_mod_idemp_r, IM in V by (try apply Nat.mod_upper_bound; lia). split; [rewrite V; ring|]. rewrite V'. replace ((n - m) mod m) with (n mod m) by (pose proof (SH 0 ltac:(lia)) as S0; rewrite !Nat.add_0_r in S0; symmetry; exact S0).
  unfold g. destruct (Nat.eqb_spec (n mod m) 0); [contradiction|]. cbn. lra.
Qed.

(** ** C175: a straight trend with a season *)
(** The linear forecaster as inner model. *)
Definition to_inner (l : line) : inner_row := (l_fcst l, match l_lower l, l_upper l with Some a, Some b => Some (a, b) | _, _ => None end).
Definition linear_inner (roll next : Z -> Z) (tq : R -> nat -> R) (alpha : R) (times : list Z) (v : list R) (history : bool) (steps : nat) : option (list inner_row) :=
  option_map (map to_inner)
    (RegModel.predict roll next tq Linear (fit Linear v) alpha history steps times).
(** A series that is a line with a season, and is decomposed without error, is continued without error: for two and more
    steps, with a season without zeros if it multiplies. *)
Theorem C175_exact_partial : forall roll next tq decompose d m alpha steps times values last a b g,
  (forall t, (t < next t)%Z) -> length times = length values -> 0 < m <= length values -> 2 <= length values -> 2 <= steps ->
  In last times -> (forall t, In t times -> (t <= last)%Z) -> roll last = last ->
  (forall i, i < length values -> nth i values 0%R = reseason d (a + b * INR i) (g (i mod m))) ->
  length (fst (decompose values)) = length values -> (forall i, i < length values -> nth i (fst (decompose values)) 0%R = g (i mod m)) ->
  (d = Multiplicative -> forall i, i < m -> g i <> 0%R) ->
  exists rows, StlfModel.predict roll next decompose (linear_inner roll next tq alpha times) d false m false steps times values = Some rows /\ length rows = steps /\
    forall i, i < steps -> s_fcst (nth i rows none_row) = reseason d (a + b * INR (length values + i)) (g ((length values + i) mod m)).
Proof.
  intros roll next tq decompose d m alpha steps times values last a b g NL LT HM H2 HS IL ML RL HV LS HG GZ.
  set (v := deseasonalize decompose d false values). assert (EV : v = zip_with (deseason d) values (fst (decompose values))) by (unfold v, deseasonalize; destruct (decompose values); reflexivity).
  assert (LV : length v = length values) by (rewrite EV, zip_with_len; lia).
  assert (NV : forall i, i < length values -> nth i v 0%R = curve Linear a b 0 i).
  { intros i Hi. rewrite EV, (zip_with_nth _ _ _ i 0%R 0%R) by lia. rewrite HV, HG by exact Hi. destruct d; cbn [reseason deseason curve]; [ring|]. field. apply GZ; [reflexivity|]. apply Nat.mod_upper_bound. lia. }
  destruct (RegProps.predict_rows roll next NL tq Linear alpha false steps times v last ltac:(congruence) IL ML RL (or_intror HS)) as (lrows & PL & LL & _).
  pose proof (C171_exact roll next NL tq Linear alpha false steps times v last lrows a b 0%R ltac:(congruence) IL ML RL PL ltac:(cbn; lia) ltac:(intros; apply NV; lia)) as X.
  set (fcst := map to_inner lrows).
  assert (LF : length fcst = steps) by (unfold fcst; rewrite map_length; exact LL).
  destruct (StlfProps.predict_rows roll next NL decompose (linear_inner roll next tq alpha times) d false m false steps times values last fcst LT LS HM IL ML RL) as (rows & P & L & F); [unfold linear_inner; fold v; rewrite PL; reflexivity|exact LF|].
  exists rows. split; [exact P|]. split; [rewrite L; exact LF|]. intros i Hi. destruct (F i (eq_ind_r (fun z => i < z) Hi LF)) as (_ & V & _). pose proof (Nat.mod_upper_bound i m ltac:(lia)). rewrite HG in V by lia.
  assert (EM : (length values - m + i mod m) mod m = (length values + i) mod m). { rewrite <- (Nat.mod_add (length values - m + i mod m) 1 m) by lia. replace (length values - m + i mod m + 1 * m) with (length values + i mod m) by lia. rewrite Nat.add_mod_idemp_r by lia. reflexivity. }
  rewrite EM in V. rewrite V. f_equal. unfold fcst. specialize (X i ltac:(rewrite LL; exact Hi)). rewrite LV in X. cbn [curve] in X. rewrite <- X.
  rewrite (nth_indep _ none_inner (to_inner default)) by (rewrite map_length, LL; exact Hi). rewrite map_nth. reflexivity.
Qed.
(** Its single step raises, as that of the inner model does. *)
Theorem C175_one_step_refuted : forall roll next tq decompose d m alpha times values,
  times <> [] -> length times = length values -> length (fst (decompose values)) = length values ->
  StlfModel.predict roll next decompose (linear_inner roll next tq alpha times) d false m false 1 times values = None.
Proof.
  intros roll next tq decompose d m alpha times values NE LT LS. unfold StlfModel.predict. destruct (length values <? m); [reflexivity|]. unfold linear_inner. rewrite C169_one_step_refuted; [reflexivity|exact NE|]. unfold deseasonalize. destruct (decompose values) as [s t]; cbn [fst] in LS. rewrite zip_with_len. lia.
Qed.

(** ** Concrete cases *)
(** five observations with a period of two: 1 0 1 0 1 *)
Example C173_case : 0 < 2 <= 5 /\ 5 mod 2 <> 0 /\ exists values g, length values = 5 /\ (forall i, i < 5 -> nth i values 0%R = g (i mod 2)) /\ g 0 <> g 1.
Proof. split; [lia|]. split; [discriminate|]. exists [1; 0; 1; 0; 1]%R, (fun x => if x =? 0 then 1%R else 0%R). split; [reflexivity|]. split; [intros [|[|[|[|[|i]]]]] H; try reflexivity; lia|]. cbn. lra. Qed.
Example C174_case : exists rows, StlfModel.predict (fun t => t) (fun t => t + 1)%Z (fun _ => ([2; 1 / 2; 2; 1 / 2], [1; 1; 1; 1])%R) (fun _ _ k => Some (repeat (1%R, Some (1 / 2, 2)%R) k)) Multiplicative false 2 false 3 [0; 1; 2; 3]%Z [2; 1 / 2; 2; 1 / 2]%R = Some rows /\
  map s_time rows = [4; 5; 6]%Z /\ map s_fcst rows = [1 * 2; 1 * (1 / 2); 1 * 2]%R /\ map s_bounds rows = [Some (1 / 2 * 2, 2 * 2)%R; Some (1 / 2 * (1 / 2), 2 * (1 / 2))%R; Some (1 / 2 * 2, 2 * 2)%R].
Proof. eexists. split; [reflexivity|]. split; [reflexivity|]. split; reflexivity. Qed.
(** the line 0 1 2 3 with the season 1 -1 *)
Example C175_case : exists rows, StlfModel.predict (fun t => t) (fun t => t + 1)%Z (fun _ => ([1; -1; 1; -1], [0; 1; 2; 3])%R) (linear_inner (fun t => t) (fun t => t + 1)%Z (fun _ _ => 0%R) (1 / 20) [0; 1; 2; 3]%Z) Additive false 2 false 2 [0; 1; 2; 3]%Z [1; 0; 3; 2]%R = Some rows /\
  map s_fcst rows = [5; 4]%R.
Proof.
  destruct (C175_exact_partial (fun t => t) (fun t => t + 1)%Z (fun _ _ => 0%R) (fun _ => ([1; -1; 1; -1], [0; 1; 2; 3])%R) Additive 2 (1 / 20) 2 [0; 1; 2; 3]%Z [1; 0; 3; 2]%R 3%Z 0 1 (fun x => if x =? 0 then 1%R else (-1)%R)) as (rows & P & L & F).
  - intros t. cbv beta. lia.
  - reflexivity.
  - cbn. lia.
  - cbn. lia.
  - lia.
  - cbn. tauto.
  - cbn. intros. lia.
  - reflexivity.
  - intros [|[|[|[|i]]]] H; cbn in *; try lia; lra.
  - reflexivity.
  - intros [|[|[|[|i]]]] H; cbn in *; try lia; lra.
  - discriminate.
  - exists rows. split; [exact P|]. destruct rows as [|r0 [|r1 [|]]]; try discriminate L. pose proof (F 0 ltac:(lia)) as F0. pose proof (F 1 ltac:(lia)) as F1. cbn in F0, F1 |- *. rewrite F0, F1. f_equal; [lra|f_equal; lra].
Qed.

Print Assumptions C173_season_partial.
Print Assumptions C173_history_partial.
Print Assumptions C174_order.
Print Assumptions C173_history_refuted.
Print Assumptions C175_exact_partial.
Print Assumptions C175_one_step_refuted.
