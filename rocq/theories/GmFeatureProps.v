(** C211 and C212: the date features of the global model — specification, proofs and theorems. *)
From Coq Require Import List Bool Arith Lia.
From Verif Require Import GmLossModel GmLossProofs GmFeatureModel.
Import ListNotations.

(** ** Specification *)
(** what a calendar gives *)
Definition calendar (s : stamp) : Prop :=
  1 <= iso_day s <= 7 /\ 1 <= iso_week s <= 53 /\ 1 <= day s <= 31 /\ 1 <= month s <= 12 /\ hour s < 24 /\ minute s < 60 /\ 1 <= dayofyear s <= 366.
(** among the columns lo ... lo + n - 1 just column lo + k is 1 *)
Definition one_hot (row : list bool) (lo n k : nat) : Prop := k < n /\ forall p, p < n -> (nth (lo + p) row false = true <-> p = k).

(** ** Proofs *)
Lemma with_offset_len m l : length (with_offset m l) = length l.
Proof. unfold with_offset. rewrite zip_len, map_length, seq_length. lia. Qed.
Lemma with_offset_in m l x : In x (with_offset m l) <-> exists i, i < length l /\ x = nth i l 0 + i * m.
Proof.
  split.
  - intros H. destruct (In_nth _ _ 0 H) as [i [Hi E]]. rewrite with_offset_len in Hi. exists i. split; [exact Hi |]. rewrite <- E.
    unfold with_offset. rewrite (zip_nth _ _ _ _ 0 0) by (rewrite ?map_length, ?seq_length; exact Hi).
    rewrite (map_nth_in (fun i => i * m) (seq 0 (length l)) 0 0 i) by (rewrite seq_length; exact Hi). rewrite seq_nth by exact Hi. reflexivity.
  - intros [i [Hi ->]]. replace (nth i l 0 + i * m) with (nth i (with_offset m l) 0).
    + apply nth_In. rewrite with_offset_len. exact Hi.
    + unfold with_offset. rewrite (zip_nth _ _ _ _ 0 0) by (rewrite ?map_length, ?seq_length; exact Hi).
      rewrite (map_nth_in (fun i => i * m) (seq 0 (length l)) 0 0 i) by (rewrite seq_length; exact Hi). rewrite seq_nth by exact Hi. reflexivity.
Qed.
Lemma ones_rows n m ix rows : option_map (chunks n m) (ones_at (n * m) ix) = Some rows ->
  length rows = n /\ forall i, i < n -> length (nth i rows []) = m /\ forall p, p < m -> (nth p (nth i rows []) false = true <-> In (i * m + p) ix).
Proof.
  unfold ones_at. destruct (forallb _ ix) eqn:E; [| discriminate]. cbn [option_map]. intros H. injection H as <-.
  split; [apply chunks_len |]. intros i Hi. rewrite chunks_nth by exact Hi.
  set (l := map (fun p => existsb (Nat.eqb p) ix) (seq 0 (n * m))).
  assert (LL : length l = n * m) by (unfold l; rewrite map_length, seq_length; reflexivity).
  split; [rewrite firstn_length, skipn_length, LL; nia |].
  intros p Hp. rewrite firstn_nth, skipn_nth by exact Hp. assert (B : i * m + p < n * m) by nia.
  unfold l. rewrite (map_nth_in (fun p => existsb (Nat.eqb p) ix) (seq 0 (n * m)) 0 false) by (rewrite seq_length; exact B).
  rewrite seq_nth by exact B. cbn [plus]. rewrite existsb_exists. split.
  - intros [x [X1 X2]]. apply Nat.eqb_eq in X2. rewrite X2. exact X1.
  - intros H. exists (i * m + p). rewrite Nat.eqb_refl. auto.
Qed.
Lemma ones_some n m ix : (forall x, In x ix -> x < n * m) -> exists rows, option_map (chunks n m) (ones_at (n * m) ix) = Some rows.
Proof.
  intros H. unfold ones_at. destruct (forallb _ ix) eqn:E; [eexists; reflexivity |]. exfalso.
  assert (T : forallb (fun i => i <? n * m) ix = true) by (apply forallb_forall; intros x Hx; apply Nat.ltb_lt; apply H; exact Hx). congruence.
Qed.
Lemma offset_cell m l i p : (forall x, In x l -> x < m) -> i < length l -> p < m -> (In (i * m + p) (with_offset m l) <-> p = nth i l 0).
Proof.
  intros B Hi Hp. rewrite with_offset_in. split.
  - intros [k [Hk E]]. pose proof (B _ (nth_In l 0 Hk)) as Bk. assert (k = i) by nia. subst k. lia.
  - intros ->. exists i. split; [exact Hi | lia].
Qed.
Lemma offset_bound m l x : (forall x, In x l -> x < m) -> In x (with_offset m l) -> x < length l * m.
Proof. intros B H. apply with_offset_in in H. destruct H as [i [Hi ->]]. pose proof (B _ (nth_In l 0 Hi)). nia. Qed.
Lemma map_stamp (f : stamp -> nat) l d i : i < length l -> nth i (map f l) 0 = f (nth i l d).
Proof. apply map_nth_in. Qed.
Lemma biweek w : 1 <= w <= 53 -> (w - 1) / 2 < 27.
Proof. intros H. apply Nat.div_lt_upper_bound; lia. Qed.

(** ** Theorems *)
(** C211: the hour of the last time, one column per hour *)
Theorem C211_hour last d : (forall s, In s last -> calendar s) ->
  exists rows, last_hour last = Some rows /\ length rows = length last /\
    forall i, i < length last -> length (nth i rows []) = 24 /\ one_hot (nth i rows []) 0 24 (hour (nth i last d)).
Proof.
  intros C. assert (B : forall x, In x (map hour last) -> x < 24).
  { intros x Hx. apply in_map_iff in Hx. destruct Hx as [s [<- Hs]]. apply C in Hs. unfold calendar in Hs. lia. }
  destruct (ones_some (length last) 24 (with_offset 24 (map hour last))) as [rows R].
  { intros x Hx. apply offset_bound in Hx; [rewrite map_length in Hx; exact Hx | exact B]. }
  exists rows. split; [exact R |]. destruct (ones_rows _ _ _ _ R) as [L1 L2]. split; [exact L1 |]. intros i Hi. destruct (L2 i Hi) as [L3 L4]. split; [exact L3 |].
  assert (CI := C (nth i last d) (nth_In last d Hi)). unfold calendar in CI. split; [lia |]. intros p Hp. cbn [plus].
  rewrite L4 by exact Hp. rewrite offset_cell by (rewrite ?map_length; auto). rewrite (map_stamp hour last d) by exact Hi. reflexivity.
Qed.
(** the date: the columns set are those of the day of the week, counted from 1, of the two weeks and of the day of the month *)
Theorem C211_date_partial last d : (forall s, In s last -> calendar s) ->
  exists rows, last_date last = Some rows /\ length rows = length last /\
    forall i, i < length last -> length (nth i rows []) = 65 /\
      (forall p, p < 65 -> (nth p (nth i rows []) false = true <->
         p = iso_day (nth i last d) \/ p = 7 + (iso_week (nth i last d) - 1) / 2 \/ p = 33 + day (nth i last d))) /\
      one_hot (nth i rows []) 34 31 (day (nth i last d) - 1).
Proof.
  intros C. unfold last_date. change (7 + 27 + 31) with 65.
  set (l1 := map iso_day last). set (l2 := map (fun s => (iso_week s - 1) / 2 + 7) last). set (l3 := map (fun s => day s + 6 + 27) last).
  assert (B1 : forall x, In x l1 -> x < 65) by (intros x Hx; apply in_map_iff in Hx; destruct Hx as [s [<- Hs]]; apply C in Hs; unfold calendar in Hs; lia).
  assert (B2 : forall x, In x l2 -> x < 65).
  { intros x Hx. apply in_map_iff in Hx. destruct Hx as [s [<- Hs]]. apply C in Hs. unfold calendar in Hs. pose proof (biweek (iso_week s)). lia. }
  assert (B3 : forall x, In x l3 -> x < 65) by (intros x Hx; apply in_map_iff in Hx; destruct Hx as [s [<- Hs]]; apply C in Hs; unfold calendar in Hs; lia).
  assert (L1 : length l1 = length last) by apply map_length. assert (L2 : length l2 = length last) by apply map_length. assert (L3 : length l3 = length last) by apply map_length.
  destruct (ones_some (length last) 65 (with_offset 65 l1 ++ with_offset 65 l2 ++ with_offset 65 l3)) as [rows R].
  { intros x Hx. rewrite !in_app_iff in Hx. destruct Hx as [Hx|[Hx|Hx]]; apply offset_bound in Hx; auto; congruence. }
  exists rows. split; [exact R |]. destruct (ones_rows _ _ _ _ R) as [M1 M2]. split; [exact M1 |]. intros i Hi. destruct (M2 i Hi) as [M3 M4]. split; [exact M3 |].
  assert (P : forall p, p < 65 -> (nth p (nth i rows []) false = true <-> p = iso_day (nth i last d) \/ p = 7 + (iso_week (nth i last d) - 1) / 2 \/ p = 33 + day (nth i last d))).
  { intros p Hp. rewrite M4 by exact Hp. rewrite !in_app_iff, !offset_cell by (auto; congruence).
    unfold l1, l2, l3. rewrite (map_stamp iso_day last d), (map_stamp (fun s => (iso_week s - 1) / 2 + 7) last d), (map_stamp (fun s => day s + 6 + 27) last d) by exact Hi.
    rewrite (Nat.add_comm 7). replace (day (nth i last d) + 6 + 27) with (33 + day (nth i last d)) by lia. reflexivity. }
  split; [exact P |]. assert (CI := C (nth i last d) (nth_In last d Hi)). unfold calendar in CI. split; [lia |].
  intros p Hp. rewrite P by lia. pose proof (biweek (iso_week (nth i last d))). lia.
Qed.
(** dates that differ in one of the three have different features *)
Theorem C211_date_distinct last d rows i j : (forall s, In s last -> calendar s) -> last_date last = Some rows -> i < length last -> j < length last ->
  nth i rows [] = nth j rows [] ->
  iso_day (nth i last d) = iso_day (nth j last d) /\ (iso_week (nth i last d) - 1) / 2 = (iso_week (nth j last d) - 1) / 2 /\ day (nth i last d) = day (nth j last d).
Proof.
  intros C R Hi Hj E. destruct (C211_date_partial last d C) as [rows' [R' [_ P]]]. rewrite R in R'. injection R' as <-.
  destruct (P i Hi) as [_ [Pi _]]. destruct (P j Hj) as [_ [Pj _]]. rewrite E in Pi.
  assert (Ci := C (nth i last d) (nth_In last d Hi)). assert (Cj := C (nth j last d) (nth_In last d Hj)). unfold calendar in Ci, Cj.
  pose proof (biweek (iso_week (nth i last d)) ltac:(lia)) as Bi. pose proof (biweek (iso_week (nth j last d)) ltac:(lia)) as Bj.
  set (a := iso_day (nth i last d)) in *. set (a' := iso_day (nth j last d)) in *.
  set (b := (iso_week (nth i last d) - 1) / 2) in *. set (b' := (iso_week (nth j last d) - 1) / 2) in *.
  assert (Q : forall p, p < 65 -> (p = a \/ p = 7 + b \/ p = 33 + day (nth i last d)) <-> (p = a' \/ p = 7 + b' \/ p = 33 + day (nth j last d))) by (intros p Hp; rewrite <- Pi, <- Pj by exact Hp; reflexivity).
  pose proof (proj1 (Q a ltac:(lia))) as Q1. pose proof (proj1 (Q (7 + b) ltac:(lia))) as Q2. pose proof (proj1 (Q (33 + day (nth i last d)) ltac:(lia))) as Q3.
  pose proof (proj2 (Q a' ltac:(lia))) as Q4. pose proof (proj2 (Q (7 + b') ltac:(lia))) as Q5. pose proof (proj2 (Q (33 + day (nth j last d)) ltac:(lia))) as Q6. lia.
Qed.
(** a Monday, the 5th, at 13:20, in the first week of January *)
Definition monday : stamp := {| iso_day := 1; iso_week := 1; day := 5; month := 1; hour := 13; minute := 20; dayofyear := 5 |}.
Definition sunday : stamp := {| iso_day := 7; iso_week := 10; day := 9; month := 3; hour := 0; minute := 0; dayofyear := 68 |}.
Definition december : stamp := {| iso_day := 3; iso_week := 52; day := 24; month := 12; hour := 18; minute := 0; dayofyear := 358 |}.
Example C211_case : calendar monday /\ calendar sunday /\ calendar december /\ exists r, last_hour [monday; sunday] = Some r /\ one_hot (nth 0 r []) 0 24 13.
Proof.
  repeat split; cbn; try lia. destruct (C211_hour [monday; sunday] monday) as [rows [R [_ P]]].
  { intros s [<-|[<-|[]]]; unfold calendar; cbn; lia. }
  exists rows. split; [exact R |]. apply (P 0). cbn. lia.
Qed.
(** the first seven columns are not the day of the week one-hot: a Sunday sets the first column of the two weeks instead, which
    then show two *)
Theorem C211_date_refuted : exists last rows, (forall s, In s last -> calendar s) /\ last_date last = Some rows /\
  (forall k, ~ one_hot (nth 0 rows []) 0 7 k) /\ (forall k, ~ one_hot (nth 0 rows []) 7 27 k).
Proof.
  exists [sunday]. destruct (C211_date_partial [sunday] sunday) as [rows [R [_ P]]]; [intros s [<-|[]]; unfold calendar; cbn; lia |].
  exists rows. split; [intros s [<-|[]]; unfold calendar; cbn; lia |]. split; [exact R |].
  destruct (P 0 ltac:(cbn; lia)) as [_ [P0 _]]. cbn [nth sunday iso_day iso_week day] in P0. change ((10 - 1) / 2) with 4 in P0. split.
  - intros k [K1 K2]. specialize (P0 k ltac:(lia)). specialize (K2 k K1). cbn [plus] in K2. pose proof (proj2 K2 eq_refl) as T. apply P0 in T. lia.
  - intros k [K1 K2]. pose proof (K2 0 ltac:(lia)) as A. pose proof (K2 4 ltac:(lia)) as B. cbn [plus] in A, B.
    pose proof (proj2 (P0 7 ltac:(lia)) ltac:(lia)) as A1. pose proof (proj2 (P0 11 ltac:(lia)) ltac:(lia)) as B1. apply A in A1. apply B in B1. lia.
Qed.
(** the month, as long as no series ends in December *)
Theorem C211_month_partial last d : (forall s, In s last -> calendar s) -> (forall s, In s last -> month s <> 12) ->
  exists rows, last_month last = Some rows /\ length rows = length last /\ forall i, i < length last -> length (nth i rows []) = 12 /\ one_hot (nth i rows []) 0 12 (month (nth i last d)).
Proof.
  intros C ND. assert (B : forall x, In x (map month last) -> x < 12).
  { intros x Hx. apply in_map_iff in Hx. destruct Hx as [s [<- Hs]]. specialize (ND s Hs). apply C in Hs. unfold calendar in Hs. lia. }
  destruct (ones_some (length last) 12 (with_offset 12 (map month last))) as [rows R].
  { intros x Hx. apply offset_bound in Hx; [rewrite map_length in Hx; exact Hx | exact B]. }
  exists rows. split; [exact R |]. destruct (ones_rows _ _ _ _ R) as [L1 L2]. split; [exact L1 |]. intros i Hi. destruct (L2 i Hi) as [L3 L4]. split; [exact L3 |].
  split; [apply B; rewrite <- (map_stamp month last d) by exact Hi; apply nth_In; rewrite map_length; exact Hi |]. intros p Hp. cbn [plus].
  rewrite L4 by exact Hp. rewrite offset_cell by (rewrite ?map_length; auto). rewrite (map_stamp month last d) by exact Hi. reflexivity.
Qed.
(** a series that ends in December: if it is the last of the batch an exception is raised *)
Theorem C211_december_refuted last d : month d = 12 -> last_month (last ++ [d]) = None.
Proof.
  intros M. unfold last_month, ones_at. destruct (forallb _ _) eqn:E; [| reflexivity]. exfalso.
  rewrite forallb_forall in E. specialize (E (12 + length last * 12)). assert (I : In (12 + length last * 12) (with_offset 12 (map month (last ++ [d])))).
  { apply with_offset_in. exists (length last). rewrite map_length, app_length. cbn [length]. split; [lia |]. rewrite map_app, app_nth2 by (rewrite map_length; lia).
    rewrite map_length, Nat.sub_diag. cbn [map nth]. rewrite M. reflexivity. }
  apply E in I. apply Nat.ltb_lt in I. rewrite app_length in I. cbn in I. lia.
Qed.
(** otherwise its own row is empty and the next series gets the mark *)
Theorem C211_next_series_refuted : exists last rows, (forall s, In s last -> calendar s) /\ last_month last = Some rows /\
  (forall p, nth p (nth 0 rows []) false = false) /\ nth 0 (nth 1 rows []) false = true /\ month (nth 1 last december) <> 12 /\
  forall k, ~ one_hot (nth 1 rows []) 0 12 k.
Proof.
  exists [december; sunday]. eexists. split; [intros s [<-|[<-|[]]]; unfold calendar; cbn; lia |]. split; [vm_compute; reflexivity |]. split; [| split; [| split]].
  - intros p. do 13 (destruct p as [|p]; [reflexivity |]). cbn. destruct p; reflexivity.
  - reflexivity.
  - cbn. lia.
  - intros k [K1 K2]. pose proof (proj1 (K2 0 ltac:(lia)) eq_refl) as A. pose proof (proj1 (K2 3 ltac:(lia)) eq_refl) as B. lia.
Qed.

(** C212: the features have as many columns as the network is built for; those computed once per series are not counted here *)
Lemma width1 times d f w r : (forall ts, In ts times -> length ts = w) -> on_the_fly1 times d f = Some (Some r) ->
  length r = length times /\ forall row, In row r -> length row = feature_size1 w f.
Proof.
  intros W. set (lasts := map (fun ts => last ts d) times). assert (LL : length lasts = length times) by apply map_length.
  assert (G : forall m o rows, option_map (fun r => Some (map (map b2n) r)) (option_map (chunks (length lasts) m) (ones_at (length lasts * m) o)) = Some (Some rows) ->
    length rows = length times /\ forall row, In row rows -> length row = m).
  { intros m o rows H. destruct (option_map (chunks (length lasts) m) (ones_at (length lasts * m) o)) as [r0|] eqn:E; [| discriminate].
    cbn in H. injection H as <-. destruct (ones_rows _ _ _ _ E) as [A B]. rewrite map_length. split; [congruence |]. intros row Hr. apply in_map_iff in Hr.
    destruct Hr as [x [<- Hx]]. rewrite map_length. destruct (In_nth _ _ [] Hx) as [i [Hi <-]]. apply B. congruence. }
  unfold on_the_fly1. fold lasts. destruct f; try discriminate.
  - intros H. apply (G 65) in H. exact H.
  - intros H. injection H as <-. unfold simple_date. rewrite map_length. split; [reflexivity |]. intros row Hr. apply in_map_iff in Hr. destruct Hr as [ts [<- Hts]].
    rewrite map_length, !app_length, !map_length, (W ts Hts). cbn. lia.
  - intros H. apply (G 24) in H. exact H.
  - intros H. injection H as <-. unfold last_hour_minute. rewrite map_length. split; [exact LL |]. intros row Hr. apply in_map_iff in Hr. destruct Hr as [s [<- _]]. reflexivity.
  - intros H. apply (G 12) in H. exact H.
Qed.
Definition once (f : feature) : bool := match f with FTsfeatures | FTs2vec => true | _ => false end.
Theorem C212_width times d fs w r : (forall ts, In ts times -> length ts = w) -> on_the_fly times d fs = Some (Some r) ->
  length r = length times /\ forall row, In row r -> length row = feature_size (filter (fun f => negb (once f)) fs) w.
Proof.
  intros W. revert r. induction fs as [|f fs IH]; intros r H; [discriminate |]. cbn [on_the_fly] in H.
  destruct (on_the_fly1 times d f) as [[a|]|] eqn:E1; [| | discriminate].
  - assert (OF : once f = false) by (destruct f; try reflexivity; discriminate). cbn [filter]. rewrite OF. cbn [negb].
    unfold feature_size. cbn [map fold_right]. fold (feature_size (filter (fun f => negb (once f)) fs) w).
    destruct (width1 _ _ _ _ _ W E1) as [A1 A2].
    destruct (on_the_fly times d fs) as [[b|]|] eqn:E2; [| | discriminate].
    + assert (r = cat2 a b) by congruence. subst r. destruct (IH b eq_refl) as [B1 B2]. unfold cat2. rewrite zip_len. split; [lia |].
      intros row Hr. destruct (In_nth _ _ [] Hr) as [i [Hi Er]]. rewrite zip_len in Hi. rewrite (zip_nth _ _ _ _ [] []) in Er by lia. rewrite <- Er, app_length.
      rewrite A2 by (apply nth_In; lia). rewrite B2 by (apply nth_In; lia). reflexivity.
    + assert (r = a) by congruence. subst r. split; [exact A1 |]. intros row Hr. rewrite (A2 row Hr).
      assert (Z : forall l, on_the_fly times d l = Some None -> filter (fun f => negb (once f)) l = []).
      { clear. induction l as [|g l IH]; intros H; [reflexivity |]. cbn [on_the_fly] in H. destruct (on_the_fly1 times d g) as [[a|]|] eqn:E; [| | discriminate].
        - destruct (on_the_fly times d l) as [[b|]|]; discriminate.
        - assert (OG : once g = true).
          { unfold on_the_fly1 in E. destruct g; try reflexivity; try discriminate;
              match type of E with option_map _ ?o = _ => destruct o; discriminate end. }
          cbn [filter]. rewrite OG. cbn [negb]. auto. }
      rewrite (Z fs E2). cbn. lia.
  - assert (OF : once f = true) by (unfold on_the_fly1 in E1; destruct f; try reflexivity; try discriminate; match type of E1 with option_map _ ?o = _ => destruct o; discriminate end).
    cbn [filter]. rewrite OF. cbn [negb]. apply IH. exact H.
Qed.
(** the hour and the minute of the last time of each series, both counted from one *)
Theorem C212_clock times d : exists r, on_the_fly times d [FLastHourMinute] = Some (Some r) /\ length r = length times /\
  forall i ts, nth_error times i = Some ts -> nth_error r i = Some [S (hour (last ts d)); S (minute (last ts d))].
Proof.
  eexists. split; [reflexivity |]. unfold last_hour_minute. rewrite !map_length. split; [reflexivity |]. intros i ts H.
  rewrite map_map, nth_error_map, H. cbn. rewrite !(Nat.add_comm _ 1). reflexivity.
Qed.
Example C212_clock_case : on_the_fly [[sunday; monday]; [monday; sunday]] monday [FLastHourMinute] =
  Some (Some [[S (hour monday); S (minute monday)]; [S (hour sunday); S (minute sunday)]]).
Proof. reflexivity. Qed.
Example C212_case : exists r, on_the_fly [[monday; sunday]; [sunday; monday]] monday [FTsfeatures; FLastHour; FSimpleDate] = Some (Some r) /\ map (@length nat) r = [32; 32].
Proof. eexists. split; vm_compute; reflexivity. Qed.

Print Assumptions C211_hour.
Print Assumptions C211_date_partial.
Print Assumptions C211_date_distinct.
Print Assumptions C211_date_refuted.
Print Assumptions C211_month_partial.
Print Assumptions C211_december_refuted.
Print Assumptions C211_next_series_refuted.
Print Assumptions C212_width.

Print Assumptions C212_clock.
