(** C293: the rows the autoregressive forecaster keeps of its series. *)
From Coq Require Import String.
From Coq Require Import List ZArith Bool Lia Sorted.
From Verif Require Import MlarGridModel.
Import ListNotations.
Open Scope Z_scope.

(** ** Specification *)
(** a frequency: [on f t] says that t is one of its times; [roll] finds the first one not before t, [next] the first one after t *)
Definition grid (f : freq) (on : Z -> Prop) : Prop :=
  (forall t, on (roll f t) /\ t <= roll f t /\ forall u, on u -> t <= u -> roll f t <= u) /\
  (forall t, on t -> on (next f t) /\ t < next f t /\ forall u, on u -> t < u -> next f t <= u).
Definition first_of (ts : list Z) (t : Z) : Prop := In t ts /\ forall u, In u ts -> t <= u.
Definition last_of (ts : list Z) (t : Z) : Prop := In t ts /\ forall u, In u ts -> u <= t.
Definition times {A} (s : series A) : list Z := map fst (rows s).

(** ** Lemmas *)
Lemma upto_spec f on fuel : grid f on -> forall t last, on t -> (Z.to_nat (last - t + 1) <= fuel)%nat ->
  StronglySorted Z.lt (upto f fuel t last) /\ forall u, In u (upto f fuel t last) <-> on u /\ t <= u <= last.
Proof.
  intros [_ N]. induction fuel as [|fuel IH]; intros t last O F; cbn [upto].
  - split; [constructor|]. intros u. split; [intros []|]. intros (_ & L). lia.
  - destruct (Z.ltb_spec last t) as [L|L]; [split; [constructor|]; intros u; split; [intros []|intros (_ & X); lia]|].
    destruct (N t O) as (O' & LT & LE). destruct (IH (next f t) last O') as [ST IN]; [lia|]. split.
    + constructor; [exact ST|]. apply Forall_forall. intros u Hu. apply IN in Hu. lia.
    + intros u. cbn [In]. rewrite IN. split.
      * intros [<-|(X & Y)]; [split; [exact O|lia]|split; [exact X|lia]].
      * intros (X & Y). destruct (Z.eq_dec t u) as [->|D]; [left; reflexivity|]. right. split; [exact X|]. specialize (LE u X). lia.
Qed.
Lemma date_range_spec f on a b : grid f on -> StronglySorted Z.lt (date_range f a b) /\ forall u, In u (date_range f a b) <-> on u /\ a <= u <= b.
Proof.
  intros G. destruct (proj1 G a) as (O & L & M). unfold date_range. destruct (upto_spec f on (Z.to_nat (b - a + 1)) G (roll f a) b O) as [ST IN]; [lia|]. split; [exact ST|]. intros u. rewrite IN. split; intros (X & Y); (split; [exact X|]); [lia|]. specialize (M u X). lia.
Qed.
Lemma min_first t ts : first_of (t :: ts) (fold_right Z.min t ts).
Proof. induction ts as [|u ts [I B]]; cbn [fold_right]; [split; [left; reflexivity|intros v [<-|[]]; lia]|]. split; [destruct (Z.min_spec u (fold_right Z.min t ts)) as [[_ ->]|[_ ->]]; [right; left; reflexivity|destruct I as [<-|I]; [left; reflexivity|right; right; exact I]]|]. intros v [<-|[<-|Hv]]; [specialize (B t (or_introl eq_refl))|idtac|specialize (B v (or_intror Hv))]; lia. Qed.
Lemma max_last t ts : last_of (t :: ts) (fold_right Z.max t ts).
Proof. induction ts as [|u ts [I B]]; cbn [fold_right]; [split; [left; reflexivity|intros v [<-|[]]; lia]|]. split; [destruct (Z.max_spec u (fold_right Z.max t ts)) as [[_ ->]|[_ ->]]; [destruct I as [<-|I]; [left; reflexivity|right; right; exact I]|right; left; reflexivity]|]. intros v [<-|[<-|Hv]]; [specialize (B t (or_introl eq_refl))|idtac|specialize (B v (or_intror Hv))]; lia. Qed.
Lemma first_unique l a b : first_of l a -> first_of l b -> a = b.
Proof. intros [I A] [J B]. specialize (A _ J). specialize (B _ I). lia. Qed.
Lemma last_unique l a b : last_of l a -> last_of l b -> a = b.
Proof. intros [I A] [J B]. specialize (A _ J). specialize (B _ I). lia. Qed.
Lemma has_dup_spec l : has_dup l = false <-> NoDup l.
Proof.
  induction l as [|t l IH]; cbn [has_dup]; [split; [constructor|reflexivity]|]. rewrite orb_false_iff, IH. split.
  - intros [E N]. constructor; [|exact N]. intros I. assert (existsb (Z.eqb t) l = true) by (apply existsb_exists; exists t; split; [exact I|apply Z.eqb_refl]). congruence.
  - intros N. apply NoDup_cons_iff in N as [I N]. split; [|exact N]. destruct (existsb (Z.eqb t) l) eqn:E; [|reflexivity]. apply existsb_exists in E as (u & J & E). apply Z.eqb_eq in E. subst u. contradiction.
Qed.
Lemma find_row_spec {A} (l : list (Z * A)) t a : NoDup (map fst l) -> (find_row l t = Some a <-> In (t, a) l).
Proof.
  induction l as [|[u b] l IH]; intros N; cbn [find_row map fst] in *; [split; [discriminate|intros []]|]. apply NoDup_cons_iff in N as [NI N]. destruct (Z.eqb_spec u t) as [->|D].
  - split; [intros E; left; congruence|]. intros [E|I]; [congruence|]. exfalso. apply NI. apply in_map_iff. exists (t, a). auto.
  - rewrite IH by exact N. split; [intros I; right; exact I|]. intros [E|I]; [congruence|exact I].
Qed.
Lemma find_row_none {A} (l : list (Z * A)) t : find_row l t = None <-> ~ In t (map fst l).
Proof. induction l as [|[u b] l IH]; cbn [find_row map fst In]; [tauto|]. destruct (Z.eqb_spec u t) as [->|D]; [split; [discriminate|tauto]|]. rewrite IH. tauto. Qed.

(** ** One series *)
(** a series is accepted exactly when it has the required columns, rows, and no time twice *)
Theorem C293_accepted : forall A required f (s : series A),
  check_single required f s <> None <-> (forall c, In c required -> In c (columns s)) /\ rows s <> [] /\ NoDup (times s).
Proof.
  intros A required f s. unfold check_single, times.
  assert (C : forallb (fun c => existsb (String.eqb c) (columns s)) required = true <-> forall c, In c required -> In c (columns s)).
  { rewrite forallb_forall. split; intros H c I; specialize (H c I); [apply existsb_exists in H as (d & J & E); apply String.eqb_eq in E; congruence|apply existsb_exists; exists c; split; [exact H|apply String.eqb_refl]]. }
  destruct (forallb _ required); cbn [negb]; [|split; [congruence|intros (H & _); apply C in H; discriminate]].
  destruct (map fst (rows s)) as [|t ts] eqn:M.
  - split; [congruence|]. intros (_ & R & _). destruct (rows s); [congruence|discriminate].
  - destruct (has_dup (t :: ts)) eqn:D.
    + split; [congruence|]. intros (_ & _ & N). apply has_dup_spec in N. congruence.
    + split; [|discriminate]. intros _. split; [apply C; reflexivity|]. split; [intros R; rewrite R in M; discriminate|]. apply has_dup_spec. exact D.
Qed.
(** its frame has one row for each time of the frequency between its first and last time, in order: the row of the series at that time,
    or NaN *)
Theorem C293_frame : forall A required f on (s : series A) first last fr,
  grid f on -> check_single required f s = Some fr -> first_of (times s) first -> last_of (times s) last ->
  StronglySorted Z.lt (map fst fr) /\
  (forall t, In t (map fst fr) <-> on t /\ first <= t <= last) /\
  (forall t a, In (t, Some a) fr <-> In (t, a) (rows s) /\ on t) /\
  (forall t, In (t, None) fr <-> (on t /\ first <= t <= last) /\ ~ In t (times s)).
Proof.
  intros A required f on s first last fr G H F L. pose proof (proj1 (C293_accepted A required f s) ltac:(rewrite H; discriminate)) as (_ & _ & ND). unfold check_single in H. unfold times in *. destruct (negb _); [discriminate|].
  destruct (map fst (rows s)) as [|t0 ts] eqn:M; [destruct F as [[] _]|]. destruct (has_dup (t0 :: ts)); [discriminate|].
  rewrite (first_unique _ _ _ (min_first t0 ts) F), (last_unique _ _ _ (max_last t0 ts) L) in H. injection H as <-. destruct (date_range_spec f on first last G) as [ST IN].
  rewrite map_map. cbn [fst]. rewrite map_id. split; [exact ST|]. split; [exact IN|]. rewrite <- M in *. split.
  - intros t a. rewrite in_map_iff. split.
    + intros (u & E & I). injection E as -> E. apply find_row_spec in E; [|exact ND]. apply IN in I. split; [exact E|apply I].
    + intros [I O]. exists t. split; [apply f_equal2; [reflexivity|]; apply find_row_spec; assumption|]. apply IN. split; [exact O|]. assert (J : In t (map fst (rows s))) by (apply in_map_iff; exists (t, a); auto). split; [apply F, J|apply L, J].
  - intros t. rewrite in_map_iff. split.
    + intros (u & E & I). injection E as -> E. apply find_row_none in E. split; [apply IN, I|exact E].
    + intros [I N]. exists t. split; [apply f_equal2; [reflexivity|]; apply find_row_none; exact N|]. apply IN, I.
Qed.
(** so a series on the grid loses no row *)
Theorem C293_kept : forall A required f on (s : series A) fr,
  grid f on -> check_single required f s = Some fr -> (forall t, In t (times s) -> on t) ->
  forall t a, In (t, Some a) fr <-> In (t, a) (rows s).
Proof.
  intros A required f on s fr G H O t a. assert (NE : rows s <> []) by (apply (C293_accepted A required f s); rewrite H; discriminate).
  assert (M : times s <> []) by (unfold times; destruct (rows s); [congruence|discriminate]). destruct (times s) as [|t0 ts] eqn:E; [congruence|].
  destruct (C293_frame A required f on s (fold_right Z.min t0 ts) (fold_right Z.max t0 ts) fr G H) as (_ & _ & K & _); [rewrite E; apply min_first|rewrite E; apply max_last|].
  rewrite K. split; [tauto|]. intros I. split; [exact I|]. apply O. rewrite <- E. unfold times. apply in_map_iff. exists (t, a). auto.
Qed.
(** rows off the grid are dropped without notice; a series with all its times off the grid has nothing but NaN *)
Theorem C293_dropped_refuted : forall A required f on (s : series A) fr t,
  grid f on -> check_single required f s = Some fr -> ~ on t -> ~ In t (map fst fr).
Proof.
  intros A required f on s fr t G H O I. assert (NE : rows s <> []) by (apply (C293_accepted A required f s); rewrite H; discriminate).
  assert (M : times s <> []) by (unfold times; destruct (rows s); [congruence|discriminate]). destruct (times s) as [|t0 ts] eqn:E; [congruence|].
  destruct (C293_frame A required f on s (fold_right Z.min t0 ts) (fold_right Z.max t0 ts) fr G H) as (_ & K & _); [rewrite E; apply min_first|rewrite E; apply max_last|]. apply K in I. tauto.
Qed.
(** ** All series *)
Lemma sorted_last l : StronglySorted Z.lt l -> forall t r, rev l = t :: r -> last_of l t.
Proof.
  intros ST t r E. assert (L : l = rev r ++ [t]) by (rewrite <- (rev_involutive l), E; reflexivity). subst l. clear E. split; [apply in_or_app; right; left; reflexivity|]. intros u Hu. apply in_app_or in Hu as [Hu|[<-|[]]]; [|lia].
  revert u Hu ST. induction (rev r) as [|x q IH]; intros u Hu ST; [destruct Hu|]. cbn [app] in ST. apply StronglySorted_inv in ST as [ST F]. destruct Hu as [->|Hu]; [|exact (IH u Hu ST)]. rewrite Forall_forall in F. specialize (F t (in_or_app q [t] t (or_intror (or_introl eq_refl)))). lia.
Qed.
Lemma frames_spec A required f on horizon (G : grid f on) : forall (l : list (series A)) frs ts, frames required f horizon l = Some (frs, ts) ->
  Forall2 (fun s fr => check_single required f s = Some fr /\ fr <> []) l frs /\
  forall t, In t ts <-> exists fr, In fr frs /\ (In t (map fst fr) \/ exists last i, last_of (map fst fr) last /\ In i horizon /\ t = Nat.iter i (next f) last).
Proof.
  induction l as [|s l IH]; intros frs ts H; cbn [frames] in H.
  - assert (frs = [] /\ ts = []) as [-> ->] by (split; congruence). split; [constructor|]. intros t. split; [intros []|intros (fr & [] & _)].
  - destruct (check_single required f s) as [fr|] eqn:C; [|discriminate]. destruct (rev (map fst fr)) as [|last r] eqn:E; [discriminate|]. destruct (frames required f horizon l) as [[frs1 ts1]|] eqn:FR; [|discriminate].
    assert (frs = fr :: frs1 /\ ts = map fst fr ++ forecast_times f last horizon ++ ts1) as [-> ->] by (split; congruence). clear H. destruct (IH _ _ eq_refl) as [F2 IN]. clear IH.
    assert (NE : fr <> []) by (intros ->; discriminate).
    assert (LO : last_of (map fst fr) last).
    { pose proof (proj1 (C293_accepted A required f s) ltac:(rewrite C; discriminate)) as (_ & NR & _). assert (M : times s <> []) by (unfold times; destruct (rows s); [congruence|discriminate]). destruct (times s) as [|t0 q] eqn:T; [congruence|].
      destruct (C293_frame A required f on s (fold_right Z.min t0 q) (fold_right Z.max t0 q) fr G C) as (ST & _); [rewrite T; apply min_first|rewrite T; apply max_last|]. exact (sorted_last _ ST _ _ E). }
    split; [constructor; [split; assumption|exact F2]|]. intros t. rewrite !in_app_iff, IN. unfold forecast_times. rewrite (in_map_iff (fun i => Nat.iter i (next f) last)). split.
    + intros [I|[(i & <- & I)|(fr' & I & X)]]; [exists fr; split; [left; reflexivity|left; exact I]|exists fr; split; [left; reflexivity|right; exists last, i; auto]|exists fr'; split; [right; exact I|exact X]].
    + intros (fr' & [<-|I] & X); [destruct X as [X|(last' & i & LO' & Hi & ->)]; [left; exact X|]; right; left; exists i; split; [|exact Hi]; rewrite (last_unique _ _ _ LO' LO); reflexivity|right; right; exists fr'; auto].
Qed.
(** every series is put on the grid of one frequency: the given one, or the one inferred from the first series, which is then kept *)
Theorem C293_one_frequency : forall A infer offset required horizon given (s : series A) l frs ts name,
  valid_and_fillna infer offset required horizon given (s :: l) = Some (frs, ts, name) ->
  (given = Some name \/ (given = None /\ exists inferred, infer (times s) = Some inferred /\ name = rename inferred)) /\
  exists f, offset name = Some f /\ Forall2 (fun s fr => check_single required f s = Some fr /\ fr <> []) (s :: l) frs.
Proof.
  intros A infer offset required horizon given s l frs ts name H. unfold valid_and_fillna in H. destruct (infer_freq infer (map fst (rows s)) given) as [nm|] eqn:I; [|discriminate]. destruct (offset nm) as [f|] eqn:O; [|discriminate].
  destruct (frames required f horizon (s :: l)) as [[frs1 ts1]|] eqn:F; [|discriminate]. assert (frs1 = frs /\ ts1 = ts /\ nm = name) as (-> & -> & ->) by (split; [|split]; congruence). split.
  - unfold infer_freq in I. destruct given as [g|]; [left; exact I|]. right. split; [reflexivity|]. unfold times. destruct (infer (map fst (rows s))) as [q|]; [|discriminate]. exists q. split; [reflexivity|congruence].
  - exists f. split; [exact O|]. clear - F. revert frs ts F. generalize (s :: l). clear s l. induction l as [|s l IH]; intros frs ts F; cbn [frames] in F; [assert (frs = []) as -> by congruence; constructor|].
    destruct (check_single required f s) as [fr|] eqn:C; [|discriminate]. destruct (rev (map fst fr)) as [|last r] eqn:E; [discriminate|]. destruct (frames required f horizon l) as [[frs1 ts1]|]; [|discriminate]. assert (frs = fr :: frs1) as -> by congruence. constructor; [split; [exact C|intros ->; discriminate]|exact (IH _ _ eq_refl)].
Qed.
(** the times with features are those of the frames and the forecast times after the end of each frame *)
Theorem C293_times : forall A infer offset required horizon given (data : list (series A)) frs ts name f on,
  valid_and_fillna infer offset required horizon given data = Some (frs, ts, name) -> offset name = Some f -> grid f on ->
  forall t, In t ts <-> exists fr, In fr frs /\ (In t (map fst fr) \/ exists last i, last_of (map fst fr) last /\ In i horizon /\ t = Nat.iter i (next f) last).
Proof.
  intros A infer offset required horizon given data frs ts name f on H O G. unfold valid_and_fillna in H. destruct data as [|s l]; [discriminate|]. destruct (infer_freq _ _ _) as [nm|]; [|discriminate]. destruct (offset nm) as [f'|] eqn:O'; [|discriminate].
  destruct (frames required f' horizon (s :: l)) as [[frs1 ts1]|] eqn:F; [|discriminate]. assert (frs1 = frs /\ ts1 = ts /\ nm = name) as (-> & -> & ->) by (split; [|split]; congruence). assert (f' = f) as -> by congruence. apply (frames_spec A required f on horizon G (s :: l) frs ts F).
Qed.
(** other frequencies than those for months, quarters and years are used as inferred *)
Theorem C293_rename : forall f, rename f = f \/ (In (rename f) ["M"; "Q"; "Y"]%string /\ In f ["BM"; "CBM"; "MS"; "BMS"; "CBMS"; "BQ"; "QS"; "BQS"; "A"; "BA"; "BY"; "AS"; "YS"; "BAS"; "BYS"]%string).
Proof.
  intros f. unfold rename.
  destruct (existsb (String.eqb f) ["BM"; "CBM"; "MS"; "BMS"; "CBMS"]%string) eqn:E1; [right; split; [left; reflexivity|]; apply existsb_exists in E1 as (g & I & E); apply String.eqb_eq in E; subst g; cbn [In] in *; tauto|].
  destruct (existsb (String.eqb f) ["BQ"; "QS"; "BQS"]%string) eqn:E2; [right; split; [right; left; reflexivity|]; apply existsb_exists in E2 as (g & I & E); apply String.eqb_eq in E; subst g; cbn [In] in *; tauto|].
  destruct (existsb (String.eqb f) ["A"; "BA"; "BY"; "AS"; "YS"; "BAS"; "BYS"]%string) eqn:E3; [right; split; [right; right; left; reflexivity|]; apply existsb_exists in E3 as (g & I & E); apply String.eqb_eq in E; subst g; cbn [In] in *; tauto|]. left. reflexivity.
Qed.
(** data at the starts of months: the frequency inferred, MS, is replaced by the ends of months, so no observation is left *)
Theorem C293_month_start_refuted : forall A infer offset required horizon (s : series A) l frs ts name starts ends f,
  infer (times s) = Some "MS"%string -> offset "M"%string = Some f -> grid f ends ->
  (forall t, starts t -> ~ ends t) -> (forall u t, In u (s :: l) -> In t (times u) -> starts t) ->
  valid_and_fillna infer offset required horizon None (s :: l) = Some (frs, ts, name) ->
  Forall (fun fr => fr <> [] /\ Forall (fun r => snd r = None) fr) frs.
Proof.
  intros A infer offset required horizon s l frs ts name starts ends f IN OF G DJ ST H. destruct (C293_one_frequency _ _ _ _ _ _ _ _ _ _ _ H) as [[X|(_ & q & Q1 & Q2)] (f' & O' & F2)]; [discriminate|].
  assert (q = "MS"%string) as -> by congruence. change (rename "MS") with "M"%string in Q2. subst name. assert (f' = f) as -> by congruence. clear - F2 G DJ ST. revert ST. generalize dependent (s :: l). clear s l. induction 1 as [|u fr l frs [C NE] F IH]; intros ST; constructor; [|apply IH; intros v t Hv; apply ST; right; exact Hv].
  split; [exact NE|]. apply Forall_forall. intros [t [a|]] I; [|reflexivity]. exfalso.
  pose proof (proj1 (C293_accepted A required f u) ltac:(rewrite C; discriminate)) as (_ & NR & _). assert (M : times u <> []) by (unfold times; destruct (rows u); [congruence|discriminate]). destruct (times u) as [|t0 q] eqn:T; [congruence|].
  destruct (C293_frame A required f ends u (fold_right Z.min t0 q) (fold_right Z.max t0 q) fr G C) as (_ & _ & K & _); [rewrite T; apply min_first|rewrite T; apply max_last|]. apply K in I as [I E]. apply (DJ t); [|exact E]. apply (ST u t (or_introl eq_refl)). unfold times. apply in_map_iff. exists (t, a). auto.
Qed.

(** months of thirty days: three observations at their starts; two rows of NaN are left *)
Definition month_end : freq := Freq (fun t => t + (29 - t) mod 30) (fun t => t + 30).
Lemma month_end_grid : grid month_end (fun t => t mod 30 = 29).
Proof.
  split.
  - intros t. cbn [roll month_end]. pose proof (Z.mod_pos_bound (29 - t) 30 ltac:(lia)) as B. split; [|split; [lia|]].
    + rewrite (Z.div_mod (29 - t) 30) in B by lia. replace (t + (29 - t) mod 30) with (29 + (- ((29 - t) / 30)) * 30); [rewrite Z.mod_add by lia; reflexivity|]. pose proof (Z.div_mod (29 - t) 30 ltac:(lia)). lia.
    + intros u U L. pose proof (Z.div_mod u 30 ltac:(lia)). pose proof (Z.div_mod (29 - t) 30 ltac:(lia)). nia.
  - intros t T. cbn [next month_end]. split; [replace (t + 30) with (t + 1 * 30) by lia; rewrite Z.mod_add by lia; exact T|]. split; [lia|]. intros u U L. pose proof (Z.div_mod u 30 ltac:(lia)). pose proof (Z.div_mod t 30 ltac:(lia)). nia.
Qed.
Example C293_case :
  valid_and_fillna (fun _ => Some "MS"%string) (fun n => if String.eqb n "M" then Some month_end else None) ["y"%string] [1; 2]%nat None
    [Series ["y"%string] [(0, 5); (30, 6); (60, 7)]]
  = Some ([[(29, None); (59, None)]], [29; 59; 89; 119], "M"%string).
Proof. reflexivity. Qed.
(** the same rows on the grid of days: all kept, a missing day filled with NaN *)
Example C293_case_kept :
  check_single ["y"%string] (Freq (fun t => t) (fun t => t + 1)) (Series ["y"%string] [(0, 5); (1, 6); (3, 7)])
  = Some [(0, Some 5); (1, Some 6); (2, None); (3, Some 7)].
Proof. reflexivity. Qed.

(** Parameters without a frequency that are used for several datasets have the frequency of the first dataset it could be
    inferred for: that and all later datasets are put on its grid, whatever their own frequency is. *)
Lemma shared_given A infer offset required horizon name : forall (datas : list (list (series A))),
  shared infer offset required horizon (Some name) datas = map (valid_and_fillna infer offset required horizon (Some name)) datas.
Proof. induction datas as [|d datas IH]; [reflexivity|]. cbn [shared map]. rewrite <- IH. destruct d; reflexivity. Qed.
Theorem C293_shared : forall A infer offset required horizon (s : series A) l datas inferred,
  infer (times s) = Some inferred ->
  shared infer offset required horizon None ((s :: l) :: datas)
  = map (valid_and_fillna infer offset required horizon (Some (rename inferred))) ((s :: l) :: datas).
Proof.
  intros A infer offset required horizon s l datas inferred I. cbn [shared map freq_after].
  unfold infer_freq. unfold times in I. rewrite I, shared_given. f_equal. unfold valid_and_fillna, infer_freq. rewrite I. reflexivity.
Qed.
(** So the frame of a dataset depends on the datasets before it: hourly values, then daily ones. *)
Definition two_rates (ts : list Z) : option string :=
  match ts with a :: b :: _ => if b - a =? 1 then Some "H"%string else if b - a =? 4 then Some "D"%string else None | _ => None end.
Definition two_grids (name : string) : option freq :=
  if String.eqb name "H" then Some (Freq (fun t => t) (fun t => t + 1))
  else if String.eqb name "D" then Some (Freq (fun t => t + (- t) mod 4) (fun t => t + 4)) else None.
Theorem C293_shared_refuted :
  shared two_rates two_grids ["y"%string] [1]%nat None [[Series ["y"%string] [(0, 5); (4, 6); (8, 7)]]]
  = [Some ([[(0, Some 5); (4, Some 6); (8, Some 7)]], [0; 4; 8; 12], "D"%string)] /\
  shared two_rates two_grids ["y"%string] [1]%nat None [[Series ["y"%string] [(0, 1); (1, 2)]]; [Series ["y"%string] [(0, 5); (4, 6); (8, 7)]]]
  = [Some ([[(0, Some 1); (1, Some 2)]], [0; 1; 2], "H"%string);
     Some ([[(0, Some 5); (1, None); (2, None); (3, None); (4, Some 6); (5, None); (6, None); (7, None); (8, Some 7)]], [0; 1; 2; 3; 4; 5; 6; 7; 8; 9], "H"%string)].
Proof. split; reflexivity. Qed.

Print Assumptions C293_accepted.
Print Assumptions C293_frame.
Print Assumptions C293_kept.
Print Assumptions C293_dropped_refuted.
Print Assumptions C293_one_frequency.
Print Assumptions C293_times.
Print Assumptions C293_rename.
Print Assumptions C293_month_start_refuted.

Print Assumptions C293_shared.
Print Assumptions C293_shared_refuted.
