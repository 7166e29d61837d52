(** C315: loading a serialized Prophet model *)
From Coq Require Import List Ascii Bool Arith Lia ZArith QArith.
From Verif Require Import ProphetLoadModel.
Import ListNotations.
Open Scope nat_scope.

(** ** Specification *)
Definition is_digit (c : ascii) : Prop := 48 <= nat_of_ascii c <= 57.
(** letters and the underscore *)
Definition is_letter (c : ascii) : Prop :=
  65 <= nat_of_ascii c <= 90 \/ 97 <= nat_of_ascii c <= 122 \/ nat_of_ascii c = 95.
Definition numeral (l : list ascii) : Prop := l <> [] /\ Forall is_digit l.
(** a time as it is written in the text of a data frame: its fields, the fraction of the second, what follows it *)
Record time := Time { year : list ascii; month : list ascii; day : list ascii; hour : list ascii; minute : list ascii; second : list ascii;
                      fraction : list ascii; mark : list ascii }.
Definition wf (t : time) : Prop :=
  numeral (year t) /\ numeral (month t) /\ numeral (day t) /\ numeral (hour t) /\ numeral (minute t) /\ numeral (second t) /\ numeral (fraction t).
Definition show (t : time) : list ascii :=
  quote :: year t ++ "-"%char :: month t ++ "-"%char :: day t ++ "T"%char :: hour t ++ ":"%char :: minute t ++ ":"%char :: second t ++
  "."%char :: fraction t ++ mark t ++ [backslash; quote].
(** text without a quotation mark followed by a digit *)
Definition plain (l : list ascii) : Prop := forall a c b, l = a ++ quote :: c :: b -> ~ is_digit c.
(** a text: its times, each followed by other text *)
Definition text (p : list ascii) (ts : list (time * list ascii)) : list ascii :=
  p ++ flat_map (fun x => show (fst x) ++ snd x) ts.
Definition unmarked (t : time) : time := Time (year t) (month t) (day t) (hour t) (minute t) (second t) (fraction t) [].
Definition shortened (t : time) : time := Time (year t) (month t) (day t) (hour t) (minute t) (second t) (removelast (fraction t)) (mark t).
(** the value of a fraction *)
Definition digit_value (c : ascii) : Z := (Z.of_nat (nat_of_ascii c) - 48)%Z.
Fixpoint fraction_value (l : list ascii) : Q := match l with [] => 0 | c :: l => (inject_Z (digit_value c) + fraction_value l) * (1 # 10) end%Q.

(** ** Lemmas *)
Lemma digit_iff c : digit c = true <-> is_digit c.
Proof. unfold digit, is_digit. rewrite andb_true_iff, !Nat.leb_le. reflexivity. Qed.
Lemma is_iff c x : is c x = true <-> c = x.
Proof. apply Ascii.eqb_eq. Qed.
Lemma is_refl c : is c c = true.
Proof. apply is_iff. reflexivity. Qed.
Lemma span_digits l c r : Forall is_digit l -> ~ is_digit c -> span digit (l ++ c :: r) = (l, c :: r).
Proof.
  intros F N. induction F as [|x l D F IH]; cbn [app span].
  - destruct (digit c) eqn:E; [|reflexivity]. exfalso. apply N, digit_iff, E.
  - apply digit_iff in D. rewrite D, IH. reflexivity.
Qed.
Lemma digits_numeral l c r : numeral l -> ~ is_digit c -> digits (l ++ c :: r) = Some (l, c :: r).
Proof.
  intros [NE F] N. unfold digits. rewrite (span_digits l c r F N). destruct l; [congruence | reflexivity].
Qed.
Lemma field_numeral l c r : numeral l -> ~ is_digit c -> field c (l ++ c :: r) = Some (l ++ [c], r).
Proof. intros NU N. unfold field. rewrite (digits_numeral l c r NU N). cbn [bind fst snd lit]. rewrite is_refl. reflexivity. Qed.
Lemma nd_minus : ~ is_digit "-". Proof. unfold is_digit. cbn. lia. Qed.
Lemma nd_T : ~ is_digit "T". Proof. unfold is_digit. cbn. lia. Qed.
Lemma nd_colon : ~ is_digit ":". Proof. unfold is_digit. cbn. lia. Qed.
Lemma nd_dot : ~ is_digit ".". Proof. unfold is_digit. cbn. lia. Qed.
Lemma nd_backslash : ~ is_digit backslash. Proof. unfold is_digit. cbn. lia. Qed.
Lemma nd_letter c : is_letter c -> ~ is_digit c. Proof. unfold is_letter, is_digit. lia. Qed.

Definition head (t : time) : list ascii :=
  quote :: year t ++ "-"%char :: month t ++ "-"%char :: day t ++ "T"%char :: hour t ++ ":"%char :: minute t ++ ":"%char :: second t ++ ["."%char].
Lemma show_head t r : show t ++ r = head t ++ fraction t ++ mark t ++ backslash :: quote :: r.
Proof. unfold show, head. cbn [app]. repeat (rewrite <- app_assoc; cbn [app]). reflexivity. Qed.
Lemma stamp_show t c r : wf t -> ~ is_digit c -> stamp (head t ++ fraction t ++ c :: r) = Some (head t, fraction t, c :: r).
Proof.
  intros (Y & M & D & H & MI & S & F) N. unfold stamp, head. cbn [app lit]. rewrite is_refl. cbn [bind].
  repeat (rewrite <- app_assoc; cbn [app]).
  rewrite (field_numeral _ _ _ Y nd_minus). cbn [bind snd]. rewrite (field_numeral _ _ _ M nd_minus). cbn [bind snd].
  rewrite (field_numeral _ _ _ D nd_T). cbn [bind snd]. rewrite (field_numeral _ _ _ H nd_colon). cbn [bind snd].
  rewrite (field_numeral _ _ _ MI nd_colon). cbn [bind snd]. rewrite (field_numeral _ _ _ S nd_dot). cbn [bind snd].
  rewrite (digits_numeral _ _ _ F N). cbn [bind fst snd]. repeat (rewrite <- app_assoc; cbn [app]). reflexivity.
Qed.
Lemma word_letter c : is_letter c -> word c = true.
Proof.
  unfold is_letter, word. intro H. cbv zeta. rewrite !orb_true_iff, !andb_true_iff, !Nat.leb_le, Nat.eqb_eq. tauto.
Qed.
Lemma match_marked t c r : wf t -> mark t = [c] -> is_letter c -> match_at (show t ++ r) = Some (head t ++ fraction t, r).
Proof.
  intros W M L. unfold match_at. rewrite show_head, M. cbn [app]. rewrite (stamp_show t c _ W (nd_letter c L)). cbn [bind].
  rewrite (word_letter c L), !is_refl. reflexivity.
Qed.
Lemma match_unmarked t r : wf t -> mark t = [] -> 2 <= length (fraction t) -> match_at (show t ++ r) = Some (head t ++ removelast (fraction t), r).
Proof.
  intros W M L. unfold match_at. rewrite show_head, M. cbn [app]. rewrite (stamp_show t _ _ W nd_backslash). cbn [bind].
  apply Nat.leb_le in L. destruct r as [|q r]; rewrite ?L, !is_refl; cbn [andb].
  - reflexivity.
  - reflexivity.
Qed.
Lemma stamp_start l x : stamp l = Some x -> exists c b, l = quote :: c :: b /\ is_digit c.
Proof.
  unfold stamp. destruct l as [|q l]; [discriminate|]. cbn [lit]. destruct (is quote q) eqn:E; [|discriminate]. apply is_iff in E. subst q. cbn [bind].
  unfold field at 1, digits at 1. destruct l as [|c l]; [discriminate|]. cbn [span]. destruct (digit c) eqn:D; [|discriminate].
  intros _. exists c, l. split; [reflexivity | apply digit_iff, D].
Qed.
Lemma match_start l x : match_at l = Some x -> exists c b, l = quote :: c :: b /\ is_digit c.
Proof. unfold match_at. destruct (stamp l) as [p|] eqn:S; [|discriminate]. intros _. exact (stamp_start _ _ S). Qed.
(** the number of steps does not matter once it is enough *)
Lemma span_length p l : length (fst (span p l)) + length (snd (span p l)) = length l.
Proof. induction l as [|c l IH]; [reflexivity|]. cbn [span]. destruct (p c); [|reflexivity]. destruct (span p l). cbn in *. lia. Qed.
Lemma digits_length l a r : digits l = Some (a, r) -> length r < length l.
Proof.
  unfold digits. pose proof (span_length digit l). destruct (span digit l) as [[|x ds] r']; [discriminate|]. intro E. injection E as <- <-. cbn in *. lia.
Qed.
Lemma field_length c l a r : field c l = Some (a, r) -> length r < length l.
Proof.
  unfold field. destruct (digits l) as [[ds r0]|] eqn:D; [|discriminate]. cbn [bind fst snd]. destruct r0 as [|x r0]; [discriminate|]. cbn [lit].
  destruct (is c x); [|discriminate]. intro E. injection E as <- <-. apply digits_length in D. cbn in D. lia.
Qed.
Lemma stamp_length l h f r : stamp l = Some (h, f, r) -> length r < length l.
Proof.
  unfold stamp. destruct l as [|q l]; [discriminate|]. cbn [lit]. destruct (is quote q); [|discriminate]. cbn [bind].
  repeat (match goal with |- context [field ?c ?x] => destruct (field c x) as [[? ?]|] eqn:?; [|discriminate] end; cbn [bind snd fst]).
  match goal with |- context [digits ?x] => destruct (digits x) as [[? ?]|] eqn:?; [|discriminate] end. cbn [bind snd fst].
  intro E. injection E as <- <- <-. repeat match goal with H : field _ _ = _ |- _ => apply field_length in H end.
  match goal with H : digits _ = _ |- _ => apply digits_length in H end. cbn. lia.
Qed.
Lemma match_length l g r : match_at l = Some (g, r) -> length r < length l.
Proof.
  unfold match_at. destruct (stamp l) as [[[h f] r0]|] eqn:S; [|discriminate]. apply stamp_length in S. cbn [bind].
  destruct r0 as [|c [|b [|q r']]]; try discriminate.
  - destruct (_ && _); [|discriminate]. intro E. injection E as <- <-. cbn in *. lia.
  - destruct (_ && _); [intro E; injection E as <- <-; cbn in *; lia|]. destruct (_ && _); [|discriminate]. intro E. injection E as <- <-. cbn in *. lia.
Qed.
Lemma sub_enough : forall n m l, length l <= n -> length l <= m -> sub n l = sub m l.
Proof.
  induction n as [|n IH]; intros m l A B.
  - destruct l; [|cbn in A; lia]. destruct m; reflexivity.
  - destruct l as [|c t]; [destruct m; reflexivity|]. destruct m as [|m]; [cbn in B; lia|]. cbn [sub].
    destruct (match_at (c :: t)) as [[g r]|] eqn:M.
    + apply match_length in M. cbn in *. rewrite (IH m r) by lia. reflexivity.
    + cbn in *. rewrite (IH m t) by lia. reflexivity.
Qed.
Lemma strip_match l g r : match_at l = Some (g, r) -> strip l = g ++ backslash :: quote :: strip r.
Proof.
  intro M. unfold strip. destruct l as [|c t]; [discriminate|]. cbn [length sub]. rewrite M. apply match_length in M. cbn in M.
  rewrite (sub_enough (length t) (length r) r) by lia. reflexivity.
Qed.
Lemma strip_skip c t : match_at (c :: t) = None -> strip (c :: t) = c :: strip t.
Proof. intro M. unfold strip. cbn [length sub]. rewrite M. reflexivity. Qed.
(** plain text is kept, if what follows begins with a quotation mark or ends *)
Lemma strip_plain p r : plain p -> (forall c b, r = c :: b -> c = quote) -> strip (p ++ r) = p ++ strip r.
Proof.
  intros P R. induction p as [|c p IH]; [reflexivity|]. cbn [app].
  rewrite strip_skip.
  - rewrite IH; [reflexivity|]. intros a x b E. apply (P (c :: a) x b). rewrite E. reflexivity.
  - destruct (match_at (c :: p ++ r)) as [[g r']|] eqn:M; [|reflexivity]. exfalso. destruct (match_start _ _ M) as (x & b & E & D).
    injection E as -> E. destruct p as [|y p].
    + cbn in E. pose proof (R x b E) as ->. revert D. unfold is_digit. cbn. lia.
    + cbn in E. injection E as -> E. exact (P [] x p eq_refl D).
Qed.
Lemma flat_show_start (ts : list (time * list ascii)) c b : flat_map (fun x => show (fst x) ++ snd x) ts = c :: b -> c = quote.
Proof. destruct ts as [|[t p] ts]; [discriminate|]. cbn. intro E. injection E as <- _. reflexivity. Qed.
Lemma show_unmarked t : show (unmarked t) = head t ++ fraction t ++ [backslash; quote].
Proof. rewrite <- (app_nil_r (show (unmarked t))), show_head. reflexivity. Qed.
Lemma show_shortened t : mark t = [] -> show (shortened t) = head t ++ removelast (fraction t) ++ [backslash; quote].
Proof. intro M. rewrite <- (app_nil_r (show (shortened t))), show_head. cbn [mark shortened]. rewrite M. reflexivity. Qed.

(** ** Theorems *)
(** Times that end in a one-letter mark lose it, and nothing else of the text changes. *)
Theorem C315_marked : forall p ts, plain p ->
  (forall t q, In (t, q) ts -> wf t /\ (exists c, mark t = [c] /\ is_letter c) /\ plain q) ->
  strip (text p ts) = text p (map (fun x => (unmarked (fst x), snd x)) ts).
Proof.
  intros p ts P H. unfold text. rewrite strip_plain; [|exact P | apply flat_show_start]. f_equal.
  induction ts as [|[t q] ts IH]; [reflexivity|]. destruct (H t q (or_introl eq_refl)) as (W & (c & M & L) & PQ). cbn [flat_map map fst snd].
  rewrite <- app_assoc, (strip_match _ _ _ (match_marked t c _ W M L)). rewrite strip_plain; [|exact PQ | apply flat_show_start].
  rewrite IH by (intros; apply H; right; assumption). rewrite show_unmarked, <- !app_assoc. reflexivity.
Qed.
(** Times without a mark lose the last digit of the fraction of their second, if it has two or more. *)
Theorem C315_unmarked_refuted : forall p ts, plain p ->
  (forall t q, In (t, q) ts -> wf t /\ mark t = [] /\ 2 <= length (fraction t) /\ plain q) ->
  strip (text p ts) = text p (map (fun x => (shortened (fst x), snd x)) ts).
Proof.
  intros p ts P H. unfold text. rewrite strip_plain; [|exact P | apply flat_show_start]. f_equal.
  induction ts as [|[t q] ts IH]; [reflexivity|]. destruct (H t q (or_introl eq_refl)) as (W & M & L & PQ). cbn [flat_map map fst snd].
  rewrite <- app_assoc, (strip_match _ _ _ (match_unmarked t _ W M L)). rewrite strip_plain; [|exact PQ | apply flat_show_start].
  rewrite IH by (intros; apply H; right; assumption). rewrite (show_shortened t M), <- !app_assoc. reflexivity.
Qed.
(** Which moves the time back, unless that digit is a zero. *)
Theorem C315_moved : forall l, numeral l ->
  (fraction_value (removelast l) <= fraction_value l)%Q /\
  ((fraction_value (removelast l) == fraction_value l)%Q <-> last l "0"%char = "0"%char).
Proof.
  assert (Z0 : forall c, is_digit c -> (digit_value c = 0%Z <-> c = "0"%char)).
  { intros c D. unfold digit_value. split.
    - intro E. rewrite <- (ascii_nat_embedding c). replace (nat_of_ascii c) with 48; [reflexivity|]. unfold is_digit in D. lia.
    - intros ->. reflexivity. }
  intros l [NE F]. induction F as [|c l D F IH]; [congruence|]. destruct l as [|c' l].
  - cbn [removelast fraction_value last]. rewrite <- (Z0 c D). assert (0 <= digit_value c)%Z by (unfold digit_value, is_digit in *; lia).
    split.
    + unfold Qle. cbn. lia.
    + unfold Qeq. cbn. lia.
  - destruct IH as [A B]; [discriminate|].
    change (removelast (c :: c' :: l)) with (c :: removelast (c' :: l)). change (last (c :: c' :: l) "0"%char) with (last (c' :: l) "0"%char).
    set (x := c' :: l) in *. cbn [fraction_value]. rewrite <- B. split.
    + apply Qmult_le_compat_r; [|discriminate]. apply Qplus_le_r. exact A.
    + split; intro E.
      * apply Qmult_inj_r in E; [|discriminate]. apply Qplus_inj_l in E. exact E.
      * rewrite E. reflexivity.
Qed.
(** Text without times is kept, and so are times with an offset in place of a letter. *)
Theorem C315_plain : forall p, plain p -> strip p = p.
Proof.
  intros p P. rewrite <- (app_nil_r p) at 1. rewrite strip_plain; [|exact P | discriminate]. apply app_nil_r.
Qed.
Theorem C315_offset_refuted : forall p t o q, plain p -> wf t -> mark t = "+"%char :: o -> ~ In quote o -> plain (quote :: q) ->
  strip (text p [(t, q)]) = text p [(t, q)].
Proof.
  intros p t o q P W M O Q. unfold text. rewrite strip_plain; [|exact P | apply flat_show_start]. f_equal. cbn [flat_map fst snd]. rewrite app_nil_r.
  rewrite show_head, M. set (rest := o ++ backslash :: quote :: q).
  assert (N : match_at (head t ++ fraction t ++ "+"%char :: rest) = None).
  { unfold match_at. rewrite (stamp_show t "+"%char rest W ltac:(unfold is_digit; cbn; lia)). cbn [bind]. destruct rest as [|b [|x r]]; reflexivity. }
  change ((("+"%char :: o) ++ backslash :: quote :: q)) with ("+"%char :: rest).
  unfold head in *. cbn [app] in *. rewrite (strip_skip _ _ N). f_equal.
  (* no further quotation mark before the last *)
  assert (K : forall l r, ~ In quote l -> strip (l ++ r) = l ++ strip r).
  { induction l as [|c l IH]; intros r H; [reflexivity|]. cbn [app]. rewrite strip_skip.
    - rewrite IH; [reflexivity|]. intro I. apply H. right. exact I.
    - destruct (match_at (c :: l ++ r)) as [x|] eqn:X; [|reflexivity]. exfalso. destruct (match_start _ _ X) as (y & b & E & _). injection E as -> _.
      apply H. left. reflexivity. }
  assert (NQ : forall l, numeral l -> ~ In quote l).
  { intros l [_ F] I. rewrite Forall_forall in F. specialize (F _ I). revert F. unfold is_digit. cbn. lia. }
  destruct W as (Y & MO & D & H & MI & S & F). apply NQ in Y, MO, D, H, MI, S, F.
  assert (END : strip (backslash :: quote :: q) = backslash :: quote :: q).
  { apply C315_plain. intros a c b E. destruct a as [|x a]; [discriminate|]. cbn in E. injection E as <- E. exact (Q a c b E). }
  pose proof (K (year t ++ "-"%char :: month t ++ "-"%char :: day t ++ "T"%char :: hour t ++ ":"%char :: minute t ++ ":"%char :: second t ++ "."%char :: fraction t ++ "+"%char :: o) (backslash :: quote :: q)) as G.
  unfold rest. repeat (rewrite <- app_assoc in G; cbn [app] in G). repeat (rewrite <- app_assoc; cbn [app]). rewrite G.
  - rewrite END. reflexivity.
  - intro I. repeat (apply in_app_or in I as [I|I]; [contradiction|]; destruct I as [I|I]; [discriminate I|]). contradiction.
Qed.
(** A text that the library reads is not touched; another is read again without the marks, and its start without a time zone. *)
Theorem C315_load : forall M (parse : list ascii -> option M) localize p ts m, plain p ->
  (forall t q, In (t, q) ts -> wf t /\ (exists c, mark t = [c] /\ is_letter c) /\ plain q) ->
  (parse (text p ts) = Some m -> load parse localize (text p ts) = Some m)
  /\ (parse (text p ts) = None -> load parse localize (text p ts) = option_map localize (parse (text p (map (fun x => (unmarked (fst x), snd x)) ts)))).
Proof.
  intros M parse localize p ts m P H. unfold load. split; intros ->; [reflexivity|]. rewrite C315_marked by assumption. reflexivity.
Qed.
Definition example (f mk : list ascii) : time := Time ["2";"0"]%char ["1"]%char ["3"]%char ["0"]%char ["5"]%char ["9"]%char f mk.
Example C315_case :
  wf (example ["1"; "2"; "3"] ["Z"])%char /\ is_letter "Z" /\ plain ["a"; quote; ","]%char
  /\ strip (text ["a"%char] [(example ["1"; "2"; "3"] ["Z"], [","])]%char) = text ["a"%char] [(example ["1"; "2"; "3"] [], [","])]%char
  /\ strip (text ["a"%char] [(example ["1"; "2"; "3"] [], [","])]%char) = text ["a"%char] [(example ["1"; "2"] [], [","])]%char
  /\ strip (text ["a"%char] [(example ["1"; "2"; "3"] ["+"; "0"], [","])]%char) = text ["a"%char] [(example ["1"; "2"; "3"] ["+"; "0"], [","])]%char.
Proof.
  split; [unfold wf, numeral, example, is_digit; cbn [year month day hour minute second fraction]; repeat split; try discriminate; repeat constructor; cbn; lia|].
  split; [unfold is_letter; cbn; lia|]. split.
  - intros a c b E. destruct a as [|x [|y [|z [|w a]]]]; cbn in E; try discriminate. injection E as _ <- _. unfold is_digit. cbn. lia.
  - vm_compute. repeat split.
Qed.

Print Assumptions C315_marked.
Print Assumptions C315_unmarked_refuted.
Print Assumptions C315_moved.
Print Assumptions C315_plain.
Print Assumptions C315_offset_refuted.
Print Assumptions C315_load.
