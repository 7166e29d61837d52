(** C321: the data sets that come with the package — specification, proofs and theorems. *)
From Coq Require Import List Bool Arith String Ascii Lia.
From Verif Require Import LoadDataModel.
Import ListNotations.
Open Scope string_scope.
Open Scope nat_scope.

(** ** Specification *)
(** the letters of [s] and [t] are the same up to their case *)
Inductive same_letters : string -> string -> Prop :=
| same_nil : same_letters "" ""
| same_cons c d s t : c = d \/ (exists k, k < 26 /\ nat_of_ascii c = 65 + k /\ nat_of_ascii d = 97 + k) -> same_letters s t -> same_letters (String c s) (String d t).
(** the directory has "kats" in its path, in small or capital letters *)
Definition in_kats (cwd : string) : Prop := exists a m b, cwd = a ++ m ++ b /\ same_letters m "kats".
(** the data files of a package, all of them in its directory data *)
Definition laid_out (p : package) : Prop := NoDup (map fst p) /\ forall f t, In (f, t) p -> exists name, f = "data/" ++ name.

(** ** Proofs *)
Lemma prefix_spec p s : String.prefix p s = true <-> exists b, s = p ++ b.
Proof.
  revert s. induction p as [|c p IH]; intros s; [cbn; split; [intros _; exists s; reflexivity | intros _; destruct s; reflexivity] |].
  destruct s as [|d s]; cbn [String.prefix]; [split; [discriminate | intros (b & H); discriminate] |]. destruct (ascii_dec c d) as [->|N].
  - rewrite IH. split; intros (b & H); exists b; [rewrite H; reflexivity | cbn in H; congruence].
  - split; [discriminate | intros (b & H); cbn in H; congruence].
Qed.
Lemma contains_spec p s : contains p s = true <-> exists a b, s = a ++ p ++ b.
Proof.
  induction s as [|c s IH]; cbn [contains]; rewrite orb_true_iff, prefix_spec.
  - split; [intros [(b & H)|H]; [exists "", b; exact H | discriminate] |]. intros (a & b & H). left. exists b. destruct a; [exact H | discriminate].
  - rewrite IH. split.
    + intros [(b & H)|(a & b & H)]; [exists "", b; exact H | exists (String c a), b; cbn; congruence].
    + intros (a & b & H). destruct a as [|d a]; [left; exists b; exact H | right; exists a, b; cbn in H; congruence].
Qed.
Lemma lower_app a b : lower (a ++ b) = lower a ++ lower b.
Proof. induction a as [|c a IH]; cbn; [reflexivity | rewrite IH; reflexivity]. Qed.
Lemma lower_split s a b : lower s = a ++ b -> exists x y, s = x ++ y /\ lower x = a /\ lower y = b.
Proof.
  revert a. induction s as [|c s IH]; intros a H.
  - destruct a; [| discriminate]. exists "", "". cbn in *. auto.
  - destruct a as [|d a]; [exists "", (String c s); auto |]. cbn in H. injection H as E H. destruct (IH a H) as (x & y & -> & X & Y). exists (String c x), y. cbn. split; [reflexivity |]. split; [congruence | exact Y].
Qed.
Lemma lower_char_spec c d : 97 <= nat_of_ascii d <= 122 -> lower_char c = d <-> c = d \/ (exists k, k < 26 /\ nat_of_ascii c = 65 + k /\ nat_of_ascii d = 97 + k).
Proof.
  intros D. unfold lower_char. destruct ((65 <=? nat_of_ascii c) && (nat_of_ascii c <=? 90)) eqn:E.
  - apply andb_true_iff in E. destruct E as (E1 & E2). apply Nat.leb_le in E1, E2. split.
    + intros <-. right. exists (nat_of_ascii c - 65). rewrite nat_ascii_embedding by lia. lia.
    + intros [->|(k & K & C & D')]; [lia |]. rewrite <- (ascii_nat_embedding d). f_equal. lia.
  - split; [intros ->; left; reflexivity |]. intros [H|(k & K & C & _)]; [exact H |]. exfalso. apply andb_false_iff in E. destruct E as [E|E]; apply Nat.leb_gt in E; lia.
Qed.
Lemma same_kats m : same_letters m "kats" <-> lower m = "kats".
Proof.
  assert (G : forall t, (forall i c, String.get i t = Some c -> 97 <= nat_of_ascii c <= 122) -> forall m, same_letters m t <-> lower m = t).
  { clear m. induction t as [|d t IH]; intros H m.
    - destruct m as [|c m]; [split; [reflexivity | intros _; constructor] | split; [intros X; inversion X | discriminate]].
    - assert (D : 97 <= nat_of_ascii d <= 122) by (apply (H 0 d); reflexivity). assert (T : forall i c, String.get i t = Some c -> 97 <= nat_of_ascii c <= 122) by (intros i c E; apply (H (S i) c); exact E).
      destruct m as [|c m]; [split; [intros X; inversion X | discriminate] |]. cbn [lower]. split.
      + intros X. inversion X as [|? ? ? ? C S]; subst. apply (lower_char_spec c d D) in C. apply (IH T) in S. congruence.
      + intros X. injection X as C S. constructor; [apply lower_char_spec; assumption | apply IH; assumption]. }
  apply G. intros i c E. do 4 (destruct i as [|i]; [injection E as <-; cbv; lia |]). destruct i; discriminate.
Qed.
Lemma in_kats_spec cwd : contains "kats" (lower cwd) = true <-> in_kats cwd.
Proof.
  rewrite contains_spec. unfold in_kats. split.
  - intros (a & b & H). apply lower_split in H. destruct H as (x & y & -> & _ & H). apply lower_split in H. destruct H as (m & z & -> & M & _). exists x, m, z. split; [reflexivity | apply same_kats; exact M].
  - intros (a & m & b & -> & M). apply same_kats in M. exists (lower a), (lower b). rewrite !lower_app, M. reflexivity.
Qed.
Lemma get_data_spec p path t : NoDup (map fst p) -> get_data p path = Some t <-> In (path, t) p.
Proof.
  induction p as [|[f u] p IH]; intros N; cbn [get_data]; [split; [discriminate | intros []] |]. cbn in N. inversion N as [|x l NI ND]; subst. destruct (String.eqb_spec f path) as [->|NE].
  - split; [intros H; injection H as ->; left; reflexivity |]. intros [H|H]; [congruence |]. destruct NI. apply (in_map fst) in H. exact H.
  - rewrite (IH ND). split; [right; assumption | intros [H|H]; [congruence | exact H]].
Qed.

(** ** Theorems *)
(** C321.  From a directory with "kats" in its path, each data file of the package is found, and nothing else. *)
Theorem C321_found_partial : forall p cwd name t, laid_out p -> in_kats cwd -> load_data p cwd name false = Some t <-> In ("data/" ++ name, t) p.
Proof.
  intros p cwd name t (N & _) K. unfold load_data. rewrite (proj2 (in_kats_spec cwd) K). rewrite <- (get_data_spec p _ t N). destruct (get_data p ("data/" ++ name)); reflexivity.
Qed.
(** From any other directory none of them is found. *)
Theorem C321_elsewhere_refuted : forall p cwd name reset, laid_out p -> ~ in_kats cwd -> load_data p cwd name reset = None.
Proof.
  intros p cwd name reset (N & L) K. unfold load_data. destruct (contains "kats" (lower cwd)) eqn:E; [destruct K; apply in_kats_spec; exact E |].
  destruct (get_data p ("kats/data/" ++ name)) as [t|] eqn:G; [| reflexivity]. apply (get_data_spec p _ t N) in G. destruct (L _ _ G) as (x & H). discriminate.
Qed.
(** Renaming the columns changes nothing else, and is refused exactly if there are not two of them. *)
Theorem C321_columns : forall p cwd name t, load_data p cwd name false = Some t ->
  (forall t', load_data p cwd name true = Some t' <-> List.length (t_columns t) = 2 /\ t_columns t' = ["time"; "y"] /\ t_rows t' = t_rows t).
Proof.
  intros p cwd name t H t'. unfold load_data in *. destruct (get_data p _) as [u|]; [| discriminate]. injection H as ->. unfold set_columns. cbn [List.length]. destruct (Nat.eqb_spec (List.length (t_columns t)) 2) as [E|E].
  - split; [intros H; injection H as <-; auto | intros (_ & C & R); destruct t'; cbn in *; congruence].
  - split; [discriminate | intros (H & _); contradiction].
Qed.
(** The air passengers are the rows of their file with the columns time and y, as a table or as a series. *)
Theorem C321_air_passengers : forall (T : Type) (make : table -> option T) p cwd c1 c2 rows, laid_out p -> in_kats cwd ->
  In ("data/air_passengers.csv", {| t_columns := [c1; c2]; t_rows := rows |}) p ->
  load_air_passengers make p cwd false = Some (inl {| t_columns := ["time"; "y"]; t_rows := rows |}) /\
  load_air_passengers make p cwd true = option_map inr (make {| t_columns := ["time"; "y"]; t_rows := rows |}).
Proof.
  intros T make p cwd c1 c2 rows L K I. apply (C321_found_partial p cwd "air_passengers.csv" _ L K) in I. unfold load_air_passengers. rewrite I. split; reflexivity.
Qed.
Definition demo_package : package := [("data/air_passengers.csv", {| t_columns := ["ds"; "y"]; t_rows := [["1949-01-01"; "112"]; ["1949-02-01"; "118"]] |});
  ("data/multi_ts.csv", {| t_columns := ["time"; "V1"; "V2"]; t_rows := [] |})].
Example C321_case : laid_out demo_package /\ in_kats "/home/me/Kats/tutorials" /\ ~ in_kats "/home/me" /\
  load_data demo_package "/home/me/Kats/tutorials" "multi_ts.csv" true = None /\ load_data demo_package "/home/me/Kats/tutorials" "air_passengers.csv" true <> None.
Proof.
  split; [split; [repeat constructor; cbn; intuition discriminate | intros f t [H|[H|[]]]; injection H as <- _; [exists "air_passengers.csv" | exists "multi_ts.csv"]; reflexivity] |].
  split; [apply in_kats_spec; reflexivity |]. split; [rewrite <- in_kats_spec; discriminate |]. split; [reflexivity | discriminate].
Qed.

Print Assumptions C321_found_partial.
Print Assumptions C321_elsewhere_refuted.
Print Assumptions C321_columns.
Print Assumptions C321_air_passengers.
