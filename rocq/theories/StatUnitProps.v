(** Properties of the time unit of the significance detectors (C312). *)
From Coq Require Import String Permutation.
From Verif Require Import Common PySlice TSDataModel TSDataProofs StatSigModel StatUnitModel.
Open Scope Z_scope.

(** ** Specification *)
(** the answer of the detector whose windows are measured in [u] *)
Definition answer {V S} (T : list V -> list V -> S) zero nc nt (u : Z) (c : call) : option (list (Z * S)) :=
  match rows (c_data c) with
  | [] => None
  | l => Some (fst (fit_predict T zero nc nt u (option_map rows (c_hist c)) l))
  end.

(** the gap of a call: of its data, or of its history when there are fewer than three points *)
Definition gap_of {V} (c : call (V := V)) (g : Z) : Prop :=
  (3 <= List.length (rows (c_data c)) /\ infer_freq_robust (c_data c) = Some g)%nat
  \/ (List.length (rows (c_data c)) < 3
      /\ exists h, c_hist c = Some h /\ 3 <= List.length (rows h) /\ infer_freq_robust h = Some g)%nat.
Definition gapless {V} (c : call (V := V)) : Prop :=
  (List.length (rows (c_data c)) < 3)%nat
  /\ (forall h, c_hist c = Some h -> List.length (rows h) < 3)%nat.

(** the texts of gaps can be read back *)
Definition readable (full : string -> option Z) (show : Z -> string) (g : Z) : Prop :=
  full (show g) = Some g /\ show g <> ""%string.

(** ** Lemmas *)
Lemma normalise_again full bare s t : normalise full bare s = Some t -> normalise full bare t = Some t /\ exists u, full t = Some u.
Proof.
  unfold normalise. destruct (full s) as [u|] eqn:E.
  - intro H. injection H as <-. rewrite E. eauto.
  - destruct (bare s); [|discriminate]. destruct (full ("1" ++ s)%string) as [u|] eqn:E1; [|discriminate].
    intro H. assert (H' : t = ("1" ++ s)%string) by congruence. rewrite H', E1. eauto.
Qed.

Lemma infer_some {A} (s : series A) : (3 <= List.length (rows s))%nat -> exists g, infer_freq_robust s = Some g.
Proof.
  intro L. unfold infer_freq_robust. destruct (Nat.leb_spec (List.length (rows s)) 1) as [?|_]; [lia|].
  assert (D : (2 <= List.length (if sort_flag s then times s else map fst (sort_rows (rows s))))%nat).
  { destruct (sort_flag s); [unfold times; rewrite map_length; lia|].
    rewrite map_length. rewrite <- (Permutation_length (sort_rows_perm (rows s))). lia. }
  destruct (if sort_flag s then times s else map fst (sort_rows (rows s))) as [|a [|b l]]; cbn in D; [lia|lia|].
  cbn [diffs mode0]. eauto.
Qed.

Lemma inferred_spec {V} (c : call (V := V)) :
  match inferred c with Some g => gap_of c g | None => gapless c end.
Proof.
  unfold inferred, gap_of, gapless.
  destruct (Nat.leb_spec 3 (List.length (rows (c_data c)))) as [L|L].
  - destruct (infer_some _ L) as [g E]. rewrite E. left. split; [exact L | reflexivity].
  - destruct (c_hist c) as [h|].
    + destruct (Nat.leb_spec 3 (List.length (rows h))) as [Lh|Lh].
      * destruct (infer_some _ Lh) as [g E]. rewrite E. right. split; [exact L|]. exists h. auto.
      * split; [exact L|]. intros h' H. injection H as <-. exact Lh.
    + split; [exact L|]. intros h' H. discriminate H.
Qed.

Lemma gap_inferred {V} (c : call (V := V)) g : gap_of c g -> inferred c = Some g.
Proof.
  unfold inferred. intros [[L E] | (L & h & Eh & Lh & E)].
  - destruct (Nat.leb_spec 3 (List.length (rows (c_data c)))); [exact E | lia].
  - destruct (Nat.leb_spec 3 (List.length (rows (c_data c)))); [lia|]. rewrite Eh.
    destruct (Nat.leb_spec 3 (List.length (rows h))); [exact E | lia].
Qed.
Lemma gapless_inferred {V} (c : call (V := V)) : gapless c -> inferred c = None.
Proof.
  intros [L H]. unfold inferred. destruct (Nat.leb_spec 3 (List.length (rows (c_data c)))); [lia|].
  destruct (c_hist c) as [h|]; [|reflexivity]. specialize (H h eq_refl).
  destruct (Nat.leb_spec 3 (List.length (rows h))); [lia | reflexivity].
Qed.

Section Main.
  Context {V S : Type}.
  Variable T : list V -> list V -> S.
  Variable zero : S.
  Variables nc nt : Z.
  Variables full bare : string -> option Z.
  Variable show : Z -> string.
  Notation call1 := (fit_predict_call T zero nc nt full bare show).
  Notation run := (calls T zero nc nt full bare show).
  Notation ans := (answer T zero nc nt).

  Lemma call_set s u c : s <> ""%string -> full s = Some u -> call1 (Some s) c = (Some s, ans u c).
  Proof.
    intros N E. unfold fit_predict_call, set_time_unit. destruct s as [|a s]; [congruence|].
    unfold normalise. cbv beta iota zeta. rewrite E. unfold answer. destruct (rows (c_data c)); [reflexivity|]. rewrite E. reflexivity.
  Qed.
  Lemma run_set s u l : s <> ""%string -> full s = Some u -> run (Some s) l = (Some s, map (ans u) l).
  Proof.
    intros N E. induction l as [|c l IH]; [reflexivity|].
    cbn [calls map]. rewrite (call_set s u c N E), IH. reflexivity.
  Qed.
  Lemma call_gap g c : readable full show g -> gap_of c g -> call1 None c = (Some (show g), ans g c).
  Proof.
    intros [E N] G. rewrite <- (call_set (show g) g c N E).
    unfold fit_predict_call, set_time_unit. rewrite (gap_inferred c g G). cbn [option_map].
    destruct (show g) as [|a s]; [congruence|]. reflexivity.
  Qed.
  Lemma call_gapless c : gapless c -> call1 None c = (None, None).
  Proof. intro G. unfold fit_predict_call, set_time_unit. rewrite (gapless_inferred c G). reflexivity. Qed.
  Lemma run_app : forall l1 l2 unit, run unit (l1 ++ l2) =
    (fst (run (fst (run unit l1)) l2), snd (run unit l1) ++ snd (run (fst (run unit l1)) l2)).
  Proof.
    induction l1 as [|c l1 IH]; intros l2 unit; cbn [calls app].
    - cbn. destruct (run unit l2); reflexivity.
    - destruct (call1 unit c) as [u r]. rewrite IH. destruct (run u l1) as [u1 rs1]. cbn.
      destruct (run u1 l2); reflexivity.
  Qed.
  Lemma run_gapless : forall l, Forall gapless l -> run None l = (None, map (fun _ => None) l).
  Proof.
    induction l as [|c l IH]; intro F; [reflexivity|]. inversion F as [|? ? G F']; subst.
    cbn [calls map]. rewrite (call_gapless c G), (IH F'). reflexivity.
  Qed.
End Main.

(** ** C312 *)
(** A detector with a unit of its own measures the windows of every call in it. *)
Theorem C312_given : forall V S (T : list V -> list V -> S) zero nc nt full bare show s d,
  full ""%string = None -> bare ""%string = None ->
  new_detector full bare (Some s) = Some d ->
  exists u, (full s = Some u \/ full s = None /\ bare s <> None /\ full ("1" ++ s)%string = Some u)
  /\ forall l, snd (calls T zero nc nt full bare show d l) = map (answer T zero nc nt u) l.
Proof.
  intros V S T zero nc nt full bare show s d E0 E1 H. cbn in H. unfold normalise in H.
  destruct (full s) as [u|] eqn:E.
  - injection H as <-. exists u. split; [left; reflexivity|]. intro l.
    rewrite (run_set T zero nc nt full bare show s u l); [reflexivity | congruence | exact E].
  - destruct (bare s) as [v|] eqn:B; [|discriminate].
    destruct (full ("1" ++ s)%string) as [u|] eqn:E2; [|discriminate].
    cbn [option_map] in H. assert (H' : d = Some ("1" ++ s)%string) by congruence. rewrite H'.
    exists u. split; [right; repeat split; congruence|]. intro l.
    rewrite (run_set T zero nc nt full bare show ("1" ++ s)%string u l); [reflexivity | discriminate | exact E2].
Qed.

(** A text that is neither a duration nor the name of a unit is refused. *)
Theorem C312_invalid : forall full bare s, full s = None -> bare s = None -> new_detector full bare (Some s) = None.
Proof. intros full bare s E B. cbn. unfold normalise. rewrite E, B. reflexivity. Qed.

(** A detector without a unit raises until the first call with three points; it measures the windows of
    that call, and of all later ones, in the gap of that call. *)
Theorem C312_inferred : forall V S (T : list V -> list V -> S) zero nc nt full bare show before c after g,
  Forall gapless before -> gap_of c g -> readable full show g ->
  calls T zero nc nt full bare show None (before ++ c :: after)
  = (Some (show g), map (fun _ => None) before ++ map (answer T zero nc nt g) (c :: after)).
Proof.
  intros V S T zero nc nt full bare show before c after g F G R.
  rewrite run_app, (run_gapless T zero nc nt full bare show before F). cbn [fst snd calls].
  rewrite (call_gap T zero nc nt full bare show g c R G).
  rewrite (run_set T zero nc nt full bare show (show g) g after (proj2 R) (proj1 R)). reflexivity.
Qed.
Theorem C312_short : forall V S (T : list V -> list V -> S) zero nc nt full bare show l,
  Forall gapless l -> calls T zero nc nt full bare show None l = (None, map (fun _ => None) l).
Proof. intros. apply run_gapless. assumption. Qed.

(** Every call has a gap or is too short for one, so the two theorems above cover all histories. *)
Theorem C312_cover : forall V (l : list (call (V := V))),
  Forall gapless l \/ exists before c after g, l = before ++ c :: after /\ Forall gapless before /\ gap_of c g.
Proof.
  intros V l. induction l as [|c l IH]; [left; constructor|].
  pose proof (inferred_spec c) as I. destruct (inferred c) as [g|].
  - right. exists [], c, l, g. split; [reflexivity|]. split; [constructor | exact I].
  - destruct IH as [F | (b & d & a & g & E & F & G)].
    + left. constructor; assumption.
    + right. exists (c :: b), d, a, g. split; [rewrite E; reflexivity|]. split; [constructor; assumption | exact G].
Qed.

(** When all calls have the same gap, a detector that is used again answers like a new one. *)
Theorem C312_reused_partial : forall V S (T : list V -> list V -> S) zero nc nt full bare show g l,
  readable full show g -> Forall (fun c => gap_of c g) l ->
  snd (calls T zero nc nt full bare show None l)
  = map (fun c => snd (fit_predict_call T zero nc nt full bare show None c)) l.
Proof.
  intros V S T zero nc nt full bare show g l R F. destruct F as [|c l G F]; [reflexivity|].
  cbn [calls map]. rewrite (call_gap T zero nc nt full bare show g c R G).
  rewrite (run_set T zero nc nt full bare show (show g) g l (proj2 R) (proj1 R)). cbn [snd]. f_equal.
  apply map_ext_in. intros d Hd.
  rewrite (call_gap T zero nc nt full bare show g d R (proj1 (Forall_forall _ _) F d Hd)). reflexivity.
Qed.

(** In general it does not: hourly data first, then daily data.  The new detector compares two days with the two
    days before; the used one finds nothing in its windows of two hours. *)
Definition toy_full (s : string) : option Z :=
  if String.eqb s "3600.0s" then Some 1 else if String.eqb s "86400.0s" then Some 24 else None.
Definition toy_show (g : Z) : string :=
  if g =? 1 then "3600.0s"%string else if g =? 24 then "86400.0s"%string else "x"%string.
Definition toy_T (test control : list Z) : Z :=
  10 * Z.of_nat (List.length test) + Z.of_nat (List.length control).
Definition toy_call (gap : Z) : call (V := Z) :=
  MkCall (of_rows true false (map (fun i => (gap * Z.of_nat i, 1)) (seq 0 5))) None.

Theorem C312_reused_refuted :
  readable toy_full toy_show 1 /\ readable toy_full toy_show 24
  /\ snd (calls toy_T 0 2 2 toy_full (fun _ => None) toy_show None [toy_call 24])
     = [Some [(0, 0); (24, 0); (48, 0); (72, 22); (96, 22)]]
  /\ snd (calls toy_T 0 2 2 toy_full (fun _ => None) toy_show None [toy_call 1; toy_call 24])
     = [Some [(0, 0); (1, 0); (2, 0); (3, 22); (4, 22)]; Some [(0, 0); (24, 10); (48, 10); (72, 10); (96, 10)]].
Proof. repeat split; try discriminate; vm_compute; reflexivity. Qed.

(** A detector that is saved and loaded keeps the unit it has inferred: it is no longer a detector
    without a unit. *)
Theorem C312_saved : forall V S (T : list V -> list V -> S) zero nc nt full bare show before c g,
  Forall gapless before -> gap_of c g -> readable full show g ->
  load full bare (save (fst (calls T zero nc nt full bare show None (before ++ [c])))) = Some (Some (show g)).
Proof.
  intros V S T zero nc nt full bare show before c g F G R.
  rewrite (C312_inferred V S T zero nc nt full bare show before c [] g F G R).
  cbn. unfold normalise. rewrite (proj1 R). reflexivity.
Qed.

(** Saving and loading keeps the unit of every detector that was made, whatever its history. *)
Theorem C312_saved_given : forall full bare s d,
  new_detector full bare (Some s) = Some d -> load full bare (save d) = Some d.
Proof.
  intros full bare s d H. cbn in H. destruct (normalise full bare s) as [t|] eqn:E; [|discriminate].
  injection H as <-. cbn. rewrite (proj1 (normalise_again full bare s t E)). reflexivity.
Qed.

(** A gap whose text cannot be read back (below a tenth of a millisecond the text has an exponent) is not used
    for that call, and the detector is spoilt: it raises for every later series too. *)
Theorem C312_unreadable_refuted : forall V S (T : list V -> list V -> S) zero nc nt full bare show c g l,
  gap_of c g -> show g <> ""%string -> full (show g) = None -> bare (show g) = None ->
  calls T zero nc nt full bare show None (c :: l) = (Some (show g), map (fun _ => None) (c :: l)).
Proof.
  intros V S T zero nc nt full bare show c g l G N E B. cbn [calls map].
  assert (K : forall c', fit_predict_call T zero nc nt full bare show (Some (show g)) c' = (Some (show g), None)).
  { intro c'. unfold fit_predict_call, set_time_unit. destruct (show g) as [|a s]; [congruence|].
    unfold normalise. cbv beta iota zeta. rewrite E, B. reflexivity. }
  assert (K0 : fit_predict_call T zero nc nt full bare show None c = (Some (show g), None)).
  { rewrite <- (K c). unfold fit_predict_call, set_time_unit. rewrite (gap_inferred c g G). cbn [option_map].
    destruct (show g); [congruence | reflexivity]. }
  rewrite K0. assert (R : calls T zero nc nt full bare show (Some (show g)) l = (Some (show g), map (fun _ => None) l)).
  { clear G K0 c. induction l as [|c l IH]; [reflexivity|]. cbn [calls map]. rewrite K, IH. reflexivity. }
  rewrite R. reflexivity.
Qed.

Example C312_case :
  gap_of (toy_call 24) 24 /\ readable toy_full toy_show 24
  /\ gapless (MkCall (of_rows true false [(0, 5); (24, 6)]) None)
  /\ new_detector toy_full (fun s => if String.eqb s "D" then Some 24 else None) (Some "600s"%string) = None
  /\ new_detector (fun s => if String.eqb s "1D" then Some 24 else None)
       (fun s => if String.eqb s "D" then Some 24 else None) (Some "D"%string) = Some (Some "1D"%string)
  /\ snd (calls toy_T 0 2 2 toy_full (fun _ => None) toy_show None
       [MkCall (of_rows true false [(0, 5); (24, 6)]) None; toy_call 24])
     = [None; Some [(0, 0); (24, 0); (48, 0); (72, 22); (96, 22)]].
Proof.
  repeat split; try (vm_compute; reflexivity); try discriminate.
  left. split; vm_compute; [lia | reflexivity].
Qed.

Print Assumptions C312_given.
Print Assumptions C312_invalid.
Print Assumptions C312_inferred.
Print Assumptions C312_short.
Print Assumptions C312_cover.
Print Assumptions C312_reused_partial.
Print Assumptions C312_reused_refuted.
Print Assumptions C312_saved.
Print Assumptions C312_saved_given.
Print Assumptions C312_unreadable_refuted.
