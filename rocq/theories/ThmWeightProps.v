(** C91: which residuals a node's weight comes from. *)
From Verif Require Import Common ThmModel ThmSpec ThmProofs RollingSpec RollingProofs.
Open Scope nat_scope.

(** the j-th value counted from the end, the last one being number 1 *)
Definition from_end (l : list Q) (j : nat) : Q := nth (length l - j) l 0%Q.
(** number of nodes of the levels listed so far *)
Definition nodes (m : nat) (levels : list nat) : nat := fold_right (fun k n => m / k + n) 0 levels.

Lemma nth_flat_map_level {A} (f : nat -> nat -> A) m bef k aft i d : i < m / k ->
  nth (nodes m bef + i) (flat_map (fun k => map (f k) (seq 0 (freq m k))) (bef ++ k :: aft)) d = f k i.
Proof.
  intros Hi. induction bef as [|b bef IH].
  - cbn [nodes fold_right Nat.add app flat_map]. rewrite app_nth1 by (rewrite map_length, seq_length; exact Hi).
    rewrite (nth_indep _ d (f k 0)) by (rewrite map_length, seq_length; exact Hi). rewrite (map_nth (f k)), seq_nth by exact Hi. reflexivity.
  - cbn [nodes fold_right app flat_map]. fold (nodes m bef). rewrite app_nth2 by (rewrite map_length, seq_length; unfold freq; lia).
    rewrite map_length, seq_length. replace (m / b + nodes m bef + i - freq m b) with (nodes m bef + i) by (unfold freq; lia). exact IH.
Qed.
Lemma repeat_map_seq {A} (x : A) n s : repeat x n = map (fun _ => x) (seq s n).
Proof. revert s. induction n as [|n IH]; intros s; [reflexivity|]. cbn. f_equal. apply IH. Qed.
Lemma fold_min_le l x : fold_left Nat.min l x <= x /\ (forall y, In y l -> fold_left Nat.min l x <= y) /\ (fold_left Nat.min l x = x \/ In (fold_left Nat.min l x) l).
Proof.
  revert x. induction l as [|a l IH]; intros x; cbn; [split; [lia|split; [intros ? []|left; reflexivity]]|].
  destruct (IH (Nat.min x a)) as (A & B & C). split; [lia|]. split.
  - intros y [<-|H]; [lia|apply B, H].
  - destruct C as [C|C]; [|right; right; exact C]. rewrite C. destruct (Nat.min_spec x a) as [[_ ->]|[_ ->]]; auto.
Qed.
Lemma residual_h_spec levels m res : levels <> [] ->
  (forall k, In k levels -> residual_h levels m res <= length (res k) / (m / k)) /\
  exists k, In k levels /\ residual_h levels m res = length (res k) / (m / k).
Proof.
  intros H. unfold residual_h. destruct levels as [|k0 t]; [contradiction|]. cbn [map].
  destruct (fold_min_le (map (fun k => length (res k) / freq m k) t) (length (res k0) / freq m k0)) as (A & B & C). split.
  - intros k [<-|Hk]; [exact A|]. apply B. apply in_map_iff. exists k. auto.
  - destruct C as [C|C]; [exists k0; split; [left; reflexivity|exact C]|].
    apply in_map_iff in C as (k & E & Hk). exists k. split; [right; exact Hk|]. symmetry. exact E.
Qed.

Theorem C91_weights : forall eps levels m res bef k aft i, levels = bef ++ k :: aft -> i < m / k ->
  let r := nodes m bef + i in
  nth r (W_struc levels m) 0%Q = inject_Z (Z.of_nat k) /\
  (res k <> [] -> mean_of (map (fun x => x * x)%Q (res k)) (nth r (W_svar eps levels m res) 0 - eps)%Q) /\
  match W_hvar eps levels m res with
  | None => exists k', In k' levels /\ length (res k') / (m / k') = 0
  | Some w => exists h, 1 <= h /\ (forall k', In k' levels -> h <= length (res k') / (m / k')) /\
       (exists k', In k' levels /\ h = length (res k') / (m / k')) /\
       (* the node's residuals in the last h whole periods *)
       variance_of (map (fun c => from_end (res k) ((h - c) * (m / k) - i)) (seq 0 h)) (nth r w 0 - eps)%Q
  end.
Proof.
  intros eps levels m res bef k aft i El Hi r. split; [|split].
  - unfold W_struc. rewrite (flat_map_ext _ (fun k => map ((fun k _ => inject_Z (Z.of_nat k)) k) (seq 0 (freq m k)))) by (intros; apply repeat_map_seq).
    rewrite El. apply (nth_flat_map_level (fun k _ => inject_Z (Z.of_nat k))). exact Hi.
  - intros Hr. unfold W_svar. rewrite (flat_map_ext _ (fun k => map ((fun k _ => (mean_sq (res k) + eps)%Q) k) (seq 0 (freq m k)))) by (intros; apply repeat_map_seq).
    rewrite El. unfold r. rewrite (nth_flat_map_level (fun k _ => (mean_sq (res k) + eps)%Q)) by exact Hi.
    assert (E : (mean_sq (res k) + eps - eps == mean_sq (res k))%Q) by ring. unfold mean_of. rewrite E. unfold mean_sq. rewrite map_length.
    rewrite Qmult_comm. apply Qmult_div_r. destruct (res k); [contradiction|]. unfold Qeq. cbn. lia.
  - assert (Hne : levels <> []) by (rewrite El; destruct bef; discriminate).
    destruct (residual_h_spec levels m res Hne) as [A (k' & Hk' & B)]. unfold W_hvar. destruct (residual_h levels m res) as [|h] eqn:Eh.
    + exists k'. split; [exact Hk'|]. symmetry. exact B.
    + exists (S h). split; [lia|]. split; [exact A|]. split; [exists k'; auto|].
      rewrite El. unfold r. rewrite (nth_flat_map_level (fun k i => (var0 (residual_row m (S h) res k i) + eps)%Q)) by exact Hi.
      assert (Hk : In k levels) by (rewrite El; apply in_or_app; right; left; reflexivity). specialize (A k Hk).
      assert (Hm : S h * (m / k) <= length (res k)).
      { pose proof (Nat.mul_div_le (length (res k)) (m / k) ltac:(lia)). nia. }
      assert (El' : residual_row m (S h) res k i = map (fun c => from_end (res k) ((S h - c) * (m / k) - i)) (seq 0 (S h))).
      { unfold residual_row. apply map_ext_in. intros c Hc. apply in_seq in Hc. unfold from_end, freq. f_equal.
        assert ((S h - c) * (m / k) + c * (m / k) = S h * (m / k)) by nia.
        assert (1 * (m / k) <= (S h - c) * (m / k)) by (apply Nat.mul_le_mono_r; lia). lia. }
      rewrite <- El'. set (l := residual_row m (S h) res k i).
      assert (Ln : l <> []) by (unfold l; rewrite El'; discriminate).
      exists (qsum l / inject_Z (Z.of_nat (length l)))%Q. split; [apply mean_ok, Ln|].
      assert (E : (var0 l + eps - eps == var0 l)%Q) by ring. unfold mean_of. rewrite E. unfold var0. rewrite map_length.
      rewrite Qmult_comm. apply Qmult_div_r. destruct l; [contradiction|]. unfold Qeq. cbn. lia.
Qed.
Example C91_weights_nodes_case : [4; 2; 1] = [4] ++ 2 :: [1] /\ 1 < 4 / 2 /\ nth (nodes 4 [4] + 1) (W_struc [4; 2; 1] 4) 0%Q = 2%Q.
Proof. repeat split; cbn; lia. Qed.

Print Assumptions C91_weights.
