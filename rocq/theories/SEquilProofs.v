(** Equilibria of two- and three-dimensional problems with the dimensionally split classic solver: proofs. *)
From Verif Require Import Base BCModel BCSpec BCProofs BCProps LimiterModel Classic1DModel Classic1DSpec Classic1DProofs Classic1DProofs2
  SimSpec SymSpec SymProps SweepModel SweepSpec SweepProofs SweepProofs2 SweepProofs3 SweepProofs4 SweepProofs6 EquilSpec SEquilSpec.

Lemma vec_image n (a b : Z -> Q) : (forall m, (0 <= m < Z.of_nat n)%Z -> b m == a m) ->
  image n (fun _ => 1) (map (fun m => a (Z.of_nat m)) (seq 0 n)) (map (fun m => b (Z.of_nat m)) (seq 0 n)).
Proof.
  intros H. split; [rewrite map_length, seq_length; reflexivity|]. split; [rewrite map_length, seq_length; reflexivity|].
  intros m Hm. rewrite (nth_indep _ 0 ((fun m => b (Z.of_nat m)) 0%nat)) by (rewrite map_length, seq_length; lia).
  rewrite (map_nth (fun m => b (Z.of_nat m))).
  rewrite (nth_indep _ 0 ((fun m => a (Z.of_nat m)) 0%nat)) by (rewrite map_length, seq_length; lia).
  rewrite (map_nth (fun m => a (Z.of_nat m))). rewrite seq_nth by lia. replace (Z.of_nat (0 + Z.to_nat m)) with m by lia. rewrite H by exact Hm. ring.
Qed.
Lemma balanced_image C ul ur al ar vl vr bl br : regular C -> image (c_neq C) (fun _ => 1) ul vl -> image (c_neq C) (fun _ => 1) ur vr ->
  image (c_naux C) (fun _ => 1) al bl -> image (c_naux C) (fun _ => 1) ar br ->
  balanced (c_neq C) (c_nw C) (c_rp C ul ur al ar) -> balanced (c_neq C) (c_nw C) (c_rp C vl vr bl br).
Proof.
  intros HR I1 I2 I3 I4 HB m Hm. destruct (HB m Hm) as (E1 & E2 & E3).
  pose proof (HR _ _ _ _ _ _ _ _ I1 I2 I3 I4) as K. cbn [moved g_mirror] in K. destruct K as (_ & S2). cbn [moved g_mirror g_speed g_q] in S2.
  destruct (S2 m Hm) as (T1 & T2 & T3).
  split; [rewrite T1, E1; ring|]. split; [rewrite T2, E2; ring|]. intros p Hp. rewrite T3, E3 by exact Hp. destruct (c_fwave C); ring.
Qed.

Lemma shift_put k d v ix : shift k (put d v ix) = put d (v + k)%Z (shift k ix).
Proof. revert d. induction ix as [|x ix IH]; intros [|d]; cbn [put shift map]; try reflexivity. f_equal. apply (IH d). Qed.
Lemma lower_shift k d ix : (d < length ix)%nat -> lower d (shift k ix) = shift k (lower d ix).
Proof. intros H. unfold lower. rewrite shift_put, get_shift by exact H. f_equal. lia. Qed.

Section Sweeps.
Variables (undef : Q -> Q -> Z -> Q) (S : msettings) (D0 : dimbc).
Notation g := (Z.of_nat (n_ng S)).
Notation neq := (n_neq S).
Notation ns := (map ncells (n_bcs S)).
Notation mxd d := (nth d ns 0%Z).
Hypothesis Hg : (1 <= n_ng S)%nat.
Hypothesis Hn : Forall (fun n => 0 <= n)%Z ns.
Hypothesis HR : sregular S.
Variables (qbc auxbc : arr Q).
Hypothesis HB : forall d ix, (d < length (n_bcs S))%nat -> face S d ix ->
  balanced neq (n_nw S) (n_rpn S d (cell_vec neq qbc (lower d ix)) (cell_vec neq qbc ix) (cell_vec (n_naux S) auxbc (lower d ix)) (cell_vec (n_naux S) auxbc ix)).
Definition same_bc (X : arr Q) : Prop := forall m ix, (0 <= m < Z.of_nat neq)%Z -> length ix = length (n_bcs S) -> X m ix == qbc m ix.

Lemma sweep_keeps d alias X : (d < length (n_bcs S))%nat -> same_bc X -> same_bc (fst (sweep undef S (layers S) alias d auxbc X X)).
Proof.
  intros Hd HX m ix Hm HL. destruct (sweep_at undef S Hg Hn (layers S) alias d auxbc X (layers_nonneg S) Hd) as [A _]. rewrite A by exact Hm.
  unfold sweep_value. destruct (swept S (layers S) d ix) eqn:E; [|apply HX; assumption].
  assert (HV : visited S d ix) by (apply (visited_swept S Hg Hn d ix Hd); rewrite map_length; auto).
  set (i := (get d ix - g + 1)%Z). set (base := put d 0 ix).
  assert (I : (1 <= i <= mxd d)%Z).
  { destruct HV as [_ V]. specialize (V d Hd). cbv zeta in V. rewrite Nat.eqb_refl in V. unfold i. lia. }
  assert (HS : forall e, (i <= e <= i + 1)%Z ->
    balanced neq (n_nw S) (n_rpn S d (vec neq (slice (n_ng S) d base X) (e + -1)) (vec neq (slice (n_ng S) d base X) (e + -1 + 1))
      (vec (n_naux S) (slice (n_ng S) d base auxbc) (e + -1)) (vec (n_naux S) (slice (n_ng S) d base auxbc) (e + -1 + 1)))).
  { intros e He. rewrite !(slice_vec S) by (unfold base; rewrite put_length; lia). unfold base. rewrite !put_put.
    set (jx := put d (e + -1 + 1 + g - 1)%Z ix).
    assert (HJ : put d (e + -1 + g - 1)%Z ix = lower d jx).
    { unfold lower, jx. rewrite get_put by lia. rewrite put_put. f_equal. lia. }
    rewrite HJ.
    assert (HF : face S d jx).
    { split; [unfold jx; rewrite put_length; exact HL|]. intros j Hj. cbv zeta. destruct HV as [_ V]. specialize (V j Hj). cbv zeta in V.
      destruct (Nat.eqb_spec j d) as [Ej|Hne].
      - subst j. unfold jx. rewrite get_put by lia. lia.
      - unfold jx. rewrite get_put_other by congruence. exact V. }
    refine (balanced_image (line_settings S d D0) _ _ _ _ _ _ _ _ (HR d D0 Hd) _ _ _ _ (HB d jx Hd HF)).
    - apply (vec_image neq (fun m => qbc m (lower d jx)) (fun m => X m (lower d jx))). intros c Hc. apply HX; [exact Hc|]. unfold lower, jx. rewrite !put_length. exact HL.
    - apply (vec_image neq (fun m => qbc m jx) (fun m => X m jx)). intros c Hc. apply HX; [exact Hc|]. unfold jx. rewrite put_length. exact HL.
    - apply (vec_image (n_naux S) (fun m => auxbc m (lower d jx)) (fun m => auxbc m (lower d jx))). reflexivity.
    - apply (vec_image (n_naux S) (fun m => auxbc m jx) (fun m => auxbc m jx)). reflexivity. }
  assert (F0 : qadd (line_flux undef S d base auxbc X) m i == 0 /\ fadd (line_flux undef S d base auxbc X) m i == 0 /\ fadd (line_flux undef S d base auxbc X) m (i + 1)%Z == 0).
  { unfold line_flux. cbv zeta. apply flux2_still; [exact Hm|exact I|]. intros e He. cbn [solve_rps amdq apdq wave]. destruct (HS e He m Hm) as (B1 & B2 & B3). auto. }
  destruct F0 as (F1 & F2 & F3). rewrite <- (HX m ix Hm HL).
  unfold line_change. destruct (n_capa S); rewrite F1, F2, F3; unfold Qdiv; ring.
Qed.
Lemma more_keeps k : forall d X c, (d + k <= length (n_bcs S))%nat -> same_bc X -> same_bc (fst (more_sweeps undef S k d auxbc (X, c))).
Proof.
  induction k as [|k IH]; intros d X c Hk HX; cbn [more_sweeps fst snd]; [exact HX|]. apply IH; [lia|]. apply sweep_keeps; [lia|exact HX].
Qed.
Lemma split_keeps : (1 <= length (n_bcs S))%nat -> same_bc (fst (split_sweeps undef S auxbc qbc)).
Proof.
  intros HL. unfold split_sweeps. destruct (sweep undef S (layers S) false 0 auxbc qbc qbc) as [x c] eqn:E.
  apply more_keeps; [lia|]. replace x with (fst (sweep undef S (layers S) false 0 auxbc qbc qbc)) by (rewrite E; reflexivity).
  apply sweep_keeps; [lia|]. intros m ix _ _. reflexivity.
Qed.
End Sweeps.

Section Step.
Variables (undef : Q -> Q -> Z -> Q) (S : msettings).
Notation g := (Z.of_nat (n_ng S)).
Hypothesis Hg : (1 <= n_ng S)%nat.
Hypothesis HL : (1 <= length (n_bcs S))%nat.
Hypothesis HF : Forall (fit_dim (n_ng S) (Nat.ltb 0 (n_naux S)) (Z.of_nat (n_neq S))) (n_bcs S).
Hypothesis HR : sregular S.

Lemma layers_le : (layers S <= g)%Z.
Proof. unfold layers. destruct (n_bcs S) as [|a [|b [|c [|e l]]]]; lia. Qed.
Lemma face_box d pos : (d < length (n_bcs S))%nat -> face S d (shift g pos) ->
  in_box (n_ng S) (n_bcs S) pos /\ in_box (n_ng S) (n_bcs S) (lower d pos).
Proof.
  intros Hd [HP H]. rewrite shift_length in HP. pose proof layers_le as Hl.
  split; apply in_box_get; rewrite map_length.
  - split; [exact HP|]. intros j Hj. specialize (H j Hj). cbv zeta in H. rewrite get_shift in H by lia. destruct (Nat.eqb j d); lia.
  - unfold lower. rewrite put_length. split; [exact HP|]. intros j Hj. specialize (H j Hj). cbv zeta in H. rewrite get_shift in H by lia.
    destruct (Nat.eqb_spec j d) as [Ej|Hne]; [subst j; rewrite get_put by lia; lia|]. rewrite get_put_other by congruence. lia.
Qed.
Lemma cells_nonneg : Forall (fun n => 0 <= n)%Z (map ncells (n_bcs S)).
Proof. apply Forall_map. eapply Forall_impl; [|exact HF]. intros D (_ & _ & _ & _ & _ & (_ & _ & W) & _). lia. Qed.
Lemma equil_split q aux qbc0 auxbc0 : split_equilibrium S q aux ->
  exists q' cfl, split_step undef S q aux qbc0 auxbc0 = MStepped q' cfl /\ equal_cells S q q'.
Proof.
  intros EQ. unfold split_step.
  destruct (C13_ghost_cells Q Qopp (n_ng S) (Nat.ltb 0 (n_naux S)) (n_funs S) (Z.of_nat (n_neq S)) (n_bcs S) q aux qbc0 auxbc0 Hg HF) as (qbc & auxbc & -> & Aq & Aa & _ & Ai).
  cbv zeta. eexists. eexists. split; [reflexivity|]. intros m ix Hm Hx. unfold set_q_from_qbc.
  destruct (n_bcs S) as [|D0 Ds] eqn:EB; [cbn in HL; lia|]. rewrite <- EB in *. clear EB Ds.
  rewrite <- (Ai m ix Hx). apply (split_keeps undef S D0 Hg cells_nonneg HR qbc auxbc).
  - intros d jx Hd HJ. pose proof (shift_fwd g jx) as SF. set (pos := shift (- g) jx) in *. rewrite <- SF in HJ. rewrite <- SF.
    destruct (face_box d pos Hd HJ) as [B1 B2].
    assert (LP : (d < length pos)%nat) by (destruct HJ as [HJ _]; rewrite shift_length in HJ; lia).
    rewrite !lower_shift by exact LP.
    assert (V : forall p, in_box (n_ng S) (n_bcs S) p -> cell_vec (n_neq S) qbc (shift g p) = q_cell S q p /\ cell_vec (n_naux S) auxbc (shift g p) = aux_cell S aux p).
    { intros p Hp. unfold cell_vec, vec, q_cell, aux_cell. split.
      - apply map_ext. intro c. apply Aq. exact Hp.
      - destruct (n_naux S) as [|n] eqn:En; [reflexivity|]. apply map_ext. intro c. apply Aa; [reflexivity|exact Hp]. }
    destruct (V pos B1) as [-> ->]. destruct (V _ B2) as [-> ->]. apply EQ; assumption.
  - exact HL.
  - exact Hm.
  - rewrite shift_length. apply in_domain_get in Hx. destruct Hx as [Hx _]. rewrite map_length in Hx. exact Hx.
Qed.
(** Equilibria are a property of the values in the cells *)
Lemma ghost_eq q0 q m pos : equal_cells S q0 q -> (0 <= m < Z.of_nat (n_neq S))%Z -> in_box (n_ng S) (n_bcs S) pos ->
  q_ghost_value Q Qopp (n_bcs S) q m pos == q_ghost_value Q Qopp (n_bcs S) q0 m pos.
Proof.
  intros A Hm Hp. unfold q_ghost_value. cbv zeta. set (src := map _ (combine (n_bcs S) pos)).
  assert (K : q m src == q0 m src).
  { apply A; [exact Hm|]. unfold src. clear A src q q0 HL HR. revert pos Hp. induction HF as [|D Ds F1 F2 IH]; intros [|i pos] Hp; try contradiction; [exact I|].
    destruct Hp as [Hi Hp]. cbn [combine map fst snd in_domain]. split; [|apply IH; assumption].
    destruct F1 as (_ & _ & _ & S1 & S2 & W & _). apply (source_in (n_ng S)); assumption. }
  induction (rev (combine (n_bcs S) pos)) as [|p l IH]; cbn [fold_right]; [exact K|]. destruct (_ && _)%bool; rewrite IH; reflexivity.
Qed.
Lemma equil_values q0 q aux : equal_cells S q0 q -> split_equilibrium S q0 aux -> split_equilibrium S q aux.
Proof.
  intros A EQ d pos Hd HP. destruct (face_box d pos Hd HP) as [B1 B2].
  destruct (n_bcs S) as [|D0 Ds] eqn:EB; [cbn in HL; lia|]. rewrite <- EB in *.
  refine (balanced_image (line_settings S d D0) _ _ _ _ _ _ _ _ (HR d D0 Hd) _ _ _ _ (EQ d pos ltac:(rewrite ?EB in *; assumption) HP)).
  - apply (vec_image (n_neq S) (fun m => q_ghost_value Q Qopp (n_bcs S) q0 m (lower d pos)) (fun m => q_ghost_value Q Qopp (n_bcs S) q m (lower d pos))). intros m Hm. apply ghost_eq; assumption.
  - apply (vec_image (n_neq S) (fun m => q_ghost_value Q Qopp (n_bcs S) q0 m pos) (fun m => q_ghost_value Q Qopp (n_bcs S) q m pos)). intros m Hm. apply ghost_eq; assumption.
  - apply (vec_image (n_naux S) (fun m => aux_ghost_value Q (n_bcs S) aux m (lower d pos)) (fun m => aux_ghost_value Q (n_bcs S) aux m (lower d pos))). reflexivity.
  - apply (vec_image (n_naux S) (fun m => aux_ghost_value Q (n_bcs S) aux m pos) (fun m => aux_ghost_value Q (n_bcs S) aux m pos)). reflexivity.
Qed.
End Step.
