(** C171: equilibria and the unsplit classic solver in three dimensions. *)
From Verif Require Import Base BCModel BCSpec LimiterModel Classic1DModel Classic1DSpec Classic1DProps SimSpec SymSpec SymProps
  SweepModel SweepSpec SweepProofs3 SweepProps Unsplit3Model Unsplit3Spec Unsplit3Props EquilSpec EquilProofs EquilProps SEquilSpec SEquilProofs U3EquilSpec U3EquilProofs.

(** The combinations of order and transverse_waves that the solver describes *)
Theorem C171_unsplit3_step_partial :
  forall undef S rpt rptt stale trans q aux qbc0 auxbc0,
  length (n_bcs S) = 3%nat -> (1 <= n_ng S)%nat -> Forall (fit_dim (n_ng S) (Nat.ltb 0 (n_naux S)) (Z.of_nat (n_neq S))) (n_bcs S) ->
  described (n_order S) trans -> (forall d, (d < 3)%nat -> splits_nothing3 (n_neq S) (rpt d) (rptt d)) -> split_equilibrium S q aux ->
  exists q' cfl, unsplit3_step undef S rpt rptt stale trans q aux qbc0 auxbc0 = MStepped q' cfl /\ equal_cells S q q'.
Proof. intros undef S rpt rptt stale trans q aux qbc0 auxbc0 HL Hg HF HD HT EQ. apply equil_unsplit3; assumption. Qed.

(** Any number of steps of any sizes *)
Theorem C171_unsplit3_run_partial :
  forall undef S rpt rptt trans q aux dts q',
  length (n_bcs S) = 3%nat -> (1 <= n_ng S)%nat -> Forall (fit_dim (n_ng S) (Nat.ltb 0 (n_naux S)) (Z.of_nat (n_neq S))) (n_bcs S) ->
  sregular S -> described (n_order S) trans -> (forall d, (d < 3)%nat -> splits_nothing3 (n_neq S) (rpt d) (rptt d)) -> split_equilibrium S q aux ->
  unsplit3_steps undef S rpt rptt trans aux dts q q' -> equal_cells S q q'.
Proof.
  intros undef S rpt rptt trans q aux dts q' HL Hg HF HR HD HT EQ HS. induction HS as [q|dt dts q q1 q2 cfl stale qbc0 auxbc0 E HS IH]; [intros m ix _ _; reflexivity|].
  destruct (C171_unsplit3_step_partial undef (with_dt S dt) rpt rptt stale trans q aux qbc0 auxbc0 HL Hg HF HD HT EQ) as (q1' & cfl' & E' & A). rewrite E in E'. injection E' as <- <-.
  change (equal_cells S q q1) in A. pose proof (IH (equil_values S Hg ltac:(lia) HF HR q q1 aux A EQ)) as B.
  intros m ix Hm Hx. rewrite (B m ix Hm Hx). apply A; assumption.
Qed.
(** Such runs of every length exist. *)
Theorem C171_run_exists :
  forall undef S rpt rptt (stale : nat -> list Z -> leftovers) trans q aux dts,
  length (n_bcs S) = 3%nat -> (1 <= n_ng S)%nat -> Forall (fit_dim (n_ng S) (Nat.ltb 0 (n_naux S)) (Z.of_nat (n_neq S))) (n_bcs S) ->
  sregular S -> described (n_order S) trans -> (forall d, (d < 3)%nat -> splits_nothing3 (n_neq S) (rpt d) (rptt d)) -> split_equilibrium S q aux ->
  exists q', unsplit3_steps undef S rpt rptt trans aux dts q q'.
Proof.
  intros undef S rpt rptt stale trans q aux dts HL Hg HF HR HD HT. revert q. induction dts as [|dt dts IH]; intros q EQ; [exists q; constructor|].
  destruct (C171_unsplit3_step_partial undef (with_dt S dt) rpt rptt stale trans q aux zero_arr zero_arr HL Hg HF HD HT EQ) as (q1 & cfl & E & A).
  destruct (IH q1 (equil_values S Hg ltac:(lia) HF HR q q1 aux A EQ)) as (q2 & H). exists q2. econstructor; eassumption.
Qed.

(** Missing: first order with transverse_waves = trans_cor, the default.  Data that are zero everywhere do not stay zero: the transverse
    solver splits what an earlier use left in the work array (C96). *)
Theorem C171_first_order_refuted :
  exists undef S rpt rptt stale trans q aux qbc0 auxbc0 q' cfl,
  n_order S = 1%Z /\ trans = 22%Z /\ Forall (fit_dim (n_ng S) (Nat.ltb 0 (n_naux S)) (Z.of_nat (n_neq S))) (n_bcs S) /\
  (forall d, (d < 3)%nat -> splits_nothing3 (n_neq S) (rpt d) (rptt d)) /\ split_equilibrium S q aux /\
  unsplit3_step undef S rpt rptt stale trans q aux qbc0 auxbc0 = MStepped q' cfl /\ ~ equal_cells S q q'.
Proof.
  exists noundef, demo96, rpt93, rptt93, dirty, 22%Z, zero_arr, zero_arr, zero_arr, zero_arr.
  assert (T : match unsplit3_step noundef demo96 rpt93 rptt93 dirty 22 zero_arr zero_arr zero_arr zero_arr with
    MStepped q'' _ => Qeq_bool (q'' 0%Z [0; 0; 0]%Z) 0 | _ => true end = false) by (vm_compute; reflexivity).
  destruct (unsplit3_step noundef demo96 rpt93 rptt93 dirty 22 zero_arr zero_arr zero_arr zero_arr) as [q' cfl|e] eqn:E; [|discriminate T].
  exists q', cfl. split; [reflexivity|]. split; [reflexivity|]. split.
  { repeat constructor; unfold fit_dim, standard, wide, thin; cbn; intuition (auto; try discriminate; try lia). }
  split; [intros d Hd; apply advection_splits_nothing|]. split.
  { intros d pos Hd [HL _] m Hm. rewrite shift_length in HL.
    assert (E0 : forall p, length p = 3%nat -> q_cell demo96 zero_arr p = [0]).
    { intros p Hp. destruct p as [|i [|j [|k [|]]]]; try discriminate Hp. unfold q_cell, q_ghost_value, behind_wall, zero_arr. cbn.
      destruct (Z.ltb i 0), (Z.leb 1 i), (Z.ltb j 0), (Z.leb 1 j), (Z.ltb k 0), (Z.leb 1 k); reflexivity. }
    rewrite !E0 by (unfold lower; rewrite ?SweepProofs.put_length; exact HL).
    cbn [demo96 n_rpn advection o_am o_ap o_wave hd nth]. repeat split; intros; try ring. }
  split; [reflexivity|]. clear E. intros K. specialize (K 0%Z [0; 0; 0]%Z ltac:(cbn; lia) ltac:(cbn; repeat split; lia)).
  apply Qeq_bool_neq in T. apply T. exact K.
Qed.

(** A case: the scalar equation of C166_case on 2 x 1 x 1 cells with a bump in the bottom, transverse_waves = 22 *)
Definition u3set : msettings :=
  mkMSet 1 1 1 2 true 2 (fun _ => 4%Z) (fun _ => bottom) (fun _ _ _ _ _ _ _ => (fun _ => 0, fun _ => 0)) (fun _ => 1)
    (1 # 4) None [mkDim 2 Extrap Extrap Extrap Extrap true true 0; thin; thin] (mkFuns Q None None None None).
Definition u3bump : arr Q := fun _ ix => match ix with [1%Z; 0%Z; 0%Z] => 2 | _ => 0 end.
Definition u3raised : arr Q := fun m ix => u3bump m ix + match ix with [0%Z; 0%Z; 0%Z] => 1 | _ => 0 end.
Definition u3changed (q : arr Q) (ix : list Z) : bool :=
  match unsplit3_step noundef u3set rpt93 rptt93 dirty 22 q u3bump zero_arr zero_arr with MStepped q' _ => negb (Qeq_bool (q' 0%Z ix) (q 0%Z ix)) | _ => false end.
Example C171_case :
  length (n_bcs u3set) = 3%nat /\ (1 <= n_ng u3set)%nat /\ Forall (fit_dim (n_ng u3set) (Nat.ltb 0 (n_naux u3set)) (Z.of_nat (n_neq u3set))) (n_bcs u3set) /\
  sregular u3set /\ described (n_order u3set) 22 /\ (forall d, (d < 3)%nat -> splits_nothing3 (n_neq u3set) (rpt93 d) (rptt93 d)) /\ split_equilibrium u3set u3bump u3bump /\
  u3changed u3bump [1; 0; 0]%Z = false /\ u3changed u3raised [1; 0; 0]%Z = true.
Proof.
  split; [reflexivity|]. split; [cbn; lia|]. split.
  { repeat constructor; unfold fit_dim, standard, wide, thin; cbn; intuition (auto; try discriminate; try lia). }
  split; [intros d D Hd; exact eset_regular|]. split; [right; split; [cbn; auto|discriminate]|].
  split; [intros d Hd; apply advection_splits_nothing|]. split.
  { intros d pos Hd [HL _] m Hm. rewrite shift_length in HL.
    assert (E : forall p, length p = 3%nat -> q_cell u3set u3bump p = aux_cell u3set u3bump p).
    { intros p Hp. destruct p as [|i [|j [|k [|]]]]; try discriminate Hp. unfold q_cell, aux_cell, q_ghost_value, aux_ghost_value, behind_wall. cbn -[u3bump].
      destruct (Z.ltb i 0), (Z.leb 2 i), (Z.ltb j 0), (Z.leb 1 j), (Z.ltb k 0), (Z.leb 1 k); reflexivity. }
    rewrite !E by (unfold lower; rewrite ?SweepProofs.put_length; exact HL).
    cbn [u3set n_rpn bottom o_am o_ap o_wave]. split; [reflexivity|]. split; [ring|intros p _; ring]. }
  split; vm_compute; reflexivity.
Qed.
Print Assumptions C171_unsplit3_step_partial.
Print Assumptions C171_unsplit3_run_partial.
Print Assumptions C171_run_exists.
Print Assumptions C171_first_order_refuted.
