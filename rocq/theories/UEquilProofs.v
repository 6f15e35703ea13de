(** Equilibria of two-dimensional problems with the unsplit classic solver: proofs. *)
From Verif Require Import Base BCModel BCSpec BCProofs BCProps LimiterModel Classic1DModel Classic1DSpec Classic1DProofs Classic1DProofs2
  SimSpec SymSpec SymProps SweepModel SweepSpec SweepProofs SweepProofs2 SweepProofs3 SweepProofs4 SweepProofs6
  UnsplitModel UnsplitSpec UnsplitProofs UnsplitProofs3 EquilSpec SEquilSpec SEquilProofs UEquilSpec.

Section Step2.
Variables (undef : Q -> Q -> Z -> Q) (S : msettings) (trans : Z).
Notation g := (Z.of_nat (n_ng S)).
Notation neq := (n_neq S).
Notation ns := (map ncells (n_bcs S)).
Notation mxd d := (nth d ns 0%Z).
Hypothesis HL : length (n_bcs S) = 2%nat.
Hypothesis Hg : (1 <= n_ng S)%nat.
Hypothesis Hn : Forall (fun n => 0 <= n)%Z ns.
Hypothesis HT : forall d, (d < 2)%nat -> splits_nothing neq (n_rpt S d).
Variables (qbc auxbc : arr Q).
Hypothesis HB : forall d ix, (d < 2)%nat -> face1 S d ix ->
  balanced neq (n_nw S) (n_rpn S d (cell_vec neq qbc (lower d ix)) (cell_vec neq qbc ix) (cell_vec (n_naux S) auxbc (lower d ix)) (cell_vec (n_naux S) auxbc ix)).

Lemma row_still d j i m : (d < 2)%nat -> (0 <= j <= mxd (1 - d) + 1)%Z -> (1 <= i <= mxd d)%Z -> (0 <= m < Z.of_nat neq)%Z ->
  let F := t_flux undef S trans d auxbc qbc j in
  qadd F m i == 0 /\ fadd F m i == 0 /\ fadd F m (i + 1)%Z == 0 /\ gadd1 F m i == 0 /\ gadd2 F m i == 0.
Proof.
  intros Hd Hj Hi Hm. cbv zeta. set (base := put (1 - d) (j + g - 1)%Z [0; 0]%Z).
  assert (LB : (d < length base)%nat) by (unfold base; rewrite put_length; cbn [length]; lia).
  assert (HS : forall e c, (i <= e <= i + 1)%Z -> (0 <= c < Z.of_nat neq)%Z ->
    amdq (solve_rps (n_rpn S d) neq (n_naux S) (-1) (t_row S d j qbc) (t_row S d j auxbc)) c e == 0 /\
    apdq (solve_rps (n_rpn S d) neq (n_naux S) (-1) (t_row S d j qbc) (t_row S d j auxbc)) c e == 0 /\
    forall mw, (0 <= mw < Z.of_nat (n_nw S))%Z -> wave (solve_rps (n_rpn S d) neq (n_naux S) (-1) (t_row S d j qbc) (t_row S d j auxbc)) c mw e == 0).
  { intros e c He Hc. cbn [solve_rps amdq apdq wave]. unfold t_row. fold base. rewrite !(slice_vec S) by exact LB.
    pose proof (HB d (put d (e + g - 1)%Z base) Hd ltac:(apply bas_face; first [assumption|lia])) as K.
    unfold lower in K. rewrite get_put, put_put in K by exact LB.
    replace (e + -1 + g - 1)%Z with (e + g - 1 - 1)%Z by lia. replace (e + -1 + 1 + g - 1)%Z with (e + g - 1)%Z by lia. exact (K c Hc). }
  destruct (flux_same undef S trans auxbc qbc d j) as (E1 & E2 & _). rewrite E1, E2.
  assert (F0 : qadd (line_flux undef S d base auxbc qbc) m i == 0 /\ fadd (line_flux undef S d base auxbc qbc) m i == 0 /\ fadd (line_flux undef S d base auxbc qbc) m (i + 1)%Z == 0).
  { unfold line_flux. cbv zeta. apply flux2_still; [exact Hm|exact Hi|]. intros e He. exact (HS e m He Hm). }
  destruct F0 as (F1 & F2 & F3). split; [exact F1|]. split; [exact F2|]. split; [exact F3|].
  unfold t_flux. apply gadd_still; [apply HT; exact Hd|exact Hm|exact Hi|exact HS].
Qed.
Lemma t_sweep_keeps d st m ix : (d < 2)%nat -> (0 <= m < Z.of_nat neq)%Z -> fst (t_sweep undef S trans d auxbc qbc st) m ix == fst st m ix.
Proof.
  intros Hd Hm. rewrite (t_sweep_sum undef S trans Hg). rewrite zsum_zero; [ring|]. intros j Hj.
  assert (N : (0 <= mxd (1 - d))%Z) by (rewrite Forall_forall in Hn; apply Hn; apply nth_In; rewrite map_length; lia).
  unfold t_change. destruct (in_slice 1 (mxd d + 1) (get d ix - g + 1)) eqn:E; [|reflexivity].
  assert (I : (1 <= get d ix - g + 1 <= mxd d)%Z) by (unfold in_slice in E; lia).
  destruct (row_still d j _ m Hd ltac:(lia) I Hm) as (F1 & F2 & F3 & F4 & F5).
  destruct (Z.eqb _ j); [|destruct (Z.eqb _ (j - 1)); [|destruct (Z.eqb _ (j + 1)); [|reflexivity]]];
    destruct (n_capa S); rewrite ?F1, ?F2, ?F3, ?F4, ?F5; unfold Qdiv; ring.
Qed.
Lemma step2_keeps m ix : (0 <= m < Z.of_nat neq)%Z -> fst (step2 undef S trans auxbc qbc qbc) m ix == qbc m ix.
Proof. intros Hm. unfold step2. rewrite (t_sweep_keeps 1) by (lia || exact Hm). rewrite (t_sweep_keeps 0) by (lia || exact Hm). reflexivity. Qed.
End Step2.

Section UStep.
Variables (undef : Q -> Q -> Z -> Q) (S : msettings) (trans : Z).
Notation g := (Z.of_nat (n_ng S)).
Hypothesis HL : length (n_bcs S) = 2%nat.
Hypothesis Hg : (1 <= n_ng S)%nat.
Hypothesis HF : Forall (fit_dim (n_ng S) (Nat.ltb 0 (n_naux S)) (Z.of_nat (n_neq S))) (n_bcs S).

Lemma face1_box d pos : (d < length (n_bcs S))%nat -> face1 S d (shift g pos) ->
  in_box (n_ng S) (n_bcs S) pos /\ in_box (n_ng S) (n_bcs S) (lower d pos).
Proof.
  intros Hd [HP H]. rewrite shift_length in HP.
  split; apply in_box_get; rewrite map_length.
  - split; [exact HP|]. intros j Hj. specialize (H j Hj). cbv zeta in H. rewrite get_shift in H by lia. destruct (Nat.eqb j d); lia.
  - unfold lower. rewrite put_length. split; [exact HP|]. intros j Hj. specialize (H j Hj). cbv zeta in H. rewrite get_shift in H by lia.
    destruct (Nat.eqb_spec j d) as [Ej|Hne]; [subst j; rewrite get_put by lia; lia|]. rewrite get_put_other by congruence. lia.
Qed.
Lemma equil_unsplit q aux qbc0 auxbc0 : (forall d, (d < 2)%nat -> splits_nothing (n_neq S) (n_rpt S d)) -> unsplit_equilibrium S q aux ->
  exists q' cfl, unsplit_step undef S trans q aux qbc0 auxbc0 = MStepped q' cfl /\ equal_cells S q q'.
Proof.
  intros HT EQ. unfold unsplit_step.
  destruct (C13_ghost_cells Q Qopp (n_ng S) (Nat.ltb 0 (n_naux S)) (n_funs S) (Z.of_nat (n_neq S)) (n_bcs S) q aux qbc0 auxbc0 Hg HF) as (qbc & auxbc & -> & Aq & Aa & _ & Ai).
  cbv zeta. eexists. eexists. split; [reflexivity|]. intros m ix Hm Hx. unfold set_q_from_qbc.
  rewrite <- (Ai m ix Hx). apply (step2_keeps undef S trans HL Hg ltac:(apply cells_nonneg; first [assumption|lia]) HT qbc auxbc); [|exact Hm].
  intros d jx Hd HJ. pose proof (shift_fwd g jx) as SF. set (pos := shift (- g) jx) in *. rewrite <- SF in HJ. rewrite <- SF.
  destruct (face1_box d pos ltac:(lia) HJ) as [B1 B2].
  assert (LP : (d < length pos)%nat) by (destruct HJ as [HJ _]; rewrite shift_length in HJ; lia).
  rewrite !lower_shift by exact LP.
  assert (V : forall p, in_box (n_ng S) (n_bcs S) p -> cell_vec (n_neq S) qbc (shift g p) = q_cell S q p /\ cell_vec (n_naux S) auxbc (shift g p) = aux_cell S aux p).
  { intros p Hp. unfold cell_vec, vec, q_cell, aux_cell. split.
    - apply map_ext. intro c. apply Aq. exact Hp.
    - destruct (n_naux S) as [|n] eqn:En; [reflexivity|]. apply map_ext. intro c. apply Aa; [reflexivity|exact Hp]. }
  destruct (V pos B1) as [-> ->]. destruct (V _ B2) as [-> ->]. apply EQ; [lia|exact HJ].
Qed.
Hypothesis HR : sregular S.
Lemma uequil_values q0 q aux : equal_cells S q0 q -> unsplit_equilibrium S q0 aux -> unsplit_equilibrium S q aux.
Proof.
  intros A EQ d pos Hd HP. destruct (face1_box d pos Hd HP) as [B1 B2].
  destruct (n_bcs S) as [|D0 Ds] eqn:EB; [discriminate HL|]. rewrite <- EB in *.
  refine (balanced_image (line_settings S d D0) _ _ _ _ _ _ _ _ (HR d D0 Hd) _ _ _ _ (EQ d pos ltac:(rewrite ?EB in *; assumption) HP)).
  - apply (vec_image (n_neq S) (fun m => q_ghost_value Q Qopp (n_bcs S) q0 m (lower d pos)) (fun m => q_ghost_value Q Qopp (n_bcs S) q m (lower d pos))). intros m Hm. apply ghost_eq; first [assumption|lia].
  - apply (vec_image (n_neq S) (fun m => q_ghost_value Q Qopp (n_bcs S) q0 m pos) (fun m => q_ghost_value Q Qopp (n_bcs S) q m pos)). intros m Hm. apply ghost_eq; first [assumption|lia].
  - apply (vec_image (n_naux S) (fun m => aux_ghost_value Q (n_bcs S) aux m (lower d pos)) (fun m => aux_ghost_value Q (n_bcs S) aux m (lower d pos))). reflexivity.
  - apply (vec_image (n_naux S) (fun m => aux_ghost_value Q (n_bcs S) aux m pos) (fun m => aux_ghost_value Q (n_bcs S) aux m pos)). reflexivity.
Qed.
End UStep.
