(** C169: equilibria are kept by the dimensionally split classic solver in two and three dimensions. *)
From Verif Require Import Base BCModel BCSpec LimiterModel Classic1DModel Classic1DSpec Classic1DProps SimSpec SymSpec SymProps
  SweepModel SweepSpec SweepProofs3 SweepProps EquilSpec EquilProofs EquilProps SEquilSpec SEquilProofs.

Theorem C169_split_step :
  forall undef S q aux qbc0 auxbc0,
  (1 <= length (n_bcs S))%nat -> (1 <= n_ng S)%nat -> Forall (fit_dim (n_ng S) (Nat.ltb 0 (n_naux S)) (Z.of_nat (n_neq S))) (n_bcs S) ->
  sregular S -> split_equilibrium S q aux ->
  exists q' cfl, split_step undef S q aux qbc0 auxbc0 = MStepped q' cfl /\ equal_cells S q q'.
Proof. intros undef S q aux qbc0 auxbc0 HL Hg HF HR EQ. exact (equil_split undef S Hg HL HF HR q aux qbc0 auxbc0 EQ). Qed.

(** Any number of steps of any sizes *)
Theorem C169_split_run :
  forall undef S q aux dts q',
  (1 <= length (n_bcs S))%nat -> (1 <= n_ng S)%nat -> Forall (fit_dim (n_ng S) (Nat.ltb 0 (n_naux S)) (Z.of_nat (n_neq S))) (n_bcs S) ->
  sregular S -> split_equilibrium S q aux -> split_steps undef S aux dts q q' -> equal_cells S q q'.
Proof.
  intros undef S q aux dts q' HL Hg HF HR EQ HS. induction HS as [q|dt dts q q1 q2 cfl qbc0 auxbc0 E HS IH]; [intros m ix _ _; reflexivity|].
  destruct (C169_split_step undef (with_dt S dt) q aux qbc0 auxbc0 HL Hg HF HR EQ) as (q1' & cfl' & E' & A). rewrite E in E'. injection E' as <- <-.
  change (equal_cells S q q1) in A. pose proof (IH (equil_values S Hg HL HF HR q q1 aux A EQ)) as B.
  intros m ix Hm Hx. rewrite (B m ix Hm Hx). apply A; assumption.
Qed.
(** Such runs of every length exist. *)
Theorem C169_run_exists :
  forall undef S q aux dts,
  (1 <= length (n_bcs S))%nat -> (1 <= n_ng S)%nat -> Forall (fit_dim (n_ng S) (Nat.ltb 0 (n_naux S)) (Z.of_nat (n_neq S))) (n_bcs S) ->
  sregular S -> split_equilibrium S q aux -> exists q', split_steps undef S aux dts q q'.
Proof.
  intros undef S q aux dts HL Hg HF HR. revert q. induction dts as [|dt dts IH]; intros q EQ; [exists q; constructor|].
  destruct (C169_split_step undef (with_dt S dt) q aux zero_arr zero_arr HL Hg HF HR EQ) as (q1 & cfl & E & A).
  destruct (IH q1 (equil_values S Hg HL HF HR q q1 aux A EQ)) as (q2 & H). exists q2. econstructor; eassumption.
Qed.

(** The scalar equation of C166_case on 4 x 3 cells with a bump in the bottom; the same data with another height move *)
Definition sset : msettings :=
  mkMSet 1 1 1 2 true 2 (fun _ => 4%Z) (fun _ => bottom) (fun _ _ _ _ _ _ _ => (fun _ => 0, fun _ => 0)) (fun d => match d with O => 1 | _ => 2 end)
    (1 # 4) None [mkDim 4 Extrap Extrap Extrap Extrap true true 0; mkDim 3 Periodic Periodic Periodic Periodic true true 0] (mkFuns Q None None None None).
Definition sbump : arr Q := fun _ ix => match ix with [1%Z; 1%Z] => 2 | [2%Z; 0%Z] => 1 # 3 | _ => 0 end.
Definition sraised : arr Q := fun m ix => sbump m ix + match ix with [1%Z; 0%Z] => 1 | _ => 0 end.
Definition schanged (q : arr Q) (ix : list Z) : bool :=
  match split_step noundef sset q sbump zero_arr zero_arr with MStepped q' _ => negb (Qeq_bool (q' 0%Z ix) (q 0%Z ix)) | _ => false end.
Lemma sset_ghost pos m : length pos = 2%nat -> q_ghost_value Q Qopp (n_bcs sset) sbump m pos = aux_ghost_value Q (n_bcs sset) sbump m pos.
Proof.
  intros H. destruct pos as [|i [|j [|k l]]]; try discriminate H. unfold q_ghost_value, aux_ghost_value, behind_wall. cbn.
  destruct (Z.ltb i 0), (Z.leb 4 i), (Z.ltb j 0), (Z.leb 3 j); rewrite ?andb_false_r; reflexivity.
Qed.
Example C169_case :
  (1 <= length (n_bcs sset))%nat /\ (1 <= n_ng sset)%nat /\ Forall (fit_dim (n_ng sset) (Nat.ltb 0 (n_naux sset)) (Z.of_nat (n_neq sset))) (n_bcs sset) /\
  sregular sset /\ split_equilibrium sset sbump sbump /\
  schanged sbump [1; 1]%Z = false /\ schanged sraised [1; 0]%Z = true.
Proof.
  split; [cbn; lia|]. split; [cbn; lia|]. split.
  { constructor; [|constructor; [|constructor]]; unfold fit_dim, standard, wide; cbn; intuition (auto; try discriminate; try lia). }
  split; [intros d D Hd; exact eset_regular|]. split.
  { intros d pos Hd [HL _] m Hm. rewrite shift_length in HL.
    assert (E : forall p, length p = 2%nat -> q_cell sset sbump p = aux_cell sset sbump p).
    { intros p Hp. unfold q_cell, aux_cell. cbn [sset n_neq n_naux seq map]. change (n_bcs _) with (n_bcs sset). rewrite sset_ghost by exact Hp. reflexivity. }
    rewrite !E by (unfold lower; rewrite ?SweepProofs.put_length; exact HL).
    cbn [sset n_rpn bottom o_am o_ap o_wave]. split; [reflexivity|]. split; [ring|intros p _; ring]. }
  split; vm_compute; reflexivity.
Qed.
Print Assumptions C169_split_step.
Print Assumptions C169_split_run.
Print Assumptions C169_run_exists.
