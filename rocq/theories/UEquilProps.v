(** C170: equilibria are kept by the unsplit classic solver in two dimensions. *)
From Verif Require Import Base BCModel BCSpec LimiterModel Classic1DModel Classic1DSpec Classic1DProps SimSpec SymSpec SymProps
  SweepModel SweepSpec SweepProofs3 SweepProps UnsplitModel UnsplitSpec UnsplitProps EquilSpec EquilProofs EquilProps SEquilSpec SEquilProofs SEquilProps UEquilSpec UEquilProofs.

Theorem C170_unsplit_step :
  forall undef S trans q aux qbc0 auxbc0,
  length (n_bcs S) = 2%nat -> (1 <= n_ng S)%nat -> Forall (fit_dim (n_ng S) (Nat.ltb 0 (n_naux S)) (Z.of_nat (n_neq S))) (n_bcs S) ->
  (forall d, (d < 2)%nat -> splits_nothing (n_neq S) (n_rpt S d)) -> unsplit_equilibrium S q aux ->
  exists q' cfl, unsplit_step undef S trans q aux qbc0 auxbc0 = MStepped q' cfl /\ equal_cells S q q'.
Proof. intros undef S trans q aux qbc0 auxbc0 HL Hg HF HT EQ. exact (equil_unsplit undef S trans HL Hg HF q aux qbc0 auxbc0 HT EQ). Qed.

(** Any number of steps of any sizes *)
Theorem C170_unsplit_run :
  forall undef S trans q aux dts q',
  length (n_bcs S) = 2%nat -> (1 <= n_ng S)%nat -> Forall (fit_dim (n_ng S) (Nat.ltb 0 (n_naux S)) (Z.of_nat (n_neq S))) (n_bcs S) ->
  sregular S -> (forall d, (d < 2)%nat -> splits_nothing (n_neq S) (n_rpt S d)) -> unsplit_equilibrium S q aux ->
  unsplit_steps undef S trans aux dts q q' -> equal_cells S q q'.
Proof.
  intros undef S trans q aux dts q' HL Hg HF HR HT EQ HS. induction HS as [q|dt dts q q1 q2 cfl qbc0 auxbc0 E HS IH]; [intros m ix _ _; reflexivity|].
  destruct (C170_unsplit_step undef (with_dt S dt) trans q aux qbc0 auxbc0 HL Hg HF HT EQ) as (q1' & cfl' & E' & A). rewrite E in E'. injection E' as <- <-.
  change (equal_cells S q q1) in A. pose proof (IH (uequil_values S HL Hg HF HR q q1 aux A EQ)) as B.
  intros m ix Hm Hx. rewrite (B m ix Hm Hx). apply A; assumption.
Qed.
(** Such runs of every length exist. *)
Theorem C170_run_exists :
  forall undef S trans q aux dts,
  length (n_bcs S) = 2%nat -> (1 <= n_ng S)%nat -> Forall (fit_dim (n_ng S) (Nat.ltb 0 (n_naux S)) (Z.of_nat (n_neq S))) (n_bcs S) ->
  sregular S -> (forall d, (d < 2)%nat -> splits_nothing (n_neq S) (n_rpt S d)) -> unsplit_equilibrium S q aux ->
  exists q', unsplit_steps undef S trans aux dts q q'.
Proof.
  intros undef S trans q aux dts HL Hg HF HR HT. revert q. induction dts as [|dt dts IH]; intros q EQ; [exists q; constructor|].
  destruct (C170_unsplit_step undef (with_dt S dt) trans q aux zero_arr zero_arr HL Hg HF HT EQ) as (q1 & cfl & E & A).
  destruct (IH q1 (uequil_values S HL Hg HF HR q q1 aux A EQ)) as (q2 & H). exists q2. econstructor; eassumption.
Qed.

(** The data of C169_case with transverse waves *)
Definition uset : msettings :=
  mkMSet 1 1 1 2 true 2 (fun _ => 4%Z) (fun _ => bottom) (fun _ => advection_t 3) (fun d => match d with O => 1 | _ => 2 end)
    (1 # 4) None (n_bcs sset) (mkFuns Q None None None None).
Definition uchanged (q : arr Q) (ix : list Z) : bool :=
  match unsplit_step noundef uset 2 q sbump zero_arr zero_arr with MStepped q' _ => negb (Qeq_bool (q' 0%Z ix) (q 0%Z ix)) | _ => false end.
Example C170_case :
  length (n_bcs uset) = 2%nat /\ (1 <= n_ng uset)%nat /\ Forall (fit_dim (n_ng uset) (Nat.ltb 0 (n_naux uset)) (Z.of_nat (n_neq uset))) (n_bcs uset) /\
  sregular uset /\ (forall d, (d < 2)%nat -> splits_nothing (n_neq uset) (n_rpt uset d)) /\ unsplit_equilibrium uset sbump sbump /\
  uchanged sbump [1; 1]%Z = false /\ uchanged sraised [1; 0]%Z = true.
Proof.
  split; [reflexivity|]. split; [cbn; lia|]. split; [exact (proj1 (proj2 (proj2 C169_case)))|].
  split; [intros d D Hd; exact eset_regular|]. split.
  { intros d Hd imp ql qr al ar dq H m Hm. cbn [uset n_rpt n_neq advection_t fst snd] in *. replace (Z.to_nat m) with 0%nat by lia.
    destruct H as [|x dq Hx H]; cbn [nth]; [|rewrite Hx]; split; ring. }
  split.
  { intros d pos Hd [HL _] m Hm. rewrite shift_length in HL.
    assert (E : forall p, length p = 2%nat -> q_cell uset sbump p = aux_cell uset sbump p).
    { intros p Hp. unfold q_cell, aux_cell. cbn [uset n_neq n_naux seq map]. change (n_bcs _) with (n_bcs sset). rewrite sset_ghost by exact Hp. reflexivity. }
    rewrite !E by (unfold lower; rewrite ?SweepProofs.put_length; exact HL).
    cbn [uset n_rpn bottom o_am o_ap o_wave]. split; [reflexivity|]. split; [ring|intros p _; ring]. }
  split; vm_compute; reflexivity.
Qed.
Print Assumptions C170_unsplit_step.
Print Assumptions C170_unsplit_run.
Print Assumptions C170_run_exists.
