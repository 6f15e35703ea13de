(** Equilibria of three-dimensional problems with the unsplit classic solver: proofs. *)
From Verif Require Import Base BCModel BCSpec BCProofs BCProps LimiterModel Classic1DModel Classic1DSpec Classic1DProofs Classic1DProofs2
  SweepModel SweepSpec SweepProofs SweepProofs2 SweepProofs3 SweepProofs4 SweepProofs6
  Unsplit3Model Unsplit3Spec Unsplit3Proofs Unsplit3Proofs3 EquilSpec SEquilSpec SEquilProofs U3EquilSpec.

Section Step3.
Variables (undef : Q -> Q -> Z -> Q) (S : msettings) (rpt : nat -> rpt3solver) (rptt : nat -> rptt3solver) (stale : nat -> list Z -> leftovers) (trans : Z).
Notation g := (Z.of_nat (n_ng S)).
Notation neq := (n_neq S).
Notation ns := (map ncells (n_bcs S)).
Notation mxd d := (nth d ns 0%Z).
Hypothesis HL : length (n_bcs S) = 3%nat.
Hypothesis Hg : (1 <= n_ng S)%nat.
Hypothesis Hn : Forall (fun n => 0 <= n)%Z ns.
Hypothesis HD : described (n_order S) trans.
Hypothesis HT : forall d, (d < 3)%nat -> splits_nothing3 neq (rpt d) (rptt d).
Variables (qbc auxbc : arr Q).
Hypothesis HB : forall d ix, (d < 3)%nat -> face S d ix ->
  balanced neq (n_nw S) (n_rpn S d (cell_vec neq qbc (lower d ix)) (cell_vec neq qbc ix) (cell_vec (n_naux S) auxbc (lower d ix)) (cell_vec (n_naux S) auxbc ix)).
Notation F d b := (u3_flux undef S rpt rptt stale trans d auxbc qbc b).

Lemma row3_still d b i m : (d < 3)%nat -> In b (lines d (n_ng S) 1 ns) -> (1 <= i <= mxd d)%Z -> (0 <= m < Z.of_nat neq)%Z ->
  qadd (normal (F d b)) m i == 0 /\ fadd (normal (F d b)) m i == 0 /\ fadd (normal (F d b)) m (i + 1)%Z == 0 /\
  forall up sl, g3add (F d b) up sl m i == 0 /\ h3add (F d b) up sl m i == 0.
Proof.
  intros Hd Hb Hi Hm. apply lines_in in Hb; [|lia|exact Hn]. destruct Hb as [LB Hb]. rewrite map_length, HL in LB, Hb.
  assert (HS : forall e c, (1 <= e <= mxd d + 1)%Z -> (0 <= c < Z.of_nat neq)%Z ->
    amdq (solve_rps (n_rpn S d) neq (n_naux S) (-1) (slice (n_ng S) d b qbc) (slice (n_ng S) d b auxbc)) c e == 0 /\
    apdq (solve_rps (n_rpn S d) neq (n_naux S) (-1) (slice (n_ng S) d b qbc) (slice (n_ng S) d b auxbc)) c e == 0 /\
    forall mw, (0 <= mw < Z.of_nat (n_nw S))%Z -> wave (solve_rps (n_rpn S d) neq (n_naux S) (-1) (slice (n_ng S) d b qbc) (slice (n_ng S) d b auxbc)) c mw e == 0).
  { intros e c He Hc. cbn [solve_rps amdq apdq wave]. rewrite !(slice_vec S) by lia.
    assert (HF : face S d (put d (e + g - 1)%Z b)).
    { split; [rewrite put_length; lia|]. intros j Hj. cbv zeta. rewrite layers_3 by assumption. destruct (Nat.eqb_spec j d) as [Ej|Hne].
      - subst j. rewrite get_put by lia. lia.
      - rewrite get_put_other by congruence. specialize (Hb j ltac:(lia)). replace (Nat.eqb j d) with false in Hb by (symmetry; apply Nat.eqb_neq; exact Hne). lia. }
    pose proof (HB d _ Hd HF) as K. unfold lower in K. rewrite get_put, put_put in K by lia.
    replace (e + -1 + g - 1)%Z with (e + g - 1 - 1)%Z by lia. replace (e + -1 + 1 + g - 1)%Z with (e + g - 1)%Z by lia. exact (K c Hc). }
  rewrite normal_same by assumption.
  assert (F0 : qadd (line_flux undef S d b auxbc qbc) m i == 0 /\ fadd (line_flux undef S d b auxbc qbc) m i == 0 /\ fadd (line_flux undef S d b auxbc qbc) m (i + 1)%Z == 0).
  { unfold line_flux. cbv zeta. apply flux2_still; [exact Hm|exact Hi|]. intros e He. apply HS; [lia|exact Hm]. }
  destruct F0 as (F1 & F2 & F3). split; [exact F1|]. split; [exact F2|]. split; [exact F3|].
  intros up sl. unfold u3_flux. apply gadd3_still; [apply HT; exact Hd|exact HD| |exact Hm|exact Hi].
  intros e c He Hc. unfold rp_sol, aux22. cbn [nine map nth fst snd]. rewrite (move3_0 d b Hd LB). apply HS; assumption.
Qed.
Lemma u3_sweep_keeps d st m ix : (d < 3)%nat -> (0 <= m < Z.of_nat neq)%Z -> fst (u3_sweep undef S rpt rptt stale trans d auxbc qbc st) m ix == fst st m ix.
Proof.
  intros Hd Hm. rewrite u3_sweep_sum.
  assert (Z0 : lsum (lines d (n_ng S) 1 ns) (fun b => u3_change S d (F d b) auxbc b 0 m ix) == lsum (lines d (n_ng S) 1 ns) (fun _ => 0)).
  { apply lsum_eq. intros b Hb. unfold u3_change. destruct (in_slice 1 (mxd d + 1) (get d ix - g + 1)) eqn:E; [|reflexivity].
    assert (I : (1 <= get d ix - g + 1 <= mxd d)%Z) by (unfold in_slice in E; lia).
    destruct (row3_still d b _ m Hd Hb I Hm) as (F1 & F2 & F3 & F4).
    assert (EG : forall up sl, g3add (F d b) up sl m (get d ix - g + 1)%Z == 0) by (intros up sl; exact (proj1 (F4 up sl))).
    assert (EH : forall up sl, h3add (F d b) up sl m (get d ix - g + 1)%Z == 0) by (intros up sl; exact (proj2 (F4 up sl))).
    destruct (get (across1 d) ix - get (across1 d) b)%Z as [|[p|p|]|[p|p|]]; destruct (get (across2 d) ix - get (across2 d) b)%Z as [|[p'|p'|]|[p'|p'|]];
      try reflexivity; destruct (n_capa S); rewrite ?F1, ?F2, ?F3, ?EG, ?EH; unfold Qdiv; ring. }
  rewrite Z0. assert (N : forall l : list (list Z), lsum l (fun _ => 0) == 0).
  { induction l as [|x l IH]; [reflexivity|]. rewrite lsum_cons, IH. ring. }
  rewrite N. ring.
Qed.
Lemma step3_keeps m ix : (0 <= m < Z.of_nat neq)%Z -> fst (step3 undef S rpt rptt stale trans auxbc qbc qbc) m ix == qbc m ix.
Proof.
  intros Hm. unfold step3. cbv zeta. rewrite (u3_sweep_keeps 2) by (lia || exact Hm). rewrite (u3_sweep_keeps 1) by (lia || exact Hm).
  rewrite (u3_sweep_keeps 0) by (lia || exact Hm). reflexivity.
Qed.
End Step3.

Section U3Step.
Variables (undef : Q -> Q -> Z -> Q) (S : msettings) (rpt : nat -> rpt3solver) (rptt : nat -> rptt3solver) (stale : nat -> list Z -> leftovers) (trans : Z).
Notation g := (Z.of_nat (n_ng S)).
Hypothesis HL : length (n_bcs S) = 3%nat.
Hypothesis Hg : (1 <= n_ng S)%nat.
Hypothesis HF : Forall (fit_dim (n_ng S) (Nat.ltb 0 (n_naux S)) (Z.of_nat (n_neq S))) (n_bcs S).
Lemma equil_unsplit3 q aux qbc0 auxbc0 : described (n_order S) trans -> (forall d, (d < 3)%nat -> splits_nothing3 (n_neq S) (rpt d) (rptt d)) -> split_equilibrium S q aux ->
  exists q' cfl, unsplit3_step undef S rpt rptt stale trans q aux qbc0 auxbc0 = MStepped q' cfl /\ equal_cells S q q'.
Proof.
  intros HD HT EQ. unfold unsplit3_step.
  destruct (C13_ghost_cells Q Qopp (n_ng S) (Nat.ltb 0 (n_naux S)) (n_funs S) (Z.of_nat (n_neq S)) (n_bcs S) q aux qbc0 auxbc0 Hg HF) as (qbc & auxbc & -> & Aq & Aa & _ & Ai).
  cbv zeta. eexists. eexists. split; [reflexivity|]. intros m ix Hm Hx. unfold set_q_from_qbc.
  assert (Hn : Forall (fun n => 0 <= n)%Z (map ncells (n_bcs S))) by (apply cells_nonneg; first [assumption|lia]).
  rewrite <- (Ai m ix Hx). apply step3_keeps; try assumption.
  intros d jx Hd HJ. pose proof (shift_fwd g jx) as SF. set (pos := shift (- g) jx) in *. rewrite <- SF in HJ. rewrite <- SF.
  assert (BX : in_box (n_ng S) (n_bcs S) pos /\ in_box (n_ng S) (n_bcs S) (lower d pos)) by (apply face_box; first [assumption|lia]).
  destruct BX as [B1 B2].
  assert (LP : (d < length pos)%nat) by (destruct HJ as [HJ _]; rewrite shift_length in HJ; lia).
  rewrite !lower_shift by exact LP.
  assert (V : forall p, in_box (n_ng S) (n_bcs S) p -> cell_vec (n_neq S) qbc (shift g p) = q_cell S q p /\ cell_vec (n_naux S) auxbc (shift g p) = aux_cell S aux p).
  { intros p Hp. unfold cell_vec, vec, q_cell, aux_cell. split.
    - apply map_ext. intro c. apply Aq. exact Hp.
    - destruct (n_naux S) as [|n] eqn:En; [reflexivity|]. apply map_ext. intro c. apply Aa; [reflexivity|exact Hp]. }
  destruct (V pos B1) as [-> ->]. destruct (V _ B2) as [-> ->]. apply EQ; [lia|exact HJ].
Qed.
End U3Step.
