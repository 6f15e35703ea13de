(** Proofs about superposition, part 2: runs.  The runs of two solutions are followed together, as one run of pairs; every
    combination of the two is then a run that corresponds to it. *)
From Verif Require Import Base TimeModel ControllerModel BCModel BCSpec Classic1DModel Classic1DSpec RunModel SimSpec SimProofs SymSpec SymProps LinSpec LinProofs.

Section Pairs.
Notation A := (arr Q).
Definition one (so : sol (A * A) A) : sol A A := mkSol (fst (sq so)) (sx so) (st so).
Definition two (so : sol (A * A) A) : sol A A := mkSol (snd (sq so)) (sx so) (st so).
Definition pair_data (f : sol A A -> A * A) (so : sol (A * A) A) : (A * A) * A :=
  ((fst (f (one so)), fst (f (two so))), snd (f (one so))).
Definition pair_hyper (h : Q -> sol A A -> A * A * Q) (d : Q) (so : sol (A * A) A) : (A * A) * A * Q :=
  (pair_data (fun s => fst (h d s)) so, snd (h d (one so))).

Variables (pow : Q -> Q -> Q) (undef : Q -> Q -> Z -> Q) (E : Type) (p : program E).
Notation C := (p_settings p).
Notation L := (p_lang p).
Hypothesis HR : linear_solver (c_neq C) (c_nw C) (c_naux C) (c_rp C).
Hypothesis HU : unlimited C.
Hypothesis Hcapa : capa_in_aux C.
Hypothesis Hng : (2 <= c_ng C)%nat.
Hypothesis HF : fit_dim (c_ng C) (Nat.ltb 0 (c_naux C)) (Z.of_nat (c_neq C)) (c_bc C).
Hypothesis HB : linear_before C (p_before p).
Hypothesis HS : linear_source C (p_source p).
Hypothesis Hsetup : forall s s2, rel_solver eq 1 s s2 -> rel_solver eq 1 (p_setup p s) (p_setup p s2).
Hypothesis Hvalid : forall s s2 so so2, rel_solver eq 1 s s2 -> p_valid p s2 so2 = p_valid p s so.
Notation hyper := (hyper_1d pow undef L C (p_stale p)).

Lemma hyper_sum a b d1 d2 d so1 so2 so : d1 == d -> d2 == d -> sum_sol C a b so1 so2 so ->
  sum_data C a b (fst (hyper d1 so1)) (fst (hyper d2 so2)) (fst (hyper d so)) /\
  snd (hyper d1 so1) == snd (hyper d so) /\ snd (hyper d2 so2) == snd (hyper d so).
Proof.
  intros H1 H2 [HD _]. unfold hyper_1d.
  pose proof (step_sum pow undef L C a b d1 d2 d H1 H2 HR HU Hcapa Hng HF (sq so1) (sx so1) (sq so2) (sx so2) (sq so) (sx so)
    (fst (p_stale p d1 so1)) (snd (p_stale p d1 so1)) (fst (p_stale p d2 so2)) (snd (p_stale p d2 so2)) (fst (p_stale p d so)) (snd (p_stale p d so)) HD) as K.
  destruct (step_hyperbolic pow undef L (with_dt C d1) _ _ _ _) as [u1 c1|e1|];
    destruct (step_hyperbolic pow undef L (with_dt C d2) _ _ _ _) as [u2 c2|e2|];
    destruct (step_hyperbolic pow undef L (with_dt C d) _ _ _ _) as [u3 c3|e3|]; try contradiction K; cbn [fst snd].
  - destruct K as (K1 & K2 & K3). destruct HD as (_ & HX). split; [|split; assumption]. split; [|exact HX].
    intros m i Hm Hi. cbn [fst hd]. apply K3; assumption.
  - split; [exact HD|]. split; reflexivity.
Qed.

Section Combination.
Variables a b : Q.
Definition RQ (u : A * A) (q : A) : Prop := sum_q C a b (fst u) (snd u) q.
Notation RX := (same_x C).
Lemma split_sol so2 so : rel_sol RQ RX 1 so2 so -> sum_sol C a b (one so2) (two so2) so.
Proof.
  intros (H1 & H2 & H3). rewrite Qmult_1_l in H3. split; [|split; symmetry; exact H3]. split; [exact H1|]. split; exact H2.
Qed.
Lemma pair_rel f so2 so : sum_data C a b (f (one so2)) (f (two so2)) so -> rel_data RQ RX (pair_data f so2) so.
Proof. intros (H1 & H2 & _). split; [exact H1|exact H2]. Qed.
Lemma pair_rel_hyper : rel_hyper RQ RX 1 (pair_hyper hyper) hyper.
Proof.
  intros d d2 so so2 Hd Hso. rewrite Qmult_1_l in Hd.
  destruct (hyper_sum a b d d d2 (one so) (two so) so2) as (K1 & K2 & _); [symmetry; exact Hd|symmetry; exact Hd|apply split_sol; exact Hso|].
  split; [|symmetry; exact K2]. exact (pair_rel (fun s => fst (hyper d s)) so _ K1).
Qed.
Lemma pair_rel_before : rel_before RQ RX 1 (pair_data (p_before p)) (p_before p).
Proof. intros so so2 Hso. apply pair_rel. apply HB. apply split_sol. exact Hso. Qed.
Lemma pair_rel_source : rel_source RQ RX 1 (option_map (fun f d => pair_data (f d)) (p_source p)) (p_source p).
Proof.
  unfold rel_source. destruct (p_source p) as [f|]; [|exact I]. cbn [option_map]. intros d d2 so so2 Hd Hso. rewrite Qmult_1_l in Hd.
  apply pair_rel. apply HS; [symmetry; exact Hd|symmetry; exact Hd|]. apply split_sol. exact Hso.
Qed.
Definition pair_evolve : solver E -> sol (A * A) A -> option Q -> result (A * A) A E :=
  classic_evolve (option_map (fun f d => pair_data (f d)) (p_source p)) (pair_hyper hyper) (p_split p) (pair_data (p_before p)).
Lemma pair_sim s s2 so so2 te te2 : rel_solver eq 1 s s2 -> rel_sol RQ RX 1 so so2 -> times 1 te te2 ->
  rel_result RQ RX eq 1 (pair_evolve s so te) (evolve_of pow undef p s2 so2 te2).
Proof.
  intros Hs Hso Hte. unfold pair_evolve, evolve_of. apply sim_classic; try assumption; [reflexivity|exact pair_rel_source|exact pair_rel_hyper|exact pair_rel_before|].
  right. reflexivity.
Qed.
Definition pair_control {P F} (c : controller A A P F) : controller (A * A) A P F :=
  mkController (c_style c) (c_tfinal c) (c_num c) (c_times c) (c_nstepout c) (c_keep c) (c_aux_init c) (c_aux_always c) (c_output c) (c_overwrite c) None None.
Definition pair_run {P F} (c : controller A A P F) (w : world (A * A) A E P F) :=
  run pair_evolve (p_setup p) (fun s so => p_valid p s (one so)) (pair_control c) w.
Lemma pair_run_sim {P F} (c : controller A A P F) w w2 : c_p c = None -> c_F c = None ->
  rel_world RQ RX eq eq eq 1 w w2 ->
  rel_world RQ RX eq eq eq 1 (fst (pair_run c w)) (fst (run_of pow undef p c w2)) /\ snd (run_of pow undef p c w2) = snd (pair_run c w).
Proof.
  intros H1 H2 Hw. unfold pair_run, run_of.
  apply (sim_run RQ RX eq eq eq 1 _ _ _ _ _ _ (fun _ => True)); try assumption; try (intros; exact I); try reflexivity.
  - intros s s2 so so2 te te2 _. apply pair_sim.
  - intros s s2 _. apply Hsetup.
  - intros s s2 so so2 Hs _. apply Hvalid. exact Hs.
  - constructor; cbn [pair_control c_style c_tfinal c_num c_times c_nstepout c_keep c_aux_init c_aux_always c_output c_overwrite c_p c_F]; try reflexivity.
    + ring.
    + induction (c_times c); constructor; [ring|assumption].
    + rewrite H1. exact I.
    + rewrite H2. exact I.
Qed.
End Combination.
End Pairs.
