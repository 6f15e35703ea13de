(** Corresponding problems: whole runs of the 1D classic solver. *)
From Verif Require Import Base BCModel BCSpec BCProofs LimiterModel LimiterSpec LimiterProofs
  Classic1DModel Classic1DSpec Classic1DProofs Classic1DProofs2 Classic1DProofs3 TimeModel ControllerModel RunModel
  SimSpec SymSpec SymProofs SymProofs2 SymProofs3 SimProofs.

Lemma place_onto g n i2 : (1 <= n)%Z -> (0 <= i2 < n)%Z -> exists i, (0 <= i < n)%Z /\ place g n i = i2.
Proof.
  intros Hn Hi. unfold place. destruct (g_mirror g).
  - exists ((n - 1 - (i2 - g_move g)) mod n)%Z. pose proof (Z.mod_pos_bound (n - 1 - (i2 - g_move g)) n ltac:(lia)). split; [lia|].
    pose proof (Z.div_mod (n - 1 - (i2 - g_move g)) n ltac:(lia)) as E. set (c := ((n - 1 - (i2 - g_move g)) / n)%Z) in *.
    replace (n - 1 - (n - 1 - (i2 - g_move g)) mod n + g_move g)%Z with (i2 + c * n)%Z by lia.
    rewrite Z.mod_add by lia. apply Z.mod_small. lia.
  - exists ((i2 - g_move g) mod n)%Z. pose proof (Z.mod_pos_bound (i2 - g_move g) n ltac:(lia)). split; [lia|].
    pose proof (Z.div_mod (i2 - g_move g) n ltac:(lia)) as E. set (c := ((i2 - g_move g) / n)%Z) in *.
    replace ((i2 - g_move g) mod n + g_move g)%Z with (i2 + (- c) * n)%Z by lia.
    rewrite Z.mod_add by lia. apply Z.mod_small. lia.
Qed.

(** The time loop does not change whether steps are fixed. *)
Section Mode.
Context {DQ DX E : Type}.
Lemma clip_mode t ts te (s : solver E) : dt_variable (get_dt_clip t ts te s) = dt_variable s.
Proof. unfold get_dt_clip. destruct te; [|reflexivity]. cbv zeta. destruct (_ && _)%bool; destruct (qltb _ _); reflexivity. Qed.
Lemma choose_mode (s : solver E) : dt_variable (get_dt_choose get_dt_new s) = dt_variable s.
Proof. unfold get_dt_choose. destruct (_ && _)%bool; [destruct (qltb _ _)|]; reflexivity. Qed.
Lemma classic_step_mode src hyper sp ts te (s : solver E) (so : sol DQ DX) : dt_variable (fst (classic_step src hyper sp ts te s so)) = dt_variable s.
Proof.
  unfold classic_step. destruct (hyper _ _) as [[q x] c]. cbv zeta. set (s1 := set_cfl _ (set_cfl _ _)).
  assert (X : dt_variable s1 = dt_variable s) by (unfold s1, get_dt; cbn [set_cfl dt_variable]; rewrite clip_mode; apply choose_mode).
  destruct (qleb _ _); [exact X|]. destruct src; [|exact X]. destruct (Z.eqb sp 2); [exact X|]. destruct (Z.eqb sp 1); exact X.
Qed.
Variables (stepf : Q -> option Q -> solver E -> sol DQ DX -> solver E * sol DQ DX) (acceptf : solver E -> bool) (before : sol DQ DX -> DQ * DX).
Hypothesis Hstep : forall ts te s so, dt_variable (fst (stepf ts te s so)) = dt_variable s.
Lemma attempt_mode ts te n s so : dt_variable (fst (fst (fst (attempt stepf acceptf before ts te n s so)))) = dt_variable s.
Proof.
  unfold attempt. pose proof (Hstep ts te s (mkSol (fst (before so)) (snd (before so)) (st so))) as K.
  destruct (stepf ts te s _) as [s1 so1]. cbn [fst] in K. cbv zeta. destruct (acceptf s1); [exact K|].
  cbn [set_accept_step dt_variable]. destruct (dt_variable s1) eqn:EV; cbn [fst set_accept_step set_st_cflmax dt_variable]; congruence.
Qed.
Lemma loop_mode k : forall n ts te s so num tr, dt_variable (fst (fst (fst (fst (evolve_loop stepf acceptf before k n ts te s so num tr))))) = dt_variable s.
Proof.
  induction k as [|k IH]; intros; cbn [evolve_loop]; [reflexivity|].
  pose proof (attempt_mode ts te n s so) as K. destruct (attempt stepf acceptf before ts te n s so) as [[[s' so'] ev] e]. cbn [fst] in K.
  destruct e; [exact K|]. destruct (finished te so'); [exact K|]. rewrite IH. exact K.
Qed.
Lemma evolve_mode s so te : dt_variable (r_solver (evolve_to_time stepf acceptf before s so te)) = dt_variable s.
Proof.
  unfold evolve_to_time.
  assert (K : dt_variable (fst (evolve_setup (st so) te s)) = dt_variable s).
  { unfold evolve_setup. destruct (dt_variable s) eqn:EV.
    - destruct (_ && _)%bool; [exact EV|]. destruct te; [|exact EV]. destruct (qleb _ _); exact EV.
    - destruct te as [te|].
      + destruct (qeqb _ _); [exact EV|]. destruct (qltb _ _); [exact EV|]. cbn [set_max_steps dt_variable]. rewrite EV. cbn [andb].
        destruct (qleb _ _); exact EV.
      + cbn [set_max_steps dt_variable]. rewrite EV. exact EV. }
  destruct (evolve_setup (st so) te s) as [s1 e1]. cbn [fst] in K. destruct e1; [exact K|].
  pose proof (loop_mode (Z.to_nat (max_steps s1)) 0 (st so) te s1 so 0 []) as KL.
  destruct (evolve_loop _ _ _ _ _ _ _ _ _ _ _) as [[[[s3 so3] num] tr] e3]. cbn [fst] in KL. destruct e3; cbn [r_solver]; congruence.
Qed.
End Mode.

Section Program.
Context {E E2 P P2 F F2 : Type}.
Variables (pow : Q -> Q -> Q) (undef : Q -> Q -> Z -> Q) (g : change) (RE : E -> E2 -> Prop) (RP : P -> P2 -> Prop) (RF : F -> F2 -> Prop)
  (p : program E) (p2 : program E2).
Hypothesis HF : fit_program g p.
Hypothesis HP : same_program g RE p p2.
Notation C := (p_settings p).
Notation RQ := (same_q g C).
Notation RX := (same_aux g C).
Notation T := (g_time g).

Lemma hyper_sim : rel_hyper RQ RX T (hyper_1d pow undef (p_lang p) C (p_stale p)) (hyper_1d pow undef (p_lang p2) (p_settings p2) (p_stale p2)).
Proof.
  intros d d2 so so2 Hd (HQ & HX & Ht). destruct HF as [F1 F2' F3 F4 F5 F6 F7]. destruct HP as [Q1 Q2 _ _ _ _ _].
  unfold hyper_1d. rewrite Q1.
  pose proof (step_rel pow undef (p_lang p) g C (p_settings p2) F1 Q2 F2' F3 F4 F5 F6 F7 d d2 (sq so) (sx so) (sq so2) (sx so2)
    (fst (p_stale p d so)) (snd (p_stale p d so)) (fst (p_stale p2 d2 so2)) (snd (p_stale p2 d2 so2)) Hd HQ HX) as K.
  destruct (step_hyperbolic pow undef (p_lang p) (with_dt C d) _ _ _ _) as [q' c|e|];
    destruct (step_hyperbolic pow undef (p_lang p) (with_dt (p_settings p2) d2) _ _ _ _) as [q2' c2|e2|]; try contradiction K; cbn [fst snd].
  - destruct K as [K1 K2]. split; [|exact K1]. split; [|exact HX]. intros m i Hm Hi. cbn [hd]. apply K2; assumption.
  - split; [split; [exact HQ|exact HX]|reflexivity].
Qed.
Lemma T_pos : 0 < T.
Proof. destruct HF as [(H & _) _ _ _ _ _ _]. exact H. Qed.
Theorem program_evolve s s2 so so2 te te2 : dt_variable s = true \/ T == 1 ->
  rel_solver RE T s s2 -> rel_sol RQ RX T so so2 -> times T te te2 ->
  rel_result RQ RX RE T (evolve_of pow undef p s so te) (evolve_of pow undef p2 s2 so2 te2).
Proof.
  intros HV Hs Hso Hte. unfold evolve_of. rewrite (sp_split _ _ _ _ HP).
  apply sim_classic; try assumption; [exact T_pos|exact (sp_source _ _ _ _ HP)|exact hyper_sim|exact (sp_before _ _ _ _ HP)].
Qed.
Theorem program_run (c : controller (arr Q) (arr Q) P F) (c2 : controller (arr Q) (arr Q) P2 F2) w w2 :
  T == 1 \/ dt_variable (w_solver w) = true /\ keeps_mode p ->
  rel_controller RQ RX RP RF T c c2 -> rel_world RQ RX RE RP RF T w w2 ->
  rel_world RQ RX RE RP RF T (fst (run_of pow undef p c w)) (fst (run_of pow undef p2 c2 w2)) /\
  snd (run_of pow undef p2 c2 w2) = snd (run_of pow undef p c w).
Proof.
  intros HV Hc Hw. unfold run_of.
  apply (sim_run RQ RX RE RP RF T _ _ _ _ _ _ (fun s => T == 1 \/ dt_variable s = true /\ keeps_mode p)); try assumption.
  - intros s so te [K|[K1 K2]]; [left; exact K|right; split; [|exact K2]]. unfold evolve_of, classic_evolve.
    rewrite evolve_mode; [exact K1|]. intros. apply classic_step_mode.
  - intros s s2 so so2 te te2 HO. apply program_evolve. destruct HO as [K|[K _]]; auto.
  - intros s s2 _. apply (sp_setup _ _ _ _ HP).
  - intros s [K|[K1 K2]]; [left; exact K|right; split; [|exact K2]]. rewrite K2. exact K1.
  - exact (sp_valid _ _ _ _ HP).
Qed.
End Program.
