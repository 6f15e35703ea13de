(** C167 for linear multistep methods. *)
From Verif Require Import Base BCModel BCSpec LimiterModel Classic1DModel Classic1DSpec Classic1DProps TimeModel CapaSpec
  SymProps SharpModel SharpSpec MultiModel SemiModel SemiSpec SemiProps SemiProofs2 EquilSpec EquilProofs2 EquilProofs3 EquilProps EquilProps2.

(** A call of evolve_to_time with the general linear multistep integrator, with any coefficients whose alpha sum to 1 and any number of steps,
    start-up by SSP104 included, without a capacity function (with one the slopes on solution and registers differ, C81): the solution keeps the initial data, after each attempted step and at the end. *)
Theorem C167_lmm_run :
  forall M C aux qbc0 auxbc0 (DX : Type) (before : sol (Z * Z -> Q) DX -> DX) speed hook steps check alpha beta
    (s : solver (hist (Z * Z))) (so : sol (Z * Z -> Q) DX) tend,
  (3 <= c_ng C)%nat -> fit_dim (c_ng C) (Nat.ltb 0 (c_naux C)) (Z.of_nat (c_neq C)) (c_bc C) -> regular C -> at_rest C ->
  wave_based C M -> c_capa C = None -> equilibrium C (as_arr (sq so)) aux ->
  (forall t u, same_cells C (sq so) u -> same_cells C (sq so) (hook t u)) ->
  length alpha = Z.to_nat steps -> (1 <= steps)%Z -> qsum alpha == 1 ->
  (** a fresh solver: the registers are copies of the solution and nothing else is saved *)
  Forall (fun r => fst r = sq so) (h_regs (ext s)) -> h_fs (ext s) = [] -> h_dqdt (ext s) = (fun _ => 0) ->
  let r := multi_evolve (rhs M (register_settings M C) aux qbc0 auxbc0) speed hook LMM steps check alpha beta before s so tend in
  same_cells C (sq so) (sq (r_sol r)) /\
  Forall (fun ev => same_cells C (sq so) (sq (ev_after ev))) (r_trace r).
Proof.
  intros M C aux qbc0 auxbc0 DX before speed hook steps check alpha beta s so tend Hng HF HR HA HM _ EQ HH Hl Hs Hsum Hregs Hfs Hdq.
  set (D := fun x : Z * Z => (0 <= fst x < Z.of_nat (c_neq C))%Z /\ (0 <= snd x < cells C)%Z).
  assert (NS : forall u, near D (sq so) u <-> same_cells C (sq so) u).
  { intro u. split; [intros K m i Hm Hi; apply (K (m, i)); split; assumption|intros K [m i] [Hm Hi]; apply K; assumption]. }
  assert (Hf : forall t u, near D (sq so) u -> null D (rhs M (register_settings M C) aux qbc0 auxbc0 t u)).
  { intros t u K [m i] [Hm Hi]. apply (register_null M C aux (sq so)); try assumption; [|apply NS; exact K]. intros k j _ _. reflexivity. }
  assert (Hh : forall t u, near D (sq so) u -> near D (sq so) (hook t u)) by (intros t u K; apply NS, HH, NS; exact K).
  cbv zeta. unfold multi_evolve.
  destruct (evolve_inv (Z * Z -> Q) DX (hist (Z * Z))
     (multi_step (rhs M (register_settings M C) aux qbc0 auxbc0) speed hook LMM steps check alpha beta) (multi_accept LMM steps)
     (fun so => (sq so, before so)) (hist_near (Z * Z) D (sq so)) (near D (sq so))) with (s := s) (so := so) (te := tend) as [[_ HB] HT].
  - intros so' H. exact H.
  - intros ts te s' so' H1 H2. apply lmm_step_near; try assumption. auto.
  - split; [|intros x _; reflexivity]. intros x Hx. repeat split.
    + eapply Forall_impl; [|exact Hregs]. intros r ->. reflexivity.
    + rewrite Hfs. constructor.
    + rewrite Hdq. reflexivity.
  - split; [apply NS; exact HB|]. eapply Forall_impl; [|exact HT]. intros ev [_ H]. apply NS. exact H.
Qed.

(** One step of the SSP multistep methods of orders 2 and 3, from registers that hold the initial data and slopes taken there. The two
    conditions on the steps say that the formulas do not divide by zero. *)
Theorem C167_ssplmm_partial :
  forall M C aux qbc0 auxbc0 dt steps dts regs fs u0 q q' t,
  (3 <= c_ng C)%nat -> fit_dim (c_ng C) (Nat.ltb 0 (c_naux C)) (Z.of_nat (c_neq C)) (c_bc C) -> regular C -> at_rest C ->
  wave_based C M -> equilibrium C (as_arr u0) aux -> ~ dt == 0 -> ~ qsum (tl dts) == 0 ->
  same_cells C u0 q -> Forall (same_cells C u0) regs ->
  Forall (fun k => exists t u, same_cells C u0 u /\ k = rhs M (register_settings M C) aux qbc0 auxbc0 t u) fs ->
  ssplmm2 dt steps dts regs (rhs M C aux qbc0 auxbc0 t q) q = Some q' \/ ssplmm3 dt steps dts regs fs q = Some q' ->
  same_cells C u0 q'.
Proof.
  intros M C aux qbc0 auxbc0 dt steps dts regs fs u0 q q' t Hng HF HR HA HM EQ Hd Hs Hq Hr Hfs H m i Hm Hi.
  assert (AX : agree C (c_naux C) aux aux) by (intros k j _ _; reflexivity).
  assert (Hr' : Forall (fun r : Z * Z -> Q => r (m, i) == u0 (m, i)) regs) by (eapply Forall_impl; [|exact Hr]; intros r K; apply K; assumption).
  pose proof (at_linear (Z * Z) (m, i)) as HL. destruct H as [H|H].
  - refine (ssplmm2_keeps_L _ (fun u => u (m, i)) HL (u0 (m, i)) dt steps dts regs _ q q' (Hq m i Hm Hi) _ Hr' Hd Hs H).
    apply (rhs_null M C aux u0); assumption.
  - refine (ssplmm3_keeps_L _ (fun u => u (m, i)) HL (u0 (m, i)) dt steps dts regs fs q q' (Hq m i Hm Hi) _ Hr' Hd Hs H).
    eapply Forall_impl; [|exact Hfs]. intros k (t' & u & K & ->). apply (register_null M C aux u0); assumption.
Qed.
(** Whole runs: KeepProps. *)

(** Two-step Adams-Bashforth on the problem of C167_case: three steps are accepted, the last by the multistep formula. *)
Definition ab_alpha : list Q := [0; 1].
Definition ab_beta : list Q := [- (1 # 2); 3 # 2].
Definition ab_u : Z * Z -> Q := fun x => shelf (snd x).
Definition ab_solver : solver (hist (Z * Z)) :=
  mkSolver (1 # 10) None 100 false (9 # 10) 1 (9 # 10) 1000 None None None 0 true (mkHist [(ab_u, 0); (ab_u, 0)] [] [] [] (fun _ => 0) true).
Definition ab_method : method := PyRecon eps36 2 1.
Example C167_lmm_case : let C := sset in let so := mkSol ab_u tt 0 in
  let r := multi_evolve (rhs ab_method (register_settings ab_method C) (bdata shelf) zero_arr zero_arr) (fun _ _ => 4) (fun _ u => u) LMM 2 true
             ab_alpha ab_beta (fun _ => tt) ab_solver so (Some (3 # 10)) in
  (3 <= c_ng C)%nat /\ fit_dim (c_ng C) (Nat.ltb 0 (c_naux C)) (Z.of_nat (c_neq C)) (c_bc C) /\ regular C /\ at_rest C /\
  wave_based C ab_method /\ c_capa C = None /\ equilibrium C (as_arr (sq so)) (bdata shelf) /\
  length ab_alpha = Z.to_nat 2 /\ qsum ab_alpha == 1 /\
  Forall (fun x => fst x = sq so) (h_regs (ext ab_solver)) /\ h_fs (ext ab_solver) = [] /\
  map ev_accepted (r_trace r) = [true; true; true] /\ r_err r = None.
Proof.
  cbv zeta. destruct sset_hyps as (A & B & D & E & S & G).
  split; [exact A|]. split; [exact B|]. split; [exact D|]. split; [exact E|]. split; [constructor|]. split; [reflexivity|]. split; [exact G|].
  split; [reflexivity|]. split; [reflexivity|]. split; [repeat constructor|]. split; [reflexivity|]. split; vm_compute; reflexivity.
Qed.
(** Three steps of size 1/10 saved: the second-order formula has a result. *)
Example C167_ssplmm_case : let q := ab_u in let k := fun _ : Z * Z => 0 in
  ~ (1 # 10) == 0 /\ ~ qsum (tl [0; 1 # 10; 1 # 10]) == 0 /\
  match ssplmm2 (1 # 10) 3 [0; 1 # 10; 1 # 10] [q; q; q] k q with Some y => y (0%Z, 4%Z) == 1 | None => False end.
Proof. split; [discriminate|]. split; [discriminate|]. vm_compute. reflexivity. Qed.
Print Assumptions C167_lmm_run.
Print Assumptions C167_ssplmm_partial.
