(** Options and problem data: which values a step uses. *)
From Verif Require Import Base SettingsModel SettingsSpec SettingsProofs.

(** C102, complete description: the kernel called, fwave and (with Python kernels) the order and the capacity
    component are those of the moment. With Fortran kernels the order, the code for dimensional splitting and
    transverse waves, the capacity component and the number of auxiliary fields, and in all cases the limiters, are
    those at the solver's first step. *)
Theorem C102_what_reaches_the_kernel solvers names opts0 states0 os s i w :
  exec_all solvers names (os ++ [Step s i]) (start opts0 states0) = Some w ->
  exists calls k pre j, s_calls w = calls ++ [(s, i, k)] /\
    first_step s [] (os ++ [Step s i]) = Some (pre, j) /\
    let now := asked names (solvers s) (current_options opts0 os s) (current_state states0 os i) in
    let first := asked names (solvers s) (current_options opts0 pre s) (current_state states0 pre j) in
    k_split k = k_split now /\ k_fwave k = k_fwave now /\ k_limiters k = k_limiters first /\
    match lang (solvers s) with
    | Fortran => k_order k = k_order first /\ k_code k = k_code first /\ k_capa k = k_capa first /\ k_naux k = k_naux first
    | Python => k_order k = k_order now /\ k_code k = k_code now /\ k_capa k = k_capa now /\ k_naux k = k_naux now
    end.
Proof.
  intro E. destruct (last_call _ _ _ _ _ _ _ _ E) as (calls & pre & j & E1 & E2). eexists calls, _, pre, j.
  split; [exact E1|]. split; [exact E2|]. cbv zeta. unfold asked.
  destruct (lang (solvers s)); cbn; repeat split; reflexivity.
Qed.
Print Assumptions C102_what_reaches_the_kernel.

(** and a solver whose first step succeeds had one limiter, or one for each wave, at that moment: with any other number
    the step raises. *)
Theorem C102_number_of_limiters solvers names opts0 states0 os s w pre j :
  exec_all solvers names os (start opts0 states0) = Some w ->
  first_step s [] os = Some (pre, j) ->
  let o := current_options opts0 pre s in
  length (limiters o) = 1%nat \/ length (limiters o) = num_waves o.
Proof.
  intros E F o. pose proof (run_limiters solvers names opts0 states0 os w E s pre j F) as K. fold o in K.
  unfold each_wave in K. destruct (limiters o) as [|x [|y r]]; [right|left|right]; try exact K. reflexivity.
Qed.
Print Assumptions C102_number_of_limiters.
Example C102_limiters_example :
  exec_all (fun s => mkBuilt 2 Fortran 0) (fun _ => [0%Z]) [Step 0 0]
    (start (fun _ => mkOptions 2 [4%Z] 3 false true 2) (fun _ => mkState (-1) 0 (fun _ => Some 1))) <> None
  /\ exec_all (fun s => mkBuilt 2 Fortran 0) (fun _ => [0%Z]) [Step 0 0]
    (start (fun _ => mkOptions 2 [4%Z; 1%Z] 3 false true 2) (fun _ => mkState (-1) 0 (fun _ => Some 1))) = None.
Proof. split; [discriminate|reflexivity]. Qed.

(** C102: every step uses the options that the solver has at that moment. Proved when the options of the solver and
    the capacity component and number of auxiliary fields of the solution are what they were at the solver's first
    step; problem data are the subject of C103. *)
Theorem C102_options_partial solvers names opts0 states0 os s i w pre j :
  exec_all solvers names (os ++ [Step s i]) (start opts0 states0) = Some w ->
  first_step s [] (os ++ [Step s i]) = Some (pre, j) ->
  current_options opts0 pre s = current_options opts0 os s ->
  index_capa (current_state states0 pre j) = index_capa (current_state states0 os i) ->
  num_aux (current_state states0 pre j) = num_aux (current_state states0 os i) ->
  exists calls p, let k := asked names (solvers s) (current_options opts0 os s) (current_state states0 os i) in
    s_calls w = calls ++ [(s, i, mkCall (k_split k) (k_order k) (k_code k) (k_capa k) (k_naux k) (k_limiters k) (k_fwave k) p)].
Proof.
  intros E F HO HC HA. destruct (last_call _ _ _ _ _ _ _ _ E) as (calls & pre' & j' & E1 & E2).
  rewrite F in E2. injection E2 as <- <-. cbv zeta in *. rewrite E1. unfold asked. rewrite HO.
  destruct (lang (solvers s)); cbn [k_split k_order k_code k_capa k_naux k_limiters k_fwave]; rewrite ?HC, ?HA;
    eexists; eexists; reflexivity.
Qed.
Print Assumptions C102_options_partial.

(** With Python kernels only the limiters and num_waves have to be unchanged *)
Theorem C102_python_options_partial solvers names opts0 states0 os s i w pre j :
  exec_all solvers names (os ++ [Step s i]) (start opts0 states0) = Some w ->
  lang (solvers s) = Python -> first_step s [] (os ++ [Step s i]) = Some (pre, j) ->
  limiters (current_options opts0 pre s) = limiters (current_options opts0 os s) ->
  num_waves (current_options opts0 pre s) = num_waves (current_options opts0 os s) ->
  exists calls, s_calls w = calls ++ [(s, i, asked names (solvers s) (current_options opts0 os s) (current_state states0 os i))].
Proof.
  intros E El F HL HW. destruct (last_call _ _ _ _ _ _ _ _ E) as (calls & pre' & j' & E1 & E2).
  rewrite F in E2. injection E2 as <- <-. cbv zeta in *. rewrite E1. exists calls. unfold asked. rewrite El.
  cbn [k_limiters]. unfold each_wave. rewrite HL, HW. reflexivity.
Qed.
Print Assumptions C102_python_options_partial.

(** A two-dimensional Fortran solver, and what an assignment after the first step does *)
Definition ex_solvers : nat -> built := fun s => mkBuilt 2 Fortran 0.
Definition ex_names : nat -> list Z := fun _ => [0%Z].
Definition ex_options : options := mkOptions 2 [4%Z] 2 false true 2.
Definition ex_state (v : Q) : pstate := mkState (-1) 0 (fun k => if (k =? 0)%Z then Some v else None).

(** Switching to first order has no effect; switching off dimensional splitting calls the unsplit kernel with the
    code of the split one, which is neither what the old nor what the new options ask for. *)
Theorem C102_options_refuted : exists os w k,
  exec_all ex_solvers ex_names (os ++ [Step 0 0]) (start (fun _ => ex_options) (fun _ => ex_state 1)) = Some w /\
  os = [Step 0 0; SetOptions 0 (mkOptions 1 [1%Z] 2 false false 2)]%nat /\
  In (0%nat, 0%nat, k) (skipn 1 (s_calls w)) /\
  let old := asked ex_names (ex_solvers 0) ex_options (ex_state 1) in
  let new := asked ex_names (ex_solvers 0) (mkOptions 1 [1%Z] 2 false false 2) (ex_state 1) in
  k_order k <> k_order new /\ k_limiters k <> k_limiters new /\
  k_split k = k_split new /\ k_code k = k_code old /\ k_split k <> k_split old /\ k_code k <> k_code new.
Proof.
  eexists _, _, _. split; [|split; [reflexivity|]].
  - cbn. reflexivity.
  - split; [left; reflexivity|]. cbn. repeat split; discriminate.
Qed.
Print Assumptions C102_options_refuted.

Example C102_example : exists w,
  exec_all ex_solvers ex_names ([SetOptions 0 (mkOptions 1 [1%Z; 3%Z] 2 true false 0); Step 0 0; Step 1 0] ++ [Step 0 0])
    (start (fun _ => ex_options) (fun _ => ex_state 1)) = Some w /\
  map (fun c => (k_order (snd c), k_limiters (snd c))) (s_calls w) =
    [(1, [1; 3]); (2, [4; 4]); (1, [1; 3])]%Z.
Proof. eexists. split; [cbn; reflexivity|reflexivity]. Qed.

(** C103: the Riemann solver uses the problem data that the solution has at that moment. Proved with Python kernels; *)
Theorem C103_python solvers names opts0 states0 os s i w :
  exec_all solvers names (os ++ [Step s i]) (start opts0 states0) = Some w -> lang (solvers s) = Python ->
  exists calls k, s_calls w = calls ++ [(s, i, k)] /\
    k_params k = map (problem_data (current_state states0 os i)) (names (module (solvers s))).
Proof.
  intros E El. destruct (last_call _ _ _ _ _ _ _ _ E) as (calls & pre' & j' & E1 & _). exists calls.
  eexists. split; [exact E1|]. cbv zeta. rewrite El. reflexivity.
Qed.
Print Assumptions C103_python.

(** with Fortran kernels, when the solutions stepped so far by solvers with this Riemann solver all had the same
    values of its parameters as this solution has now; *)
Theorem C103_problem_data_partial solvers names opts0 states0 os s i w :
  exec_all solvers names (os ++ [Step s i]) (start opts0 states0) = Some w -> lang (solvers s) = Fortran ->
  (forall p t j q k, os = p ++ Step t j :: q -> module (solvers t) = module (solvers s) -> In k (names (module (solvers s))) ->
     problem_data (current_state states0 p j) k = problem_data (current_state states0 os i) k) ->
  exists calls k, s_calls w = calls ++ [(s, i, k)] /\
    k_params k = map (problem_data (current_state states0 os i)) (names (module (solvers s))).
Proof.
  intros E El H. destruct (last_call _ _ _ _ _ _ _ _ E) as (calls & pre' & j' & E1 & _). exists calls.
  eexists. split; [exact E1|]. cbv zeta. rewrite El. cbn [k_params].
  pose proof (stepped_module_set_up solvers states0 os s i El) as N.
  destruct (last_setup solvers states0 (module (solvers s)) [] (os ++ [Step s i]) None) as [st|] eqn:Els; [|congruence].
  destruct (last_setup_step _ _ _ _ _ _ _ Els) as [K|(p & t & j & q & K1 & K2 & K3 & K4)]; [discriminate K|].
  cbn [app] in K4. apply map_ext_in. intros k Hk. subst st.
  destruct q as [|a q] using rev_ind.
  - apply app_inj_tail in K1. destruct K1 as (-> & K). injection K as <- <-. reflexivity.
  - clear IHq. rewrite app_comm_cons, app_assoc in K1. apply app_inj_tail in K1. destruct K1 as (K1 & _).
    exact (H p t j q k K1 K3 Hk).
Qed.
Print Assumptions C103_problem_data_partial.

(** in general it uses those of the solution with which a solver with this Riemann solver was last set up. *)
Theorem C103_last_set_up solvers names opts0 states0 os s i w :
  exec_all solvers names (os ++ [Step s i]) (start opts0 states0) = Some w -> lang (solvers s) = Fortran ->
  exists calls k st, s_calls w = calls ++ [(s, i, k)] /\
    last_setup solvers states0 (module (solvers s)) [] (os ++ [Step s i]) None = Some st /\
    k_params k = map (problem_data st) (names (module (solvers s))).
Proof.
  intros E El. destruct (last_call _ _ _ _ _ _ _ _ E) as (calls & pre' & j' & E1 & _).
  pose proof (stepped_module_set_up solvers states0 os s i El) as N.
  destruct (last_setup solvers states0 (module (solvers s)) [] (os ++ [Step s i]) None) as [st|] eqn:Els; [|congruence].
  exists calls. eexists. exists st. split; [exact E1|]. split; [reflexivity|]. cbv zeta. rewrite El. cbn [k_params]. rewrite Els.
  reflexivity.
Qed.
Print Assumptions C103_last_set_up.

(** A later assignment has no effect, and the set-up of another solver with the same Riemann solver changes the
    parameters of the first one. *)
Theorem C103_problem_data_refuted : exists w,
  exec_all ex_solvers ex_names [Step 0 0; SetState 0 (ex_state 7); Step 0 0]
    (start (fun _ => ex_options) (fun i => ex_state (inject_Z (Z.of_nat i)))) = Some w /\
  map (fun c => k_params (snd c)) (s_calls w) = [[Some 0]; [Some 0]].
Proof. eexists. split; [cbn; reflexivity|reflexivity]. Qed.
Print Assumptions C103_problem_data_refuted.
Theorem C103_two_solvers_refuted : exists w,
  exec_all ex_solvers ex_names [Step 0 0; Step 1 1; Step 0 0]
    (start (fun _ => ex_options) (fun i => ex_state (inject_Z (Z.of_nat i)))) = Some w /\
  map (fun c => (fst c, k_params (snd c))) (s_calls w) =
    [(0%nat, 0%nat, [Some 0]); (1%nat, 1%nat, [Some 1]); (0%nat, 0%nat, [Some 1])].
Proof. eexists. split; [cbn; reflexivity|reflexivity]. Qed.
Print Assumptions C103_two_solvers_refuted.

Example C103_example : exists w,
  exec_all (fun s => mkBuilt 1 Fortran s) ex_names ([Step 0 0; Step 1 1] ++ [Step 0 0])
    (start (fun _ => ex_options) (fun i => ex_state (inject_Z (Z.of_nat i)))) = Some w /\
  map (fun c => (fst c, k_params (snd c))) (s_calls w) =
    [(0%nat, 0%nat, [Some 0]); (1%nat, 1%nat, [Some 1]); (0%nat, 0%nat, [Some 0])].
Proof. eexists. split; [cbn; reflexivity|reflexivity]. Qed.
