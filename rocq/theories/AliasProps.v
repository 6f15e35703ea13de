(** Properties C97 to C99: memory shared between solutions and solvers. *)
From Verif Require Import Base AliasModel AliasSpec AliasProofs AliasProofs2 AliasProofs3.
Local Open Scope nat_scope.

(** *** C97 Solutions behave as values

    A program that uses each classic solver for one solution only computes what it means to a user who does not
    think about memory: nothing raises, and every solution has the values that its own operations give it,
    through any number of steps, rejected steps, changes in place, copies and set-ups. *)
Theorem C97_own_solvers : forall owner os m,
  program owner nothing os m ->
  exists w, exec_all os empty_world = Done w /\
    forall x, values_of x w = option_map u_vals (nth_error (m_sols m) x).
Proof. exact program_correct. Qed.

(** *** C98 Evolving one solution never changes another

    The last operation of such a program changes no solution but the one it names. Missing: programs in which one
    classic solver advances several solutions, see [C98_shared_solver] and [C98_others_unchanged_refuted]. *)
Theorem C98_others_unchanged_partial : forall owner os o m x,
  program owner nothing (os ++ [o]) m -> changes o <> Some x ->
  exists w w', exec_all os empty_world = Done w /\ exec o w = Done w' /\
    (x < length (w_sols w) -> values_of x w' = values_of x w).
Proof. exact bystanders. Qed.

(** One classic solver that advances a solution and then another: both are then the same values, whatever they
    were before and whatever the steps compute. *)
Theorem C98_shared_solver : forall s x y b1 h1 a1 b2 h2 a2 w w1 w2,
  x <> y ->
  exec (Step s x b1 h1 a1 true) w = Done w1 -> exec (Step s y b2 h2 a2 true) w1 = Done w2 ->
  values_of x w2 = values_of y w2 /\ values_of x w2 <> None.
Proof. exact shared_solver. Qed.

(** Three cells, one component, one ghost cell: periodic ghost cells and advection by one cell *)
Definition shift (l : list Q) : list Q :=
  match l with
  | [_; a; b; c; _] => [c; c; a; b; a]
  | _ => l
  end.
Lemma shift_fills : fills_ghosts 1 [1; 3] shift.
Proof.
  split.
  - intros u H. destruct u as [|? [|? [|? [|? [|? [|? ?]]]]]]; try discriminate. reflexivity.
  - intros a b Ha Hb E.
    destruct a as [|? [|? [|? [|? [|? [|? ?]]]]]]; try discriminate.
    destruct b as [|? [|? [|? [|? [|? [|? ?]]]]]]; try discriminate.
    cbn in E. injection E as -> -> ->. reflexivity.
Qed.
Definition same (l : list Q) : list Q := l.
Lemma same_keeps n : keeps_size n same.
Proof. intros u H. exact H. Qed.

Definition setting : list op :=
  [New [1; 3] [1; 2; 3]%Q; New [1; 3] [10; 20; 30]%Q; NewSolver 1].

(** The second step, of solution 1, changes solution 0. *)
Theorem C98_others_unchanged_refuted :
  exists os o x w w', exec_all os empty_world = Done w /\ exec o w = Done w' /\
    changes o <> Some x /\ x < length (w_sols w) /\ values_of x w' <> values_of x w.
Proof.
  exists (setting ++ [Step 0 0 same shift same true]), (Step 0 1 same shift same true), 0.
  eexists. eexists. split; [vm_compute; reflexivity|]. split; [vm_compute; reflexivity|].
  split; [discriminate|]. split; [vm_compute; lia|]. vm_compute. discriminate.
Qed.
Example C98_shared_example : exists w1 w2,
  exec (Step 0 0 same shift same true) (mkWorld [[1; 2; 3]; [10; 20; 30]]%Q
     [mkNd 0 0 [(1, 1); (3, 1)]; mkNd 1 0 [(1, 1); (3, 1)]] [mkSolver 1 None]) = Done w1 /\
  exec (Step 0 1 same shift same true) w1 = Done w2 /\
  values_of 0 w1 = Some [3; 1; 2]%Q /\ values_of 0 w2 = Some [30; 10; 20]%Q /\ values_of 1 w2 = Some [30; 10; 20]%Q.
Proof.
  eexists. eexists. split; [vm_compute; reflexivity|]. split; [vm_compute; reflexivity|].
  split; [reflexivity|]. split; reflexivity.
Qed.
(** Another grid size: the step raises. *)
Example C98_other_size_example :
  exec_all [New [1; 3] [1; 2; 3]%Q; New [1; 4] [1; 2; 3; 4]%Q; NewSolver 1;
            Step 0 0 same shift same true; Step 0 1 same shift same true] empty_world = Raised ShapeMismatch.
Proof. vm_compute. reflexivity. Qed.

(** A solver that was set up for another grid: the step is made exactly if each extent of the solution is that of the
    solver's grid or one, and the solution then has the extents of the solver's grid. *)
Lemma broadcast_fits : forall src dst,
  broadcast src dst <> None <-> Forall2 (fun n m => n = m \/ n = 1) (map fst src) (map fst dst).
Proof.
  induction src as [|(n, t) src IH]; intros [|(m, t') dst]; cbn [broadcast map fst].
  - split; [constructor|discriminate].
  - split; [intro K; contradiction|intro K; inversion K].
  - split; [intro K; contradiction|intro K; inversion K].
  - specialize (IH dst). split.
    + intro K. destruct (broadcast src dst) eqn:B; [|contradiction].
      constructor; [|apply IH; discriminate]. destruct (Nat.eqb_spec n m); [left; assumption|].
      destruct (Nat.eqb_spec n 1); [right; assumption|contradiction].
    + intro K. inversion K as [|? ? ? ? K1 K2]; subst. apply IH in K2. destruct (broadcast src dst) eqn:B; [|contradiction].
      destruct (Nat.eqb_spec n m); [discriminate|]. destruct (Nat.eqb_spec n 1); [discriminate|]. destruct K1; contradiction.
Qed.
Theorem C98_other_size : forall s x before hyp after w g b q,
  nth_error (w_solvers w) s = Some (mkSolver g (Some b)) -> nth_error (w_sols w) x = Some q ->
  (Forall2 (fun n m => n = m \/ n = 1) (n_shape q) (n_shape (inner_view g b)) ->
     exists w' q', exec (Step s x before hyp after true) w = Done w' /\ nth_error (w_sols w') x = Some q' /\
       n_shape q' = n_shape (inner_view g b)) /\
  (~ Forall2 (fun n m => n = m \/ n = 1) (n_shape q) (n_shape (inner_view g b)) ->
     exec (Step s x before hyp after true) w = Raised ShapeMismatch).
Proof.
  intros s x before hyp after w g b q Hs Hx.
  pose proof (broadcast_fits (n_dims q) (n_dims (inner_view g b))) as F. fold (n_shape q) (n_shape (inner_view g b)) in F.
  cbn [exec]. unfold evolve_once. rewrite Hs, Hx.
  unfold new_array. cbv zeta. unfold classic_step, set_heap. cbn [w_solvers w_sols w_heap]. rewrite Hs, Hx. unfold assign.
  destruct (broadcast (n_dims q) (n_dims (inner_view g b))) as [ds|].
  - split; [|intro K; exfalso; apply K; apply F; discriminate]. intros _. eexists. exists (inner_view g b). split; [reflexivity|].
    unfold set_sol. cbn [w_sols]. split; [|reflexivity].
    assert (L : x < length (w_sols w)) by (apply nth_error_Some; congruence).
    assert (E : length (firstn x (w_sols w)) = x) by (rewrite firstn_length; lia).
    rewrite nth_error_app2 by (rewrite E; apply Nat.le_refl). rewrite E, Nat.sub_diag. reflexivity.
  - split; [intro K; apply F in K; contradiction|]. reflexivity.
Qed.
Example C98_one_cell_example : exists w,
  exec_all [New [1; 3] [1; 2; 3]%Q; New [1; 1] [7]%Q; NewSolver 1;
            Step 0 0 same shift same true; Step 0 1 same shift same true] empty_world = Done w /\
  values_of 1 w = Some [7; 7; 7]%Q.
Proof. eexists. split; vm_compute; reflexivity. Qed.

(** Each solution with a solver of its own, a copy, a rejected step, a change in place *)
Definition fair : list op :=
  setting ++ [NewSolver 1; Step 0 0 same shift same true; Step 1 1 same shift same true; Copy 0;
              Step 0 0 same shift same false; Write 0 (map (fun v => v + 1)%Q); Setup 1 1;
              Step 1 1 same shift same true; Step 0 0 same shift same true].
Example C97_example : exists m, program (fun s => s) nothing fair m /\
  map u_vals (m_sols m) = [[2 + 1; 3 + 1; 1 + 1]; [20; 30; 10]; [3; 1; 2]]%Q.
Proof.
  eexists. split.
  - unfold fair, setting. cbn [app].
    assert (St : forall s x u g ok (m : meaning),
      x = s -> nth_error (m_sols m) x = Some u -> nth_error (m_ghosts m) s = Some g -> u_shape u = [1; 3] -> g = 1 ->
      proper (fun s => s) m (Step s x same shift same ok)).
    { intros s x u g ok m -> Hu Hg Es ->. exists u, 1. rewrite Es.
      split; [reflexivity|]. split; [exact Hu|]. split; [exact Hg|].
      split; [apply same_keeps|]. split; [apply shift_fills|apply same_keeps]. }
    eapply P_cons; [split; [discriminate|reflexivity]|reflexivity|].
    eapply P_cons; [split; [discriminate|reflexivity]|reflexivity|].
    eapply P_cons; [cbn; lia|reflexivity|].
    eapply P_cons; [cbn; lia|reflexivity|].
    eapply P_cons; [eapply St; reflexivity|reflexivity|].
    eapply P_cons; [eapply St; reflexivity|reflexivity|].
    eapply P_cons; [cbn; lia|reflexivity|].
    eapply P_cons; [eapply St; reflexivity|reflexivity|].
    eapply P_cons; [eexists; split; [reflexivity|]; intros l Hl; rewrite map_length; exact Hl|reflexivity|].
    eapply P_cons; [cbn; lia|reflexivity|].
    eapply P_cons; [eapply St; reflexivity|reflexivity|].
    eapply P_cons; [eapply St; reflexivity|reflexivity|].
    apply P_nil.
  - reflexivity.
Qed.

(** *** C99 A solution that has been advanced can be run again

    [Controller.run] refuses a solution whose q is not contiguous in memory. In one space dimension every
    solution passes the check after every program, also one that shares solvers; in any dimension every
    solution passes as long as no step of a classic solver has been accepted. *)
Theorem C99_one_dimension_partial : forall os w x,
  Forall in_one_dimension os -> exec_all os empty_world = Done w -> x < length (w_sols w) ->
  can_run x w = Some true.
Proof.
  intros os w x F E L.
  assert (K : lines w).
  { apply (exec_all_lines os empty_world); [exact F| |exact E]. split; constructor. }
  destruct (nth_error_some_of_lt _ _ L) as (q & Hq). unfold can_run. rewrite Hq. cbn [option_map]. f_equal.
  apply line_contiguous. exact (forall_nth _ _ _ _ (proj1 K) Hq).
Qed.
Theorem C99_no_classic_step_partial : forall os w x,
  Forall no_accepted_classic_step os -> exec_all os empty_world = Done w -> x < length (w_sols w) ->
  can_run x w = Some true.
Proof.
  intros os w x F E L. destruct (nth_error_some_of_lt _ _ L) as (q & Hq).
  apply (can_run_whole x w q); [|exact Hq]. apply (exec_all_whole os empty_world); [exact F|constructor|exact E].
Qed.
(** Missing: after an accepted step of a classic solver in two or three dimensions the solution can be run again
    only if all dimensions after the first have one cell. *)
Theorem C99_after_classic_step : forall owner os s x before hyp after m u c n ns,
  program owner nothing (os ++ [Step s x before hyp after true]) m ->
  nth_error (m_sols m) x = Some u -> u_shape u = c :: n :: ns -> Forall (fun k => 0 < k) (u_shape u) ->
  exists w, exec_all (os ++ [Step s x before hyp after true]) empty_world = Done w /\
    can_run x w = Some (forallb (fun k => k =? 1) ns).
Proof. exact after_step. Qed.

Definition freeze (g : nat) (sh : list nat) (l : list Q) : list Q :=
  put_at (interior g sh) (get_at (interior g sh) l) (repeat 0%Q (prod (pad g sh))).
Lemma freeze_fills g sh : fills_ghosts g sh (freeze g sh).
Proof.
  split.
  - intros u H. unfold freeze. rewrite put_at_length. apply repeat_length.
  - intros a b _ _ E. unfold freeze. rewrite E. reflexivity.
Qed.
Definition plane : list op :=
  [New [1; 2; 2] [1; 2; 3; 4]%Q; NewSolver 1].
Theorem C99_run_again_refuted :
  exists os w x, exec_all os empty_world = Done w /\ x < length (w_sols w) /\ can_run x w = Some false /\
    (exists os' o w', os = os' ++ [o] /\ exec_all os' empty_world = Done w' /\ can_run x w' = Some true).
Proof.
  exists (plane ++ [Step 0 0 same (freeze 1 [1; 2; 2]) same true]). eexists. exists 0.
  split; [vm_compute; reflexivity|]. split; [vm_compute; lia|]. split; [vm_compute; reflexivity|].
  exists plane. eexists. eexists. split; [reflexivity|]. split; vm_compute; reflexivity.
Qed.
Example C99_example : exists m u, program (fun s => s) nothing (plane ++ [Step 0 0 same (freeze 1 [1; 2; 2]) same true]) m /\
  nth_error (m_sols m) 0 = Some u /\ u_shape u = [1; 2; 2] /\ u_vals u = [1; 2; 3; 4]%Q.
Proof.
  eexists. eexists. split.
  - cbn [app plane]. eapply P_cons; [split; [discriminate|reflexivity]|reflexivity|].
    eapply P_cons; [cbn; lia|reflexivity|].
    eapply P_cons; [|reflexivity|apply P_nil].
    eexists. eexists. split; [reflexivity|]. split; [reflexivity|]. split; [reflexivity|].
    split; [apply same_keeps|]. split; [apply freeze_fills|apply same_keeps].
  - split; [reflexivity|]. split; vm_compute; reflexivity.
Qed.
Example C99_line_example : exists w, Forall in_one_dimension fair /\ exec_all fair empty_world = Done w /\
  can_run 0 w = Some true.
Proof.
  eexists. split; [repeat constructor|]. split; [vm_compute; reflexivity|]. vm_compute. reflexivity.
Qed.
Example C99_rejected_example : exists w,
  exec_all (plane ++ [Step 0 0 same (freeze 1 [1; 2; 2]) same false]) empty_world = Done w /\ can_run 0 w = Some true.
Proof. eexists. split; vm_compute; reflexivity. Qed.

Print Assumptions C97_own_solvers.
Print Assumptions C98_others_unchanged_partial.
Print Assumptions C98_shared_solver.
Print Assumptions C98_others_unchanged_refuted.
Print Assumptions C98_other_size.
Print Assumptions C99_one_dimension_partial.
Print Assumptions C99_no_classic_step_partial.
Print Assumptions C99_after_classic_step.
Print Assumptions C99_run_again_refuted.
