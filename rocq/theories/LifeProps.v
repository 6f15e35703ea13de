(** Properties of using several Fortran SharpClaw solvers in one program. *)
From Verif Require Import Base LifeModel LifeSpec LifeProofs.

(** C100: a program that uses its SharpClaw solvers one at a time (each is dropped before another one is evolved,
    and its options are not changed once it has been evolved) is never stopped by the Fortran kernels, and every
    evaluation uses the options and array sizes of the solver that is being evolved. *)
Theorem C100_one_solver_at_a_time os log : one_at_a_time nothing os log ->
  exists w, exec_all os start = Ok w /\ f_log w = log.
Proof. intro H. exact (one_at_a_time_correct _ _ _ H start fits_start). Qed.
Print Assumptions C100_one_solver_at_a_time.

Example C100_example :
  one_at_a_time nothing
    [Create 2 0 100; Create 1 1 50; SetOptions 1 2 2; Evolve 0; Evolve 0; Delete 0; Evolve 1; Create 2 3 80;
     Delete 1; Evolve 2]
    [(0, 2%Z, 0%Z); (0, 2%Z, 0%Z); (1, 2%Z, 2%Z); (2, 2%Z, 3%Z)]%nat.
Proof.
  assert (D : forall c, (0 <= c <= 3)%Z -> documented 2 c) by (right; lia).
  eapply O_create, O_create, O_options; [reflexivity|discriminate|].
  eapply O_evolve; [reflexivity|apply D; lia|left; reflexivity|].
  eapply O_evolve; [reflexivity|apply D; lia|right; reflexivity|].
  eapply O_delete_used; [reflexivity|reflexivity|].
  eapply O_evolve; [reflexivity|apply D; lia|left; reflexivity|].
  eapply O_create, O_delete_used; [reflexivity|reflexivity|].
  eapply O_evolve; [reflexivity|apply D; lia|left; reflexivity|]. apply O_nil.
Qed.

(** C101: SharpClaw solvers can be created, set up, evolved, given other options and dropped in any order. The
    four ways in which this fails, one theorem each: two solvers in use at once; *)
Theorem C101_any_order_refuted :
  exists os, exec_all os start = Fail Allocated /\ os = [Create 2 0 100; Create 2 0 100; Evolve 0; Evolve 1]%nat.
Proof. eexists. split; [|reflexivity]. vm_compute. reflexivity. Qed.
Print Assumptions C101_any_order_refuted.
(** a solver set up again; *)
Theorem C101_set_up_again_refuted :
  exists os, exec_all os start = Fail Allocated /\ os = [Create 2 0 100; Evolve 0; Setup 0]%nat.
Proof. eexists. split; [|reflexivity]. vm_compute. reflexivity. Qed.
Print Assumptions C101_set_up_again_refuted.
(** a second solver with lim_type 3 after the first has been dropped; *)
Theorem C101_lim_type_3_refuted :
  exists os, exec_all os start = Fail Allocated /\
    os = [Create 3 0 100; Evolve 0; Delete 0; Create 3 0 100; Evolve 1]%nat.
Proof. eexists. split; [|reflexivity]. vm_compute. reflexivity. Qed.
Print Assumptions C101_lim_type_3_refuted.
(** options changed while the solver is in use: the next evaluation ignores them, and dropping the solver stops the
    program. *)
Theorem C101_options_changed_refuted :
  exists os, exec_all os start = Fail NotAllocated /\
    os = [Create 2 0 100; Evolve 0; SetOptions 0 2 2; Delete 0]%nat.
Proof. eexists. split; [|reflexivity]. vm_compute. reflexivity. Qed.
Print Assumptions C101_options_changed_refuted.

(** The first of these is general: whatever the program, as long as it has not been stopped, at most one of the
    solvers it has not dropped is in use (has been set up). *)
Theorem C101_at_most_one os w s t u v : exec_all os start = Ok w ->
  nth_error (f_solvers w) s = Some u -> o_alive u = true -> o_set_up u = true ->
  nth_error (f_solvers w) t = Some v -> o_alive v = true -> o_set_up v = true -> s = t.
Proof.
  intros H Hu U1 U2 Hv V1 V2. destruct (exec_all_single os start w single_start H) as (HS & _).
  exact (HS s t u v Hu Hv U1 U2 V1 V2).
Qed.
Print Assumptions C101_at_most_one.

Example C101_at_most_one_example : exists w u,
  exec_all [Create 2 0 100; Create 2 0 100; Evolve 1]%nat start = Ok w /\
  nth_error (f_solvers w) 1 = Some u /\ o_alive u = true /\ o_set_up u = true.
Proof. eexists. eexists. split; [vm_compute; reflexivity|]. repeat split. Qed.
