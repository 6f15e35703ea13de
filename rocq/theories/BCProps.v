(** Properties C13-C16 and C54: ghost cells and boundary conditions.
    Positions are counted from the first interior cell, so [shift num_ghost pos] is the index into
    the ghosted array. *)
From Verif Require Import Base BCModel BCSpec BCProofs.
Local Open Scope Z_scope.

(** ** C13 *)
Theorem C13_ghost_cells :
  forall (V : Type) (opp : V -> V) ng has_aux F neq Ds q aux qbc0 auxbc0,
  (1 <= ng)%nat -> Forall (fit_dim ng has_aux neq) Ds ->
  exists qbc auxbc, apply_bcs V opp ng has_aux F neq Ds q aux qbc0 auxbc0 = Ok (qbc, auxbc) /\
  (forall c pos, in_box ng Ds pos -> qbc c (shift (Z.of_nat ng) pos) = q_ghost_value V opp Ds q c pos) /\
  (has_aux = true -> forall c pos, in_box ng Ds pos ->
     auxbc c (shift (Z.of_nat ng) pos) = aux_ghost_value V Ds aux c pos) /\
  (has_aux = false -> auxbc = auxbc0) /\
  (forall c pos, in_domain Ds pos -> qbc c (shift (Z.of_nat ng) pos) = q c pos).
Proof.
  intros V opp ng has_aux F neq Ds q aux qbc0 auxbc0 Hg HF.
  destruct (apply_bcs_at V opp ng has_aux F neq Ds q aux qbc0 auxbc0 Hg HF) as (qb & xb & E & A & B & C).
  exists qb, xb. repeat (split; [assumption|]). intros c pos Hp.
  rewrite A by (apply in_domain_box; assumption). apply ghost_value_interior. exact Hp.
Qed.
Print Assumptions C13_ghost_cells.

(** Shallow water on 3 x 4 cells, 2 ghost cells: x periodic, y with a wall below and extrapolation above. *)
Definition demo_x := mkDim 3 Periodic Periodic Extrap Extrap true true 1.
Definition demo_y := mkDim 4 Wall Extrap Wall Extrap true true 2.
Definition no_funs {V} : userfuns V := mkFuns V None None None None.
Definition demo_q (c : Z) (ix : list Z) : Z := 1000 * c + fold_left (fun n i => 10 * n + i) ix 0 + 1.
Example C13_example :
  Forall (fit_dim 2 true 3) [demo_x; demo_y] /\ in_box 2 [demo_x; demo_y] [-1; -2] /\
  match apply_bcs Z Z.opp 2 true no_funs 3 [demo_x; demo_y] demo_q demo_q (fun _ _ => 77) (fun _ _ => 77) with
  | Ok (qbc, auxbc) =>
      (* corner cell (-1,-2): x wraps to 2, y mirrors to 1; vertical momentum changes sign *)
      qbc 2 [1; 0] = - demo_q 2 [2; 1] /\ qbc 1 [1; 0] = demo_q 1 [2; 1] /\
      (* aux at the same place: x extrapolates to 0, y mirrors *)
      auxbc 2 [1; 0] = demo_q 2 [0; 1] /\
      (* (4,5): x wraps to 1, y extrapolates to 3 *)
      qbc 2 [6; 7] = demo_q 2 [1; 3]
  | Raised _ => False end.
Proof.
  split; [|vm_compute; intuition congruence].
  repeat apply Forall_cons; try apply Forall_nil; unfold fit_dim, standard, wide; cbn; intuition (auto; try discriminate; try lia).
Qed.

(** ** C14: boundary conditions raise exactly for the first faulty side, in visiting order. *)
Theorem C14_faults_reported :
  forall (V : Type) (opp : V -> V) ng has_aux F neq Ds q aux qbc0 auxbc0,
  match apply_bcs V opp ng has_aux F neq Ds q aux qbc0 auxbc0 with
  | Raised e => exists rest, flat_map (dim_faults ng has_aux F neq) Ds = e :: rest
  | Ok _ => flat_map (dim_faults ng has_aux F neq) Ds = []
  end.
Proof.
  intros. unfold apply_bcs.
  pose proof (apply_dims_fault V opp ng has_aux F neq Ds 0 (get_qbc_from_q V ng (map ncells Ds) q qbc0,
    if has_aux then get_qbc_from_q V ng (map ncells Ds) aux auxbc0 else auxbc0)) as H.
  destruct (apply_dims _ _ _ _ _ _ _ _ _); cbn [fault_of] in H;
  destruct (flat_map (dim_faults ng has_aux F neq) Ds) as [|e' l]; cbn [first] in H; try discriminate; [reflexivity|].
  injection H as ->. exists l. reflexivity.
Qed.
Print Assumptions C14_faults_reported.
(** A custom boundary calls the user's function with the dimension and both arrays, and does nothing else. *)
Theorem C14_custom_calls_user :
  forall (V : Type) (opp : V -> V) ng neq D qf (q qbc0 auxbc0 aux : arr V),
  q_lo D = Custom -> q_hi D = Custom -> on_lo D = true -> on_hi D = true ->
  apply_bcs V opp ng false (mkFuns V (Some qf) (Some qf) None None) neq [D] q aux qbc0 auxbc0 =
  Ok (qf O (qf O (get_qbc_from_q V ng [ncells D] q qbc0, auxbc0))).
Proof.
  intros V opp ng neq D qf q qbc0 auxbc0 aux H1 H2 H3 H4.
  unfold apply_bcs. cbn [apply_dims map]. unfold apply_side. rewrite H3, H4. unfold apply_one. rewrite H1. cbn [bind f_q_lo f_q_hi].
  rewrite H2. reflexivity.
Qed.
Print Assumptions C14_custom_calls_user.
Example C14_example :
  flat_map (dim_faults 2 true (@no_funs Z) 3)
    [demo_x; mkDim 4 Unset Unknown Extrap Extrap true true 2] = [ENotSpecified; ENotImplemented].
Proof. reflexivity. Qed.

(** ** C54: a solver that passes is_valid can still fail while filling ghost cells: the aux types are
    not checked, and a wall needs a velocity component. *)
Theorem C54_valid_solver_fails_refuted :
  exists (F : userfuns Z) Ds,
  bcs_valid Z F Ds = true /\
  apply_bcs Z Z.opp 2 true F 2 Ds demo_q demo_q (fun _ _ => 0) (fun _ _ => 0) = Raised ENotSpecified /\
  exists Ds', bcs_valid Z F Ds' = true /\
  apply_bcs Z Z.opp 2 false F 1 Ds' demo_q demo_q (fun _ _ => 0) (fun _ _ => 0) = Raised EIndex.
Proof.
  exists no_funs, [mkDim 5 Extrap Extrap Unset Unset true true 1]. repeat split.
  exists [mkDim 5 Wall Wall Unset Unset true true 1]. split; reflexivity.
Qed.
Print Assumptions C54_valid_solver_fails_refuted.
(** What does hold: without aux arrays, with known types and the velocity component present, a valid
    solver never fails. *)
Theorem C54_valid_solver_partial :
  forall (V : Type) (opp : V -> V) ng F neq Ds q aux qbc0 auxbc0,
  bcs_valid V F Ds = true ->
  Forall (fun D => q_lo D <> Unknown /\ q_hi D <> Unknown /\
                   (q_lo D = Wall \/ q_hi D = Wall -> 0 <= reflect D < neq)) Ds ->
  exists s, apply_bcs V opp ng false F neq Ds q aux qbc0 auxbc0 = Ok s.
Proof.
  intros V opp ng F neq Ds q aux qbc0 auxbc0 Hv HF.
  pose proof (C14_faults_reported V opp ng false F neq Ds q aux qbc0 auxbc0) as H.
  destruct (apply_bcs _ _ _ _ _ _ _ _ _ _ _) as [s|e]; [exists s; reflexivity|exfalso].
  destruct H as [rest H]. revert H. apply (valid_no_faults V); assumption.
Qed.
Print Assumptions C54_valid_solver_partial.
Example C54_partial_example :
  bcs_valid Z no_funs [demo_x; demo_y] = true /\
  Forall (fun D => q_lo D <> Unknown /\ q_hi D <> Unknown /\
                   (q_lo D = Wall \/ q_hi D = Wall -> 0 <= reflect D < 3)) [demo_x; demo_y].
Proof. split; [reflexivity|]. repeat constructor; try discriminate; simpl; lia. Qed.

(** ** C15: with fewer cells than ghost cells, mirroring and wrapping are wrong (stale ghost values are
    copied): one cell, two ghost cells. *)
Theorem C15_small_grids_refuted :
  exists D qbc0,
  on_lo D = true /\ on_hi D = true /\ 1 <= ncells D /\ standard (q_lo D) /\ standard (q_hi D) /\
  (exists pos c, in_box 2 [D] pos /\
   match apply_bcs Z Z.opp 2 false no_funs 2 [D] demo_q demo_q qbc0 qbc0 with
   | Ok (qbc, _) => qbc c (shift 2 pos) = qbc0 c [1] /\ qbc0 c [1] <> q_ghost_value Z Z.opp [D] demo_q c pos
   | Raised _ => False end).
Proof.
  exists (mkDim 1 Periodic Periodic Extrap Extrap true true 1), (fun _ _ => 77).
  unfold standard. repeat (split; [solve [reflexivity|simpl; lia|auto]|]).
  exists [-2], 0. split; [simpl; lia|]. vm_compute. split; [reflexivity|discriminate].
Qed.
Print Assumptions C15_small_grids_refuted.
(** With extrapolation one cell is always enough (and see C13 for the others). *)
Theorem C15_extrapolation_partial :
  forall (V : Type) (opp : V -> V) ng neq Ds F q aux qbc0 auxbc0,
  (1 <= ng)%nat ->
  Forall (fun D => on_lo D = true /\ on_hi D = true /\ q_lo D = Extrap /\ q_hi D = Extrap /\
                   1 <= ncells D) Ds ->
  exists qbc, apply_bcs V opp ng false F neq Ds q aux qbc0 auxbc0 = Ok (qbc, auxbc0) /\
  forall c pos, in_box ng Ds pos ->
  qbc c (shift (Z.of_nat ng) pos) =
  q c (map (fun p => Z.max 0 (Z.min (ncells (fst p) - 1) (snd p))) (combine Ds pos)).
Proof.
  intros V opp ng neq Ds F q aux qbc0 auxbc0 Hg HF.
  destruct (apply_bcs_at V opp ng false F neq Ds q aux qbc0 auxbc0 Hg) as (qb & xb & E & A & _ & C).
  { eapply Forall_impl; [|exact HF]. intros D (H1 & H2 & H3 & H4 & H5).
    unfold fit_dim, standard, wide. rewrite H3, H4. intuition (auto; try discriminate; try lia). }
  rewrite (C eq_refl) in E. exists qb. split; [exact E|]. intros c pos Hp. rewrite A by assumption.
  apply (extrap_value V opp ng); [|assumption]. eapply Forall_impl; [|exact HF]. simpl. tauto.
Qed.
Print Assumptions C15_extrapolation_partial.

(** ** C16 *)
Theorem C16_round_trip :
  forall (V : Type) ng (Ds : list dimbc) (q qbc0 : arr V),
  (1 <= ng)%nat ->
  (* adding ghost cells and stripping them gives q back *)
  (forall c pos, in_domain Ds pos ->
     set_q_from_qbc V ng (get_qbc_from_q V ng (map ncells Ds) q qbc0) c pos = q c pos) /\
  (* stripping and adding changes nothing *)
  (forall c ix, get_qbc_from_q V ng (map ncells Ds) (set_q_from_qbc V ng qbc0) qbc0 c ix = qbc0 c ix) /\
  (* only interior cells are written *)
  (forall c pos, in_box ng Ds pos -> ~ in_domain Ds pos ->
     get_qbc_from_q V ng (map ncells Ds) q qbc0 c (shift (Z.of_nat ng) pos) = qbc0 c (shift (Z.of_nat ng) pos)).
Proof.
  intros V ng Ds q qbc0 _. split; [|split].
  - intros c pos Hp. unfold set_q_from_qbc, get_qbc_from_q. rewrite interior_iff by assumption.
    rewrite shift_back. reflexivity.
  - intros c ix. unfold set_q_from_qbc, get_qbc_from_q. rewrite shift_fwd. destruct (interior _ _ _); reflexivity.
  - intros c pos Hb Hn. unfold get_qbc_from_q. destruct (interior _ _ _) eqn:E; [|reflexivity].
    exfalso. apply Hn. eapply interior_iff'. exact E.
Qed.
Print Assumptions C16_round_trip.
(** Filling ghost cells and stripping them gives q back, too. *)
Theorem C16_round_trip_with_bcs :
  forall (V : Type) (opp : V -> V) ng has_aux F neq Ds q aux qbc0 auxbc0,
  (1 <= ng)%nat -> Forall (fit_dim ng has_aux neq) Ds ->
  match apply_bcs V opp ng has_aux F neq Ds q aux qbc0 auxbc0 with
  | Ok (qbc, _) => forall c pos, in_domain Ds pos -> set_q_from_qbc V ng qbc c pos = q c pos
  | Raised _ => False end.
Proof.
  intros V opp ng has_aux F neq Ds q aux qbc0 auxbc0 Hg HF.
  destruct (C13_ghost_cells V opp ng has_aux F neq Ds q aux qbc0 auxbc0 Hg HF) as (qb & xb & -> & _ & _ & _ & A).
  intros c pos Hp. apply A. exact Hp.
Qed.
Print Assumptions C16_round_trip_with_bcs.
Example C16_example : in_domain [demo_x; demo_y] [2; 3] /\ in_box 2 [demo_x; demo_y] [2; -1] /\
  ~ in_domain [demo_x; demo_y] [2; -1].
Proof. simpl. lia. Qed.
