(** C32 and C167 for whole runs of the SSP multistep methods. [multi_runs] calls evolve_to_time for each time of a list (None: a single step). *)
From Verif Require Import Base BCModel BCSpec LimiterModel Classic1DModel Classic1DSpec Classic1DProps TimeModel CapaSpec
  SymProps SharpModel SharpSpec MultiModel MultiSpec MultiProofs MultiProps SemiModel SemiSpec SemiProps EquilSpec EquilProofs2 EquilProofs3 EquilProps EquilProps2 EquilProps3 KeepProofs Classic1DProofs.

(** Runs with automatic steps of SSPLMMk2, or of SSPLMMk3 without check_lmm_cond, in which the accepted steps go forward in time *)
Definition ssp_multistep (I : integrator) (check : bool) : Prop := I = SSPLMMk2 \/ (I = SSPLMMk3 /\ check = false).
Definition forward {V DX} (tr : list (event V DX)) : Prop := Forall (fun ev => ev_accepted ev = true -> 0 < ev_dt ev) tr.

(** The total of every solution is the initial one. *)
Theorem C32_ssplmm_run :
  forall M C flux aux qbc0 auxbc0 m (DX : Type) (before : sol (Z * Z -> Q) DX -> DX) speed hook I k check
    (s s' : solver (hist (Z * Z))) (so so' : sol (Z * Z -> Q) DX) tends tr,
  (3 <= c_ng C)%nat -> periodic_bc (c_bc C) -> (Z.of_nat (c_ng C) <= cells C)%Z ->
  conservative (c_neq C) flux (c_rp C) -> sound_method C flux M -> c_capa C = None ->
  (0 <= m < Z.of_nat (c_neq C))%Z -> (forall t u, mass C aux m (hook t u) == mass C aux m u) ->
  ssp_multistep I check -> (2 <= k)%nat -> fresh k s -> dt_variable s = true ->
  multi_runs (rhs M (register_settings M C) aux qbc0 auxbc0) speed hook I (Z.of_nat k) check [] [] before s so tends = (s', so', tr) ->
  forward tr ->
  Forall (fun p => mass C aux m (fst p) == mass C aux m (sq so)) (solutions so tr).
Proof.
  intros M C flux aux qbc0 auxbc0 m DX before speed hook I k check s s' so so' tends tr Hg HP Hmx HC HM Hcap Hm Hh HI Hk HF Hv E HW.
  destruct (no_capacity C aux Hcap) as [Hcapa Hkk].
  set (f := rhs M (register_settings M C) aux qbc0 auxbc0) in *.
  assert (Hf : forall t u, mass C aux m (f t u) == 0) by (intros; unfold f; eapply rhs_mass_register; eauto).
  assert (HR : history_respected f hook I k [] [] (dt_variable s) so tr).
  { refine (C30_history_partial _ DX f speed hook I k check [] [] before s so tends s' so' tr Hk HF _ E). destruct HI as [->|[-> ->]]; auto. }
  rewrite Hv in HR.
  destruct (run_kept (Z * Z) DX unit (fun _ => mass C aux m) (fun _ => mass C aux m (sq so)) (fun _ => mass_linear C aux m)) with (f := f) (hook := hook) (I := I) (k := k) (so0 := so) (tr := tr) as [X _];
    try assumption.
  - intros _ u v Hu. unfold mass, total. apply zsum_eq. intros i Hi. rewrite (Hu (m, i)). reflexivity.
  - intros t u _ _. apply Hf.
  - intros t u K w. rewrite Hh. apply K. exact w.
  - destruct HI as [->|[-> _]]; auto.
  - intro w. reflexivity.
  - eapply Forall_impl; [|exact X]. intros p K. exact (K tt).
Qed.

(** Every solution holds the initial data if these are an equilibrium. *)
Theorem C167_ssplmm_run :
  forall M C aux qbc0 auxbc0 (DX : Type) (before : sol (Z * Z -> Q) DX -> DX) speed hook I k check
    (s s' : solver (hist (Z * Z))) (so so' : sol (Z * Z -> Q) DX) tends tr,
  (3 <= c_ng C)%nat -> fit_dim (c_ng C) (Nat.ltb 0 (c_naux C)) (Z.of_nat (c_neq C)) (c_bc C) -> regular C -> at_rest C ->
  wave_based C M -> c_capa C = None -> equilibrium C (as_arr (sq so)) aux ->
  (forall t u, same_cells C (sq so) u -> same_cells C (sq so) (hook t u)) ->
  ssp_multistep I check -> (2 <= k)%nat -> fresh k s -> dt_variable s = true ->
  multi_runs (rhs M (register_settings M C) aux qbc0 auxbc0) speed hook I (Z.of_nat k) check [] [] before s so tends = (s', so', tr) ->
  forward tr ->
  Forall (fun p => same_cells C (sq so) (fst p)) (solutions so tr).
Proof.
  intros M C aux qbc0 auxbc0 DX before speed hook I k check s s' so so' tends tr Hng HF HR HA HM _ EQ HH HI Hk HFr Hv E HW.
  set (f := rhs M (register_settings M C) aux qbc0 auxbc0) in *.
  set (D := {x : Z * Z | (0 <= fst x < Z.of_nat (c_neq C))%Z /\ (0 <= snd x < cells C)%Z}).
  assert (HH' : history_respected f hook I k [] [] (dt_variable s) so tr).
  { refine (C30_history_partial _ DX f speed hook I k check [] [] before s so tends s' so' tr Hk HFr _ E). destruct HI as [->|[-> ->]]; auto. }
  rewrite Hv in HH'.
  set (L := fun (w : D) (u : Z * Z -> Q) => u (proj1_sig w)).
  assert (NS : forall u, kept (Z * Z) D L (fun w => sq so (proj1_sig w)) u <-> same_cells C (sq so) u).
  { intro u. split.
    - intros K m i Hm Hi. exact (K (exist _ (m, i) (conj Hm Hi))).
    - intros K [[m i] [Hm Hi]]. exact (K m i Hm Hi). }
  destruct (run_kept (Z * Z) DX D L (fun w => sq so (proj1_sig w)) (fun w => at_linear (Z * Z) (proj1_sig w))) with (f := f) (hook := hook) (I := I) (k := k) (so0 := so) (tr := tr) as [X _];
    try assumption.
  - intros w u v Hu. apply Hu.
  - intros t u K [[m i] [Hm Hi]]. unfold L, f. cbn [proj1_sig fst snd] in *. apply (register_null M C aux (sq so)); try assumption; [|apply NS; exact K].
    intros a b _ _. reflexivity.
  - intros t u K. apply NS, HH, NS. exact K.
  - destruct HI as [->|[-> _]]; auto.
  - intro w. reflexivity.
  - eapply Forall_impl; [|exact X]. intros p K. apply NS. exact K.
Qed.

(** The third-order method with four registers on the problem of C167_case: six steps forward, the last ones by the multistep formula *)
Definition keep_solver : solver (hist (Z * Z)) :=
  mkSolver (1 # 100) None 100 true (9 # 100) (1 # 10) (9 # 100) 1000 None None None 0 true (mkHist (repeat (ab_u, 0) 4) [] [] [] (fun _ => 0) true).
Definition keep_run := multi_runs (rhs ab_method (register_settings ab_method sset) (bdata shelf) zero_arr zero_arr) (fun _ _ => 4) (fun _ u => u)
  SSPLMMk3 (Z.of_nat 4) false [] [] (fun _ => tt) keep_solver (mkSol ab_u tt 0) (repeat None 6).
Example C167_ssplmm_run_case :
  ssp_multistep SSPLMMk3 false /\ fresh 4 keep_solver /\ dt_variable keep_solver = true /\ wave_based sset ab_method /\ c_capa sset = None /\
  equilibrium sset (as_arr ab_u) (bdata shelf) /\
  map ev_accepted (snd keep_run) = repeat true 6 /\ forward (snd keep_run).
Proof.
  destruct sset_hyps as (A & B & D & E & S & G).
  split; [right; auto|]. split; [repeat split|]. split; [reflexivity|]. split; [constructor|]. split; [reflexivity|]. split; [exact G|].
  split; [vm_compute; reflexivity|].
  assert (X : forallb (fun x => qltb 0 x) (map ev_dt (snd keep_run)) = true) by (vm_compute; reflexivity).
  unfold forward. apply Forall_forall. intros ev Hin _. rewrite forallb_forall in X. specialize (X (ev_dt ev) (in_map _ _ _ Hin)).
  unfold qltb in X. apply Qnot_le_lt. intro Y. apply Qle_bool_iff in Y. rewrite Y in X. discriminate X.
Qed.
(** The second-order method with three registers on the periodic problem of C32_example *)
Definition keep_solver2 : solver (hist (Z * Z)) :=
  mkSolver (1 # 100) None 100 true (9 # 100) (1 # 10) (9 # 100) 1000 None None None 0 true (mkHist (repeat (semi_u4, 0) 3) [] [] [] (fun _ => 0) true).
Definition keep_run2 := multi_runs (rhs weno_method (register_settings weno_method (semi_set4 0)) zero_arr zero_arr zero_arr) (fun _ _ => 4) (fun _ u => u)
  SSPLMMk2 (Z.of_nat 3) true [] [] (fun _ => tt) keep_solver2 (mkSol semi_u4 tt 0) [None; Some (1 # 8); None].
Example C32_ssplmm_run_case :
  ssp_multistep SSPLMMk2 true /\ fresh 3 keep_solver2 /\ dt_variable keep_solver2 = true /\ (3 <= c_ng (semi_set4 0))%nat /\
  periodic_bc (c_bc (semi_set4 0)) /\ (Z.of_nat (c_ng (semi_set4 0)) <= cells (semi_set4 0))%Z /\
  conservative 1 burgers_flux (c_rp (semi_set4 0)) /\ sound_method (semi_set4 0) burgers_flux weno_method /\ c_capa (semi_set4 0) = None /\
  (4 <= length (snd keep_run2))%nat /\ forward (snd keep_run2).
Proof.
  split; [left; reflexivity|]. split; [repeat split|]. split; [reflexivity|]. split; [cbn; lia|].
  destruct C32_example as (_ & _ & X & Y & _). split; [vm_compute; tauto|]. split; [vm_compute; discriminate|]. split; [apply burgers_conservative|].
  split; [exact X|]. split; [exact Y|]. split; [vm_compute; lia|].
  assert (Z : forallb (fun x => qltb 0 x) (map ev_dt (snd keep_run2)) = true) by (vm_compute; reflexivity).
  unfold forward. apply Forall_forall. intros ev Hin _. rewrite forallb_forall in Z. specialize (Z (ev_dt ev) (in_map _ _ _ Hin)).
  unfold qltb in Z. apply Qnot_le_lt. intro W. apply Qle_bool_iff in W. rewrite W in Z. discriminate Z.
Qed.
Print Assumptions C32_ssplmm_run.
Print Assumptions C167_ssplmm_run.
