(** C166: equilibria are kept. *)
From Verif Require Import Base BCModel BCSpec LimiterModel Classic1DModel Classic1DSpec Classic1DProps TimeModel ControllerModel RunModel RunSpec RunProps
  SimSpec SymSpec SymProps CapaSpec EquilSpec CapaProofs EquilProofs.

(** One step: at an equilibrium no cell changes, whatever the order, the limiters, the step size and the stale ghost
    cells. The step fails only in the Fortran kernel and for a capacity that is not positive. *)
Theorem C166_step pow undef L C q aux qbc0 auxbc0 :
  (2 <= c_ng C)%nat -> fit_dim (c_ng C) (Nat.ltb 0 (c_naux C)) (Z.of_nat (c_neq C)) (c_bc C) -> capa_in_aux C -> equilibrium C q aux ->
  match step_hyperbolic pow undef L C q aux qbc0 auxbc0 with
  | Stepped q' _ => forall m i, (0 <= m < Z.of_nat (c_neq C))%Z -> (0 <= i < cells C)%Z -> q' m i == q m [i]
  | Stopped => L = Fortran /\ exists i, (0 <= i < cells C)%Z /\ capacity C (flat aux) i <= 0
  | BCError _ => False
  end.
Proof. intros Hng HF CAP EQ. exact (equil_step pow undef L C Hng HF q aux qbc0 auxbc0 CAP EQ). Qed.

(** Runs: every frame, on disk and in memory, and the final solution hold the initial data. *)
Theorem C166_run :
  forall (E P F : Type) pow undef L C stale source split before setup valid (c : controller (arr Q) (arr Q) P F)
    (w w' : world (arr Q) (arr Q) E P F) o,
  let s0 := if w_set_up w then w_solver w else setup (w_solver w) in
  let q0 := sq (w_sol w) in let aux0 := sx (w_sol w) in
  sane s0 -> (2 <= c_ng C)%nat -> fit_dim (c_ng C) (Nat.ltb 0 (c_naux C)) (Z.of_nat (c_neq C)) (c_bc C) -> regular C ->
  capa_in_aux C -> (forall i, (0 <= i < cells C)%Z -> 0 < capacity C (flat aux0) i) ->
  equilibrium C q0 aux0 ->
  leaves C q0 aux0 before -> (forall f d, source = Some f -> leaves C q0 aux0 (f d)) ->
  run (classic_evolve source (hyper_1d pow undef L C stale) split before) setup valid c w = (w', o) ->
  frames_keep (fun u => unchanged C q0 aux0 (sq u) (sx u)) w w' o.
Proof.
  intros E P F pow undef L C stale source split before setup valid c w w' o s0 q0 aux0 HS Hng HF HR CAP Hpos EQ HB HSrc H.
  refine (C90_classic_run _ _ E P F (agree C (c_neq C) q0) (agree C (c_naux C) aux0) source (hyper_1d pow undef L C stale) split before setup valid c w w' o
    HS _ _ _ H); [|intros m i _ _; reflexivity|intros m i _ _; reflexivity].
  split; [intros so H1 H2; exact (HB so (conj H1 H2))|]. split; [intros f d so Ef _ H1 H2; exact (HSrc f d Ef so (conj H1 H2))|].
  intros d so _ H1 H2. unfold hyper_1d.
  pose proof (C166_step pow undef L (with_dt C d) (sq so) (sx so) (fst (stale d so)) (snd (stale d so)) Hng HF CAP
    (equil_agree C Hng HF HR q0 aux0 (sq so) (sx so) (conj H1 H2) EQ)) as K.
  destruct (step_hyperbolic _ _ _ _ _ _ _ _) as [q' cf|e|]; cbn [fst snd].
  - split; [exact H2|]. intros _ m i Hm Hi. cbn [hd]. specialize (K m i Hm Hi). cbv beta. rewrite K. apply H1; assumption.
  - destruct K.
  - split; [exact H2|]. intros _. exact H1.
Qed.

(** A scalar equation with speed 1 and a source, balanced in the waves: q_t + (q - b)_x = 0 with the bottom b in aux. *)
Definition bottom : rpsolver := fun ul ur al ar =>
  let f := hd 0 ur - hd 0 ul - (hd 0 ar - hd 0 al) in mkOut (fun _ _ => f) (fun _ => 1) (fun _ => 0) (fun _ => f).
Definition eset : settings :=
  mkSet 1 1 1 2 true 2 (fun _ => 4%Z) bottom (1 # 2) (1 # 4) None (mkDim 5 Extrap Extrap Extrap Extrap true true 0) (mkFuns Q None None None None).
Definition eworld (f : Z -> Q) : world (arr Q) (arr Q) unit unit unit :=
  mkWorld (bsolver (1 # 10) true) true (mkSol (bdata (fun i => hump i + f i)) (bdata hump) 0) 0 [] false [].
Lemma eset_regular : regular eset.
Proof.
  intros ul ur al ar vl vr bl br (_ & _ & A) (_ & _ & B) (_ & _ & D) (_ & _ & G).
  specialize (A 0%Z ltac:(cbn; lia)). specialize (B 0%Z ltac:(cbn; lia)). specialize (D 0%Z ltac:(cbn; lia)). specialize (G 0%Z ltac:(cbn; lia)).
  cbn [Z.to_nat moved g_q g_aux] in A, B, D, G. rewrite <- !hd_nth in A, B, D, G.
  unfold same_answers. cbn [moved g_mirror g_speed g_q eset c_rp bottom o_s o_am o_ap o_wave c_fwave].
  split; [intros; ring|]. intros m _. rewrite A, B, D, G. split; [ring|]. split; [ring|intros; rewrite A, B, D, G; ring].
Qed.
Lemma eset_equil : equilibrium eset (sq (w_sol (eworld (fun _ => 3)))) (sx (w_sol (eworld (fun _ => 3)))).
Proof.
  intros i Hi. assert (K : i = (-1)%Z \/ i = 0%Z \/ i = 1%Z \/ i = 2%Z \/ i = 3%Z \/ i = 4%Z) by (cbn in Hi; lia).
  intros m _. repeat (destruct K as [->|K] || subst i); (split; [vm_compute; reflexivity|]; split; [vm_compute; reflexivity|intros; vm_compute; reflexivity]).
Qed.
(** Flat over the hump the data are an equilibrium that is not constant; two steps leave them alone, whereas other
    data over the same bottom move. *)
Example C166_case : let C := eset in let w := eworld (fun _ => 3) in
  sane (w_solver w) /\ (2 <= c_ng C)%nat /\ fit_dim (c_ng C) (Nat.ltb 0 (c_naux C)) (Z.of_nat (c_neq C)) (c_bc C) /\ regular C /\ capa_in_aux C /\
  (forall i, (0 <= i < cells C)%Z -> 0 < capacity C (flat (sx (w_sol w))) i) /\ equilibrium C (sq (w_sol w)) (sx (w_sol w)) /\
  Qeq_bool (sq (w_sol w) 0%Z [1%Z]) (sq (w_sol w) 0%Z [2%Z]) = false /\
  st_numsteps (w_solver (fst (run_of nopow noundef (plain Fortran C) (bcontroller (1 # 10)) w))) = 2%Z /\
  let v := eworld (fun i => inject_Z i) in
  Qeq_bool (sq (w_sol (fst (run_of nopow noundef (plain Fortran C) (bcontroller (1 # 10)) v))) 0%Z [2%Z]) (sq (w_sol v) 0%Z [2%Z]) = false.
Proof.
  cbv zeta. split; [split; [reflexivity|intros _; split; reflexivity]|]. split; [cbn; lia|]. split.
  { unfold fit_dim, standard, wide. cbn. intuition (auto; try discriminate; try lia). }
  split; [exact eset_regular|]. split; [intros k E; discriminate E|]. split; [intros; reflexivity|]. split; [exact eset_equil|].
  split; [vm_compute; reflexivity|]. split; vm_compute; reflexivity.
Qed.
Print Assumptions C166_step.
Print Assumptions C166_run.
