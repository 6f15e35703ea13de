(** C167: equilibria in SharpClaw. *)
From Verif Require Import Base BCModel BCSpec LimiterModel Classic1DModel Classic1DSpec Classic1DProps TimeModel ControllerModel RunModel RunSpec RunProps
  SimSpec SymSpec SymProps CapaSpec SharpModel WenoModel SemiModel SemiSpec SemiProps ReconModel EquilSpec CapaProofs EquilProofs EquilProofs2 EquilProps.

(** One evaluation: dq exists and vanishes in every cell. *)
Theorem C167_rhs M C q aux qbc0 auxbc0 :
  (3 <= c_ng C)%nat -> fit_dim (c_ng C) (Nat.ltb 0 (c_naux C)) (Z.of_nat (c_neq C)) (c_bc C) -> regular C -> at_rest C ->
  wave_based C M -> equilibrium C q aux ->
  exists d cfl, dq_hyperbolic M C q aux qbc0 auxbc0 = DQ d cfl /\
    forall m i, (0 <= m < Z.of_nat (c_neq C))%Z -> (0 <= i < cells C)%Z -> d m i == 0.
Proof. intros Hng HF HR HA HM EQ. exact (rhs_rest C Hng HF HR HA M q aux qbc0 auxbc0 HM EQ). Qed.

Lemma rhs_null M C aux0 u0 aux u qbc0 auxbc0 t :
  (3 <= c_ng C)%nat -> fit_dim (c_ng C) (Nat.ltb 0 (c_naux C)) (Z.of_nat (c_neq C)) (c_bc C) -> regular C -> at_rest C ->
  wave_based C M -> equilibrium C (as_arr u0) aux0 -> agree C (c_naux C) aux0 aux -> same_cells C u0 u ->
  forall m i, (0 <= m < Z.of_nat (c_neq C))%Z -> (0 <= i < cells C)%Z -> rhs M C aux qbc0 auxbc0 t u (m, i) == 0.
Proof.
  intros Hng HF HR HA HM EQ AX SQ m i Hm Hi.
  assert (EQ2 : equilibrium C (as_arr u) aux).
  { apply (equil_agree C ltac:(lia) HF HR (as_arr u0) aux0); [|exact EQ]. split; [|exact AX]. intros k j Hk Hj. apply SQ; assumption. }
  assert (HM2 : wave_based (unit_dt C) M).
  { destruct HM as [eps cd|eps|ml un ql0 qr0 tf HN HT|eps ql0 qr0 tf HN HT HS].
    - exact (first_order (unit_dt C) eps cd).
    - exact (python_wave (unit_dt C) eps).
    - exact (fortran_tvd (unit_dt C) ml un ql0 qr0 tf HN HT).
    - exact (fortran_fwave (unit_dt C) eps ql0 qr0 tf HN HT HS). }
  destruct (C167_rhs M (unit_dt C) (as_arr u) aux qbc0 auxbc0 Hng HF HR HA HM2 EQ2) as (d & cfl & E & Z).
  unfold rhs. rewrite E. apply Z; assumption.
Qed.
Lemma register_null M C aux0 u0 aux u qbc0 auxbc0 t :
  (3 <= c_ng C)%nat -> fit_dim (c_ng C) (Nat.ltb 0 (c_naux C)) (Z.of_nat (c_neq C)) (c_bc C) -> regular C -> at_rest C ->
  wave_based C M -> equilibrium C (as_arr u0) aux0 -> agree C (c_naux C) aux0 aux -> same_cells C u0 u ->
  forall m i, (0 <= m < Z.of_nat (c_neq C))%Z -> (0 <= i < cells C)%Z -> rhs M (register_settings M C) aux qbc0 auxbc0 t u (m, i) == 0.
Proof.
  intros Hng HF HR HA HM. destruct HM as [eps cd|eps|ml un ql0 qr0 tf HN HT|eps ql0 qr0 tf HN HT HS]; cbn [register_settings].
  - apply (rhs_null (PyRecon eps (-1) cd) (register_settings (PyRecon eps (-1) cd) C) aux0 u0 aux u qbc0 auxbc0 t Hng HF HR HA). constructor.
  - apply (rhs_null (PyRecon eps 2 1) (register_settings (PyRecon eps 2 1) C) aux0 u0 aux u qbc0 auxbc0 t Hng HF HR HA). constructor.
  - apply rhs_null; try assumption. apply fortran_tvd; assumption.
  - apply rhs_null; try assumption. apply fortran_fwave; assumption.
Qed.

(** Runs with every Runge-Kutta integrator of the solver: all frames and the final solution hold the initial data. *)
Theorem C167_run_partial :
  forall (P F : Type) M C qbc0 auxbc0 hook speed later n a b cc I before setup valid (c : controller (Z * Z -> Q) (arr Q) P F)
    (w w' : world (Z * Z -> Q) (arr Q) (Z * Z -> Q) P F) o,
  let s0 := if w_set_up w then w_solver w else setup (w_solver w) in
  let u0 := sq (w_sol w) in let aux0 := sx (w_sol w) in
  sane s0 -> accept_step s0 = true ->
  (3 <= c_ng C)%nat -> fit_dim (c_ng C) (Nat.ltb 0 (c_naux C)) (Z.of_nat (c_neq C)) (c_bc C) -> regular C -> at_rest C ->
  wave_based C M -> capa_in_aux C -> (forall i, (0 <= i < cells C)%Z -> 0 < capacity C (flat aux0) i) ->
  equilibrium C (as_arr u0) aux0 ->
  (forall t u, same_cells C u0 u -> same_cells C u0 (hook t u)) ->
  (forall so, same_cells C u0 (sq so) -> agree C (c_naux C) aux0 (sx so) ->
     same_cells C u0 (fst (before so)) /\ agree C (c_naux C) aux0 (snd (before so))) ->
  run (sharp_evolve (rk_slope (fun aux => rhs M C aux qbc0 auxbc0) speed)
         (rk_stages (fun aux => rhs M (register_settings M C) aux qbc0 auxbc0) hook later n a b cc I) before) setup valid c w = (w', o) ->
  frames_keep (fun u => same_cells C u0 (sq u) /\ agree C (c_naux C) aux0 (sx u)) w w' o.
Proof.
  intros P F M C qbc0 auxbc0 hook speed later n a b cc I before setup valid c w w' o s0 u0 aux0 HS HAcc Hng HF HR HA HM HC Hpos EQ HH HB H.
  set (D := fun x : Z * Z => (0 <= fst x < Z.of_nat (c_neq C))%Z /\ (0 <= snd x < cells C)%Z).
  assert (NS : forall u, near D u0 u <-> same_cells C u0 u).
  { intro u. split; [intros K m i Hm Hi; apply (K (m, i)); split; assumption|intros K [m i] [Hm Hi]; apply K; assumption]. }
  refine (C90_sharpclaw_run _ (arr Q) P F (same_cells C u0) (null D) (agree C (c_naux C) aux0) _ _ before setup valid c w w' o HS (or_introl HAcc) _ _ _ H);
    [|intros m i _ _; reflexivity|intros m i _ _; reflexivity].
  split; [exact HB|]. split.
  - intros d so _ H1 H2. split; [|exact H2]. intros [m i] [Hm Hi]. cbn [rk_slope fst].
    apply (rhs_null M C aux0 u0); assumption.
  - intros d k so _ H1 H2 Hk. split; [|exact H2]. unfold rk_stages. cbn [fst]. apply NS.
    assert (Hf : forall t u, near D u0 u -> null D (rhs M (register_settings M C) (sx so) qbc0 auxbc0 t u)).
    { intros t u K [m i] [Hm Hi]. apply (register_null M C aux0 u0); try assumption. apply NS. exact K. }
    assert (Hh : forall t u, near D u0 u -> near D u0 (hook t u)) by (intros t u K; apply NS, HH, NS; exact K).
    apply NS in H1. destruct I; try exact H1.
    + apply euler_near; assumption.
    + apply ssp22_near; assumption.
    + apply ssp33_near; assumption.
    + apply ssp104_near; assumption.
    + apply rk_near; assumption.
Qed.
(** Missing: the multistep integrators (EquilProps3), and the reconstructions that do not start from the waves, for which it is false: *)

(** The problem of C166_case with three ghost cells *)
Definition sset : settings :=
  mkSet 1 1 1 3 true 2 (fun _ => 4%Z) bottom (1 # 2) (1 # 4) None (mkDim 5 Extrap Extrap Extrap Extrap true true 0) (mkFuns Q None None None None).
Definition shelf : Z -> Q := fun i => if Z.eqb i 4 then 1 else 0.
Lemma sset_hyps : (3 <= c_ng sset)%nat /\ fit_dim (c_ng sset) (Nat.ltb 0 (c_naux sset)) (Z.of_nat (c_neq sset)) (c_bc sset) /\ regular sset /\ at_rest sset /\
  nonzero_speeds sset /\ equilibrium sset (bdata shelf) (bdata shelf).
Proof.
  split; [cbn; lia|]. split; [unfold fit_dim, standard, wide; cbn; intuition (auto; try discriminate; try lia)|]. split; [exact eset_regular|].
  split; [intros u a m _ _ _; cbn [sset c_rp bottom o_am o_ap]; ring|]. split; [intros ul ur al ar p _; discriminate|].
  intros i Hi. assert (K : i = (-1)%Z \/ i = 0%Z \/ i = 1%Z \/ i = 2%Z \/ i = 3%Z \/ i = 4%Z) by (cbn in Hi; lia).
  intros m _. repeat (destruct K as [->|K] || subst i); (split; [vm_compute; reflexivity|]; split; [vm_compute; reflexivity|intros; vm_compute; reflexivity]).
Qed.
Definition eps36 : Q := 1 # 1000000000000000000000000000000000000.
Definition dq_at (M : method) (C : settings) (q aux : arr Q) (m i : Z) : option Q :=
  match dq_hyperbolic M C q aux zero_arr zero_arr with DQ d _ => Some (d m i) | _ => None end.
Definition moves (x : option Q) : bool := match x with Some y => negb (Qeq_bool y 0) | None => false end.
(** Entry-wise reconstruction, the default (lim_type 2 and char_decomp 0), puts edge values away from the cell values: an equilibrium over a step
    of the bottom moves. (In Python with the constant 1 in place of 10^-36, to keep the numbers short.) *)
Theorem C167_componentwise_refuted :
  exists C q aux m i, (3 <= c_ng C)%nat /\ fit_dim (c_ng C) (Nat.ltb 0 (c_naux C)) (Z.of_nat (c_neq C)) (c_bc C) /\ regular C /\ at_rest C /\
    equilibrium C q aux /\ (0 <= m < Z.of_nat (c_neq C))%Z /\ (0 <= i < cells C)%Z /\
    moves (dq_at (PyRecon 1 2 0) C q aux m i) = true /\
    moves (dq_at (FRecon (fortran_weno5 eps36 (Z.of_nat (c_ng C)) (cells C) (fun _ _ => 0) (fun _ _ => 0)) None) C q aux m i) = true.
Proof.
  exists sset, (bdata shelf), (bdata shelf), 0%Z, 2%Z. destruct sset_hyps as (A & B & D & E & _ & G).
  split; [exact A|]. split; [exact B|]. split; [exact D|]. split; [exact E|]. split; [exact G|]. split; [cbn; lia|]. split; [cbn; lia|].
  split; vm_compute; reflexivity.
Qed.
(** Wave-based methods on the same problem, and data that are not an equilibrium and move with them *)
Definition sworld (f : Z -> Q) : world (Z * Z -> Q) (arr Q) (Z * Z -> Q) unit unit :=
  mkWorld (mkSolver (1 # 10) None 100 true (9 # 10) 1 (9 # 10) 1000 None None None 0 true (fun _ => 0)) true
    (mkSol (fun x => shelf (snd x) + f (snd x)) (bdata shelf) 0) 0 [] false [].
Example C167_case : let C := sset in let w := sworld (fun _ => 0) in
  sane (w_solver w) /\ accept_step (w_solver w) = true /\ (3 <= c_ng C)%nat /\ fit_dim (c_ng C) (Nat.ltb 0 (c_naux C)) (Z.of_nat (c_neq C)) (c_bc C) /\
  regular C /\ at_rest C /\ wave_based C (PyRecon eps36 2 1) /\
  wave_based C (FRecon (fwave_recon eps36 (c_rp C) (c_neq C) (c_nw C) (c_naux C) (Z.of_nat (c_ng C)) (cells C) (fun _ _ => 0) (fun _ _ => 0)) None) /\
  capa_in_aux C /\ (forall i, (0 <= i < cells C)%Z -> 0 < capacity C (flat (sx (w_sol w))) i) /\
  equilibrium C (as_arr (sq (w_sol w))) (sx (w_sol w)) /\
  moves (dq_at (PyRecon eps36 (-1) 0) C (bdata (fun i => inject_Z i)) (bdata shelf) 0%Z 2%Z) = true.
Proof.
  cbv zeta. destruct sset_hyps as (A & B & D & E & S & G). split; [split; [reflexivity|intros _; split; reflexivity]|]. split; [reflexivity|].
  split; [exact A|]. split; [exact B|]. split; [exact D|]. split; [exact E|]. split; [constructor|].
  split; [apply fortran_fwave; [reflexivity|intros f Ef; discriminate Ef|exact S]|]. split; [intros k Ek; discriminate Ek|]. split; [intros; reflexivity|].
  split; [|vm_compute; reflexivity]. apply (equil_agree sset ltac:(cbn; lia) B D (bdata shelf) (bdata shelf)); [|exact G].
  split; intros m i _ _; [cbn [as_arr hd sworld w_sol sq snd bdata]; unfold as_arr; cbn [hd snd]; ring|reflexivity].
Qed.
Print Assumptions C167_rhs.
Print Assumptions C167_run_partial.
Print Assumptions C167_componentwise_refuted.
