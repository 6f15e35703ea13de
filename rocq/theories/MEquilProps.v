(** C168: equilibria of two- and three-dimensional problems with SharpClaw; C88 over whole runs of the multistep methods. *)
From Verif Require Import Base BCModel BCSpec LimiterModel Classic1DModel Classic1DSpec Classic1DProps TimeModel SimSpec SymSpec SymProps CapaSpec
  SharpModel SharpSpec MultiModel MultiSpec MultiProofs MultiProps SemiModel SemiSpec SemiProps SemiProofs2 SweepModel SweepSpec SweepProofs5 MSemiModel MSemiSpec MSemiProps MSemiProps2
  SweepProofs ReconModel EquilSpec EquilProofs2 EquilProofs3 EquilProps EquilProps2 EquilProps3 KeepProofs KeepProps MEquilSpec MEquilProofs.

(** One evaluation: dq exists and vanishes in every cell. *)
Theorem C168_rhs :
  forall (W : Type) (recon : nat -> W -> (Z -> Z -> Q) -> (Z -> Z -> Q) -> W * edges) tfluct S w0 q aux qbc0 auxbc0,
  (2 <= n_ng S)%nat -> Forall (fit_dim (n_ng S) (Nat.ltb 0 (n_naux S)) (Z.of_nat (n_neq S))) (n_bcs S) -> mregular S -> mat_rest S tfluct ->
  n_capa S = None -> determined S recon -> rests S recon -> mequilibrium S q aux ->
  exists dq cfl, mdq_hyperbolic recon tfluct Fortran S w0 q aux qbc0 auxbc0 = MDQ dq cfl /\
  forall m ix, (0 <= m < Z.of_nat (n_neq S))%Z -> in_domain (n_bcs S) ix -> dq m ix == 0.
Proof. intros W recon tfluct S w0 q aux qbc0 auxbc0 Hg HF HR HA HN HD HS EQ. exact (grid_rest S Hg HF HR recon tfluct w0 q aux qbc0 auxbc0 HA HN HD HS EQ). Qed.
(** Wave-based TVD is such a reconstruction. *)
Theorem C168_tvd : forall mthlim undef S, (3 <= n_ng S)%nat -> determined S (mtvd mthlim undef S) /\ rests S (mtvd mthlim undef S).
Proof. intros. split; [apply mtvd_determined; assumption|apply mtvd_rests; lia]. Qed.

Section Runs.
Context {W : Type}.
Variable recon : nat -> W -> (Z -> Z -> Q) -> (Z -> Z -> Q) -> W * edges.
Variable tfluct : option (nat -> list Q -> list Q -> list Q -> list Q -> Z -> Q).
Variable S : msettings.
Variables (w : Q -> (Z * list Z -> Q) -> W) (aux qbc0 auxbc0 : arr Q).
Definition cell_of (x : Z * list Z) : Prop := (0 <= fst x < Z.of_nat (n_neq S))%Z /\ in_domain (n_bcs S) (snd x).
Lemma near_same u0 u : near cell_of u0 u <-> same_mcells S u0 u.
Proof. split; [intros K m ix Hm Hx; apply (K (m, ix)); split; assumption|intros K [m ix] [Hm Hx]; apply K; assumption]. Qed.
Lemma mrhs_null u0 t u : (2 <= n_ng S)%nat -> Forall (fit_dim (n_ng S) (Nat.ltb 0 (n_naux S)) (Z.of_nat (n_neq S))) (n_bcs S) -> mregular S -> mat_rest S tfluct ->
  n_capa S = None -> determined S recon -> rests S recon -> mequilibrium S (as_marr u0) aux -> same_mcells S u0 u ->
  null cell_of (mrhs recon tfluct S w aux qbc0 auxbc0 t u).
Proof.
  intros Hg HF HR HA HN HD HS EQ SM [m ix] [Hm Hx]. cbn [fst snd] in *.
  assert (EQ2 : mequilibrium S (as_marr u) aux) by (apply (mequil_same S Hg HF HR (as_marr u0)); [intros k jx Hk Hj; apply SM; assumption|exact EQ]).
  destruct (C168_rhs W recon tfluct (munit_dt S) (w t u) (as_marr u) aux qbc0 auxbc0 Hg HF HR HA HN HD HS EQ2) as (dq & cfl & E & Z0).
  unfold mrhs. rewrite E. cbn [fst snd]. apply Z0; assumption.
Qed.
End Runs.

(** Every Runge-Kutta step leaves all cells as they are; *)
Theorem C168_runge_kutta :
  forall (W : Type) (recon : nat -> W -> (Z -> Z -> Q) -> (Z -> Z -> Q) -> W * edges) tfluct S w aux qbc0 auxbc0 hook dt t u0 q,
  (2 <= n_ng S)%nat -> Forall (fit_dim (n_ng S) (Nat.ltb 0 (n_naux S)) (Z.of_nat (n_neq S))) (n_bcs S) -> mregular S -> mat_rest S tfluct ->
  n_capa S = None -> determined S recon -> rests S recon -> mequilibrium S (as_marr u0) aux ->
  (forall t u, same_mcells S u0 u -> same_mcells S u0 (hook t u)) -> same_mcells S u0 q ->
  let f := mrhs recon tfluct S w aux qbc0 auxbc0 in
  same_mcells S u0 (euler dt (f t q) t q) /\ same_mcells S u0 (ssp22 f hook dt (f t q) t q) /\
  same_mcells S u0 (ssp33 f hook dt (f t q) t q) /\ same_mcells S u0 (ssp104 f hook dt (f t q) t q) /\
  forall n a b c, same_mcells S u0 (rk_user f hook dt n a b c (f t q) t q).
Proof.
  intros W recon tfluct S w aux qbc0 auxbc0 hook dt t u0 q Hg HF HR HA HN HD HS EQ HH Hq f.
  assert (Hf : forall t u, near (cell_of S) u0 u -> null (cell_of S) (f t u)).
  { intros s u K. apply (mrhs_null recon tfluct S w aux qbc0 auxbc0 u0); try assumption. apply near_same. exact K. }
  assert (Hh : forall t u, near (cell_of S) u0 u -> near (cell_of S) u0 (hook t u)) by (intros s u K; apply near_same, HH, near_same; exact K).
  apply near_same in Hq. pose proof (Hf t q Hq) as Hk.
  split; [apply near_same, euler_near; assumption|]. split; [apply near_same, ssp22_near; assumption|].
  split; [apply near_same, ssp33_near; assumption|]. split; [apply near_same, ssp104_near; assumption|].
  intros n a b c. apply near_same, rk_near; assumption.
Qed.
(** so do whole calls of evolve_to_time with the general linear multistep integrator *)
Theorem C168_lmm_run :
  forall (W : Type) (recon : nat -> W -> (Z -> Z -> Q) -> (Z -> Z -> Q) -> W * edges) tfluct S w aux qbc0 auxbc0
    (DX : Type) (before : sol (Z * list Z -> Q) DX -> DX) speed hook steps check alpha beta (s : solver (hist (Z * list Z))) (so : sol (Z * list Z -> Q) DX) tend,
  (2 <= n_ng S)%nat -> Forall (fit_dim (n_ng S) (Nat.ltb 0 (n_naux S)) (Z.of_nat (n_neq S))) (n_bcs S) -> mregular S -> mat_rest S tfluct ->
  n_capa S = None -> determined S recon -> rests S recon -> mequilibrium S (as_marr (sq so)) aux ->
  (forall t u, same_mcells S (sq so) u -> same_mcells S (sq so) (hook t u)) ->
  length alpha = Z.to_nat steps -> (1 <= steps)%Z -> qsum alpha == 1 ->
  Forall (fun r => fst r = sq so) (h_regs (ext s)) -> h_fs (ext s) = [] -> h_dqdt (ext s) = (fun _ => 0) ->
  let r := multi_evolve (mrhs recon tfluct S w aux qbc0 auxbc0) speed hook LMM steps check alpha beta before s so tend in
  same_mcells S (sq so) (sq (r_sol r)) /\ Forall (fun ev => same_mcells S (sq so) (sq (ev_after ev))) (r_trace r).
Proof.
  intros W recon tfluct S w aux qbc0 auxbc0 DX before speed hook steps check alpha beta s so tend Hg HF HR HA HN HD HS EQ HH Hl Hs Hsum Hregs Hfs Hdq.
  set (f := mrhs recon tfluct S w aux qbc0 auxbc0).
  assert (Hf : forall t u, near (cell_of S) (sq so) u -> null (cell_of S) (f t u)).
  { intros t u K. apply (mrhs_null recon tfluct S w aux qbc0 auxbc0 (sq so)); try assumption. apply near_same. exact K. }
  assert (Hh : forall t u, near (cell_of S) (sq so) u -> near (cell_of S) (sq so) (hook t u)) by (intros t u K; apply near_same, HH, near_same; exact K).
  cbv zeta. unfold multi_evolve.
  destruct (evolve_inv (Z * list Z -> Q) DX (hist (Z * list Z)) (multi_step f speed hook LMM steps check alpha beta) (multi_accept LMM steps)
     (fun so => (sq so, before so)) (hist_near (Z * list Z) (cell_of S) (sq so)) (near (cell_of S) (sq so))) with (s := s) (so := so) (te := tend) as [[_ HB] HT].
  - intros so' H. exact H.
  - intros ts te s' so' H1 H2. apply lmm_step_near; try assumption. auto.
  - split; [|intros x _; reflexivity]. intros x Hx. repeat split.
    + eapply Forall_impl; [|exact Hregs]. intros r ->. reflexivity.
    + rewrite Hfs. constructor.
    + rewrite Hdq. reflexivity.
  - split; [apply near_same; exact HB|]. eapply Forall_impl; [|exact HT]. intros ev [_ H]. apply near_same. exact H.
Qed.
(** and runs of the SSP multistep methods. *)
Theorem C168_ssplmm_run :
  forall (W : Type) (recon : nat -> W -> (Z -> Z -> Q) -> (Z -> Z -> Q) -> W * edges) tfluct S w aux qbc0 auxbc0
    (DX : Type) (before : sol (Z * list Z -> Q) DX -> DX) speed hook I k check (s s' : solver (hist (Z * list Z))) (so so' : sol (Z * list Z -> Q) DX) tends tr,
  (2 <= n_ng S)%nat -> Forall (fit_dim (n_ng S) (Nat.ltb 0 (n_naux S)) (Z.of_nat (n_neq S))) (n_bcs S) -> mregular S -> mat_rest S tfluct ->
  n_capa S = None -> determined S recon -> rests S recon -> mequilibrium S (as_marr (sq so)) aux ->
  (forall t u, same_mcells S (sq so) u -> same_mcells S (sq so) (hook t u)) ->
  ssp_multistep I check -> (2 <= k)%nat -> fresh k s -> dt_variable s = true ->
  multi_runs (mrhs recon tfluct S w aux qbc0 auxbc0) speed hook I (Z.of_nat k) check [] [] before s so tends = (s', so', tr) -> forward tr ->
  Forall (fun p => same_mcells S (sq so) (fst p)) (solutions so tr).
Proof.
  intros W recon tfluct S w aux qbc0 auxbc0 DX before speed hook I k check s s' so so' tends tr Hg HF HR HA HN HD HS EQ HH HI Hk HFr Hv E HW.
  set (f := mrhs recon tfluct S w aux qbc0 auxbc0) in *.
  assert (HH' : history_respected f hook I k [] [] (dt_variable s) so tr).
  { refine (C30_history_partial _ DX f speed hook I k check [] [] before s so tends s' so' tr Hk HFr _ E). destruct HI as [->|[-> ->]]; auto. }
  rewrite Hv in HH'. set (D := {x : Z * list Z | cell_of S x}). set (L := fun (w : D) (u : Z * list Z -> Q) => u (proj1_sig w)).
  assert (NS : forall u, kept (Z * list Z) D L (fun w => sq so (proj1_sig w)) u <-> same_mcells S (sq so) u).
  { intro u. rewrite <- near_same. split.
    - intros K x Hx. exact (K (exist _ x Hx)).
    - intros K [x Hx]. exact (K x Hx). }
  destruct (run_kept (Z * list Z) DX D L (fun w => sq so (proj1_sig w)) (fun w => at_linear (Z * list Z) (proj1_sig w))) with (f := f) (hook := hook) (I := I) (k := k) (so0 := so) (tr := tr) as [X _];
    try assumption.
  - intros x u v Hu. apply Hu.
  - intros t u K [x Hx]. unfold L, f. cbn [proj1_sig]. apply (mrhs_null recon tfluct S w aux qbc0 auxbc0 (sq so)); try assumption. apply NS. exact K.
  - intros t u K. apply NS, HH, NS. exact K.
  - destruct HI as [->|[-> _]]; auto.
  - intro x. reflexivity.
  - eapply Forall_impl; [|exact X]. intros p K. apply NS. exact K.
Qed.

(** Conservation over whole runs of the SSP multistep methods in two and three dimensions *)
Theorem C88_ssplmm_run :
  forall (W : Type) (recon : nat -> W -> (Z -> Z -> Q) -> (Z -> Z -> Q) -> W * edges) tfluct S flux w aux qbc0 auxbc0 m
    (DX : Type) (before : sol (Z * list Z -> Q) DX -> DX) speed hook I k check (s s' : solver (hist (Z * list Z))) (so so' : sol (Z * list Z -> Q) DX) tends tr,
  (3 <= n_ng S)%nat -> Forall (periodic_dim (n_ng S)) (n_bcs S) -> n_capa S = None ->
  all_conservative S flux -> determined S recon -> msound S flux recon tfluct ->
  (0 <= m < Z.of_nat (n_neq S))%Z -> (forall t u, mtotal1 S m (hook t u) == mtotal1 S m u) ->
  ssp_multistep I check -> (2 <= k)%nat -> fresh k s -> dt_variable s = true ->
  multi_runs (mrhs recon tfluct S w aux qbc0 auxbc0) speed hook I (Z.of_nat k) check [] [] before s so tends = (s', so', tr) -> forward tr ->
  Forall (fun p => mtotal1 S m (fst p) == mtotal1 S m (sq so)) (solutions so tr).
Proof.
  intros W recon tfluct S flux w aux qbc0 auxbc0 m DX before speed hook I k check s s' so so' tends tr Hg HP HN HC HD HM Hm Hh HI Hk HFr Hv E HW.
  set (f := mrhs recon tfluct S w aux qbc0 auxbc0) in *.
  assert (HH' : history_respected f hook I k [] [] (dt_variable s) so tr).
  { refine (C30_history_partial _ DX f speed hook I k check [] [] before s so tends s' so' tr Hk HFr _ E). destruct HI as [->|[-> ->]]; auto. }
  rewrite Hv in HH'.
  destruct (run_kept (Z * list Z) DX unit (fun _ => mtotal1 S m) (fun _ => mtotal1 S m (sq so)) (fun _ => mtotal1_linear S m)) with (f := f) (hook := hook) (I := I) (k := k) (so0 := so) (tr := tr) as [X _];
    try assumption.
  - intros _ u v Hu. unfold mtotal1. apply boxsum_eq. intros ix _ _. apply Hu.
  - intros t u _ _. unfold f. eapply mrhs_total; eauto.
  - intros t u K x. rewrite Hh. apply K. exact x.
  - destruct HI as [->|[-> _]]; auto.
  - intro x. reflexivity.
  - eapply Forall_impl; [|exact X]. intros p K. exact (K tt).
Qed.

(** The scalar equation of C166_case in two dimensions, on 4 x 3 cells with a bump in one cell of the bottom *)
Definition mset : msettings :=
  mkMSet 1 1 1 3 true 2 (fun _ => 4%Z) (fun _ => bottom) (fun _ _ _ _ _ _ _ => (fun _ => 0, fun _ => 0)) (fun d => match d with O => 1 | _ => 2 end)
    (1 # 4) None [mkDim 4 Extrap Extrap Extrap Extrap true true 0; mkDim 3 Extrap Extrap Extrap Extrap true true 0] (mkFuns Q None None None None).
Definition mbump : arr Q := fun _ ix => match ix with [1%Z; 1%Z] => 2 | [2%Z; 0%Z] => 1 # 3 | _ => 0 end.
Definition mstate (h : Q) : Z * list Z -> Q := fun x => mbump (fst x) (snd x) + match snd x with [1%Z; 0%Z] => h | _ => 0 end.
Definition mdq_at (u : Z * list Z -> Q) (ix : list Z) : option Q :=
  match mdq_hyperbolic (mtvd (fun _ => 4%Z) 0 mset) None Fortran mset no_edges (as_marr u) mbump zero_arr zero_arr with MDQ d _ => Some (d 0%Z ix) | _ => None end.
Lemma extrap_same n a m i :
  q_ghost_value Q Qopp [mkDim n Extrap Extrap Extrap Extrap true true 0] a m [i] = aux_ghost_value Q [mkDim n Extrap Extrap Extrap Extrap true true 0] a m [i].
Proof. unfold q_ghost_value, aux_ghost_value, behind_wall. cbn. destruct (Z.ltb i 0); destruct (Z.leb n i); rewrite ?andb_false_r; reflexivity. Qed.
Example C168_case :
  (3 <= n_ng mset)%nat /\ Forall (fit_dim (n_ng mset) (Nat.ltb 0 (n_naux mset)) (Z.of_nat (n_neq mset))) (n_bcs mset) /\ mregular mset /\ mat_rest mset None /\
  n_capa mset = None /\ mequilibrium mset mbump mbump /\
  moves (mdq_at (mstate 0) [1; 1]%Z) = false /\ moves (mdq_at (mstate 1) [1; 0]%Z) = true.
Proof.
  split; [cbn; lia|]. split.
  { constructor; [|constructor; [|constructor]]; unfold fit_dim, standard, wide; cbn; intuition (auto; try discriminate; try lia). }
  split; [intros d D Hd; exact eset_regular|].
  split.
  { intros d D Hd. split; [intros u a m _ _ _; cbn [line_settings mset n_rpn c_rp bottom o_am o_ap]; ring|intros f Ef; discriminate Ef]. }
  split; [reflexivity|]. split.
  { intros d D ix Hd Hx i Hi m Hm. cbn [line_settings mset n_rpn c_rp c_neq c_nw n_neq n_nw].
    assert (E : forall j, q_at (line_settings mset d D) (line d ix mbump) j = aux_at (line_settings mset d D) (line d ix mbump) j).
    { intro j. unfold q_at, aux_at. cbn [line_settings mset c_neq c_naux n_neq n_naux seq map c_bc].
      destruct Hd as [Ed|[Ed|[]]]; injection Ed as <- <-; rewrite extrap_same; reflexivity. }
    rewrite !E. cbn [bottom o_am o_ap o_wave]. split; [reflexivity|]. split; [ring|intros p _; ring]. }
  split; vm_compute; reflexivity.
Qed.
Print Assumptions C168_rhs.
Print Assumptions C168_tvd.
Print Assumptions C168_runge_kutta.
Print Assumptions C168_lmm_run.
Print Assumptions C168_ssplmm_run.
Print Assumptions C88_ssplmm_run.
