(** Properties C48 and C75-C77: gauges. *)
From Verif Require Import Base TimeModel TimeSpec TimeProofs TimeProofs2 ControllerModel ControllerSpec ControllerProofs ControllerProofs2
  GaugeModel GaugeSpec GaugeProofs GaugeProofs2.

(** *** C48: one row for the initial values and one for each accepted step *)

(** For the first run with any set of gauges in one or two dimensions, any solver and any sequence of calls,
    also when the solver raises: the gauges do not influence the computation, and every gauge has, in its file
    and (with keep_gauges) in memory, exactly the rows of the initial solution and of the solution after each
    accepted step.  Other gauge files on the disk are left alone, and after a normal end all files are
    closed. *)
Theorem C48_gauges (DQ DX E : Type) (num_dim : Z) (qat : DQ -> list Z -> list Q) (auxat : DX -> option (list Z -> list Q))
    (compute : list Q -> option (list Q) -> list Q) (m : nat)
    (stepf : Q -> option Q -> solver E -> sol DQ DX -> solver E * sol DQ DX) acceptf before
    (output overwrite : bool) (calls : list (option Q)) (s : solver E) (so : sol DQ DX) (g : gauges) :
  (num_dim = 1 \/ num_dim = 2)%Z -> (forall v a, length (compute v a) = m) -> fresh num_dim g ->
  (output = true -> overwrite = true) ->
  let r := grun num_dim qat auxat compute stepf acceptf before output overwrite calls s so g in
  let h := history (evolve_to_time stepf acceptf before) s so calls in
  gr_solver r = r_solver h /\ gr_sol r = r_sol h /\ gr_err r = option_map SolverError (r_err h) /\
  same_gauges (gr_gauges r) g /\
  (forall i cell name, nth_error (g_cells g) i = Some cell -> nth_error (g_names g) i = Some name ->
     let rows := gauge_rows qat auxat compute cell (so :: accepted_solutions (r_trace h)) in
     on_disk (gr_gauges r) name = Some rows /\
     (g_keep g = true -> nth_error (g_data (gr_gauges r)) i = Some rows)) /\
  (g_keep g = true -> length (g_data (gr_gauges r)) = length (g_cells g)) /\
  (g_keep g = false -> g_data (gr_gauges r) = []) /\
  (forall name, ~ In name (g_names g) -> on_disk (gr_gauges r) name = g_old g name) /\
  map h_name (g_files (gr_gauges r)) = g_names g /\
  (r_err h = None -> Forall (fun f => h_open f = false) (g_files (gr_gauges r))).
Proof.
  intros Hd Hm (F1 & F2 & F3 & F4 & F5) Ho. cbv zeta.
  set (h := history (evolve_to_time stepf acceptf before) s so calls).
  set (L := combine (g_cells g) (g_names g)).
  assert (L1 : map fst L = g_cells g).
  { unfold L. revert F2. generalize (g_names g). generalize (g_cells g). clear. intros c. induction c as [|x c IH]; intros [|n l] H; try discriminate H; [reflexivity|].
    cbn [combine map fst]. f_equal. apply IH. injection H as H. exact H. }
  assert (L2 : map snd L = g_names g).
  { unfold L. revert F2. generalize (g_names g). generalize (g_cells g). clear. intros c. induction c as [|x c IH]; intros [|n l] H; try discriminate H; [reflexivity|].
    cbn [combine map snd]. f_equal. apply IH. injection H as H. exact H. }
  assert (HL : Forall (fun cn => Z.of_nat (length (fst cn)) = num_dim) L).
  { rewrite Forall_forall in F1 |- *. intros cn Hin. apply F1. rewrite <- L1. apply in_map. exact Hin. }
  set (d := if (0 <? length (g_cells g))%nat then true else g_dir g).
  set (GG := G DQ DX qat auxat compute L (g_keep g) (g_old g) d).
  assert (S1 : (if (0 <? length (g_cells g))%nat then setup_gauge_files g else g) = GG []).
  { unfold GG, G, d. rewrite L1, L2. replace (datas DQ DX qat auxat compute [] L) with (@nil (list row)) by reflexivity.
    assert (HM : map (H DQ DX qat auxat compute []) L = map (fun n => mkHandle n true []) (g_names g))
      by (rewrite <- L2, map_map; apply map_ext; intros; reflexivity).
    rewrite HM. destruct (Nat.ltb_spec 0 (length (g_cells g))) as [Hp|Hp].
    - unfold setup_gauge_files. rewrite F4, F5. destruct (g_keep g); reflexivity.
    - destruct g as [cs ns fs kb da ol di]. cbn [g_cells g_names g_files g_keep g_data g_old g_dir] in *.
      subst fs da. destruct cs; [|cbn [length] in Hp; lia]. destruct ns; [|discriminate F2]. destruct kb; reflexivity. }
  set (us := so :: accepted_solutions (r_trace h)).
  assert (GR : grun num_dim qat auxat compute stepf acceptf before output overwrite calls s so g =
    mkGResult (r_solver h) (r_sol h) (match r_err h with Some _ => GG us | None => close_files (GG us) end)
      (option_map SolverError (r_err h))).
  { unfold grun. rewrite S1. unfold GG at 1.
    rewrite (write_values DQ DX num_dim qat auxat compute m Hm Hd L HL (g_keep g) (g_old g) d [] so).
    fold GG. cbn [app]. replace (output && g_dir (GG [so]) && negb overwrite)%bool with false.
    2:{ symmetry. destruct output; [|reflexivity]. rewrite (Ho eq_refl). apply andb_false_r. }
    pose proof (gcalls_spec DQ DX num_dim qat auxat compute m Hm Hd L HL (g_keep g) (g_old g) d E stepf acceptf before calls s so [so]) as GS.
    cbv zeta in GS |- *. fold GG in GS. fold h in GS. rewrite GS. cbn [gr_err app]. fold us.
    destruct (r_err h); reflexivity. }
  rewrite GR. clear GR.
  assert (DATA : g_data (GG us) = if g_keep g then map (R DQ DX qat auxat compute us) L else []) by reflexivity.
  assert (ROWS : forall i cell name, nth_error (g_cells g) i = Some cell -> nth_error (g_names g) i = Some name ->
     nth_error L i = Some (cell, name)).
  { intros i cell name H1 H2. rewrite <- L1 in H1. rewrite <- L2 in H2. rewrite nth_error_map in H1, H2.
    destruct (nth_error L i) as [[a b]|]; [|discriminate H1]. cbn in H1, H2. congruence. }
  assert (FILE : forall (open : bool) cn, In cn L ->
     last_file (snd cn) (map (fun cn => mkHandle (snd cn) open (gauge_rows qat auxat compute (fst cn) us)) L) =
     Some (mkHandle (snd cn) open (gauge_rows qat auxat compute (fst cn) us))).
  { intros op cn Hin. apply (last_file_map (fun cn => mkHandle (snd cn) op (gauge_rows qat auxat compute (fst cn) us)) snd).
    - reflexivity.
    - rewrite L2. exact F3.
    - exact Hin. }
  assert (NOFILE : forall (open : bool) name, ~ In name (g_names g) ->
     last_file name (map (fun cn => mkHandle (snd cn) open (gauge_rows qat auxat compute (fst cn) us)) L) = None).
  { intros op name Hn. rewrite <- L2 in Hn. clear -Hn. induction L as [|cn l IH]; [reflexivity|]. cbn [map last_file].
    cbn [map In] in Hn. rewrite IH by tauto. cbn [h_name]. destruct (Z.eqb_spec (snd cn) name); [tauto|reflexivity]. }
  assert (MAIN : forall (open : bool) G', G' = set_files (map (fun cn => mkHandle (snd cn) open (gauge_rows qat auxat compute (fst cn) us)) L) (GG us) ->
    same_gauges G' g /\
    (forall i cell name, nth_error (g_cells g) i = Some cell -> nth_error (g_names g) i = Some name ->
      on_disk G' name = Some (gauge_rows qat auxat compute cell us) /\
      (g_keep g = true -> nth_error (g_data G') i = Some (gauge_rows qat auxat compute cell us))) /\
    (g_keep g = true -> length (g_data G') = length (g_cells g)) /\
    (g_keep g = false -> g_data G' = []) /\
    (forall name, ~ In name (g_names g) -> on_disk G' name = g_old g name) /\ map h_name (g_files G') = g_names g).
  { intros op G' ->. split; [|split; [|split; [|split; [|split]]]].
    - split; [exact L1|]. split; [exact L2|]. split; reflexivity.
    - intros i cell name H1 H2. pose proof (ROWS i cell name H1 H2) as HN. split.
      + unfold on_disk. cbn [g_files set_files]. pose proof (FILE op (cell, name) (nth_error_In _ _ HN)) as HF. cbn [fst snd] in HF. rewrite HF. reflexivity.
      + intros K. cbn [g_data set_files]. rewrite DATA, K, nth_error_map, HN. reflexivity.
    - intros K. cbn [g_data set_files]. rewrite DATA, K, map_length, <- L1, map_length. reflexivity.
    - intros K. cbn [g_data set_files]. rewrite DATA, K. reflexivity.
    - intros name Hn. unfold on_disk. cbn [g_files set_files]. rewrite NOFILE by exact Hn. reflexivity.
    - cbn [g_files set_files]. rewrite map_map. exact L2. }
  destruct (r_err h) as [e|] eqn:Ee; cbn [option_map].
  - cbn [gr_solver gr_sol gr_gauges gr_err]. split; [reflexivity|]. split; [reflexivity|]. split; [reflexivity|].
    destruct (MAIN true (GG us) eq_refl) as (M1 & M2 & M3 & M4 & M5 & M6).
    split; [exact M1|]. split; [exact M2|]. split; [exact M3|]. split; [exact M4|]. split; [exact M5|]. split; [exact M6|]. discriminate.
  - cbn [gr_solver gr_sol gr_gauges gr_err]. split; [reflexivity|]. split; [reflexivity|]. split; [reflexivity|].
    destruct (MAIN false (close_files (GG us))) as (M1 & M2 & M3 & M4 & M5 & M6).
    { unfold close_files. unfold GG at 1. cbn [g_files G]. rewrite map_map. reflexivity. }
    split; [exact M1|]. split; [exact M2|]. split; [exact M3|]. split; [exact M4|]. split; [exact M5|]. split; [exact M6|]. intros _.
    unfold close_files. cbn [g_files set_files]. apply Forall_forall. intros f Hf. apply in_map_iff in Hf.
    destruct Hf as (x & <- & _). reflexivity.
Qed.

(** The number of rows after the first is the number of steps in the solver's status, and their times increase
    strictly (classic solver with variable steps, output times increasing). *)
Theorem C48_classic_rows (DQ DX E : Type) source hyper sp before (ts : list Q) (s : solver E) (so : sol DQ DX) :
  dt_variable s = true -> 0 < dt s -> 0 < dt_max s -> 0 < cfl_desired s -> increasing (st so) ts ->
  let h := history (classic_evolve source hyper sp before) s so (map Some ts) in
  (st_numsteps (r_solver h) = st_numsteps s + Z.of_nat (length (accepted_solutions (r_trace h))))%Z /\
  increasing (st so) (map st (accepted_solutions (r_trace h))).
Proof.
  intros H1 H2 H3 H4 H5. cbv zeta. split.
  - apply (history_steps _ _ _ (classic_frame source hyper sp)). intros s' Hs. apply accept_base. exact Hs.
  - apply (history_order _ _ _ (classic_frame source hyper sp) (classic_honours source hyper sp)); [|exact H5].
    split; [exact H1|]. split; [exact H2|]. split; [exact H3|exact H4].
Qed.
Theorem C48_sharpclaw_rows (DQ DX : Type) slope stages before (ts : list Q) (s : solver DQ) (so : sol DQ DX) :
  dt_variable s = true -> 0 < dt s -> 0 < dt_max s -> 0 < cfl_desired s -> increasing (st so) ts ->
  let h := history (sharp_evolve slope stages before) s so (map Some ts) in
  (st_numsteps (r_solver h) = st_numsteps s + Z.of_nat (length (accepted_solutions (r_trace h))))%Z /\
  increasing (st so) (map st (accepted_solutions (r_trace h))).
Proof.
  intros H1 H2 H3 H4 H5. cbv zeta. split.
  - apply (history_steps _ _ _ (sharp_frame slope stages)). intros s' Hs. apply accept_base. exact Hs.
  - apply (history_order _ _ _ (sharp_frame slope stages) (sharp_honours slope stages)); [|exact H5].
    split; [exact H1|]. split; [exact H2|]. split; [exact H3|exact H4].
Qed.

(** A problem with Courant number 10*dt, two gauges on a line. *)
Definition gdemo_hyper (d : Q) (so : sol (Z -> Q) unit) : (Z -> Q) * unit * Q := (fun i => Qred (sq so i + d), tt, 10 * d).
Definition gdemo_q (q : Z -> Q) (cell : list Z) : list Q := [q (nth 0 cell 0%Z)].
Definition gdemo_compute (v : list Q) (a : option (list Q)) : list Q := [nth 0 v 0].
Definition gdemo_before (so : sol (Z -> Q) unit) : (Z -> Q) * unit := (sq so, tt).
Definition gdemo_solver : solver unit := mkSolver (1 # 5) None (1 # 2) true (9 # 10) 1 (9 # 10) 100 None None None 0 true tt.
Definition gdemo_u : sol (Z -> Q) unit := mkSol (fun i => inject_Z i) tt 0.
Definition gdemo_g (cells : list (list Z)) (files : list handle) (data : list (list row)) (old : Z -> option (list row)) (dir : bool) : gauges :=
  mkGauges cells [7%Z; 8%Z] files true data old dir.
Definition gdemo_run (nd : Z) (overwrite : bool) (calls : list (option Q)) (s : solver unit) (u : sol (Z -> Q) unit) (g : gauges) : gresult (Z -> Q) unit unit :=
  grun nd gdemo_q (fun _ => None) gdemo_compute (classic_step None gdemo_hyper 1) accept_reject_step gdemo_before true overwrite calls s u g.
Example C48_case :
  fresh 1 (gdemo_g [[2%Z]; [4%Z]] [] [] (fun _ => None) false) /\
  gr_err (gdemo_run 1 true [Some (1 # 10); Some (1 # 5)] gdemo_solver gdemo_u (gdemo_g [[2%Z]; [4%Z]] [] [] (fun _ => None) false)) = None /\
  map (fun l => map fst l) (g_data (gr_gauges (gdemo_run 1 true [Some (1 # 10); Some (1 # 5)] gdemo_solver gdemo_u
    (gdemo_g [[2%Z]; [4%Z]] [] [] (fun _ => None) false)))) =
    [[0; 1 # 10; 19 # 100; 1 # 5]; [0; 1 # 10; 19 # 100; 1 # 5]] /\
  map ev_accepted (r_trace (history (classic_evolve None gdemo_hyper 1 gdemo_before) gdemo_solver gdemo_u [Some (1 # 10); Some (1 # 5)])) =
    [true; true; true].
Proof.
  split; [|split; [vm_compute; reflexivity|split; vm_compute; reflexivity]].
  split; [repeat constructor|]. split; [reflexivity|]. split; [|split; reflexivity].
  constructor; [intros [X|[]]; discriminate X|]. constructor; [intros []|constructor].
Qed.

(** *** C75: a second run records as well *)

(** The second run of the same controller fails: the new files are appended behind the closed ones of the
    first run. *)
Theorem C75_second_run_refuted :
  exists (g : gauges), fresh 1 g /\
    (let r1 := gdemo_run 1 true [Some (1 # 10)] gdemo_solver gdemo_u g in
     gr_err r1 = None /\
     gr_err (gdemo_run 1 true [Some (1 # 5)] (gr_solver r1) (gr_sol r1) (gr_gauges r1)) = Some (GaugeError ClosedFile)).
Proof.
  exists (gdemo_g [[2%Z]; [4%Z]] [] [] (fun _ => None) false). split; [apply C48_case|]. cbv zeta.
  split; vm_compute; reflexivity.
Qed.
(** In general: whenever a first run with gauges has ended normally, the next one fails before the first
    step. *)
Theorem C75_second_run_always_fails (DQ DX E : Type) (num_dim : Z) (qat : DQ -> list Z -> list Q) (auxat : DX -> option (list Z -> list Q))
    (compute : list Q -> option (list Q) -> list Q) (m : nat)
    (stepf : Q -> option Q -> solver E -> sol DQ DX -> solver E * sol DQ DX) acceptf before
    (output overwrite : bool) (calls1 calls2 : list (option Q)) (s : solver E) (so : sol DQ DX) (g : gauges) :
  (num_dim = 1 \/ num_dim = 2)%Z -> (forall v a, length (compute v a) = m) -> fresh num_dim g -> g_cells g <> [] ->
  (output = true -> overwrite = true) ->
  let r1 := grun num_dim qat auxat compute stepf acceptf before output overwrite calls1 s so g in
  let r2 := grun num_dim qat auxat compute stepf acceptf before output overwrite calls2 (gr_solver r1) (gr_sol r1) (gr_gauges r1) in
  gr_err r1 = None -> gr_err r2 = Some (GaugeError ClosedFile) /\ gr_sol r2 = gr_sol r1.
Proof.
  intros Hd Hm HF HN Ho r1 r2 He.
  destruct (C48_gauges DQ DX E num_dim qat auxat compute m stepf acceptf before output overwrite calls1 s so g Hd Hm HF Ho)
    as (_ & _ & C3 & (C4 & C5 & C6 & C7) & C8 & C9 & C10 & C11 & C13 & C12).
  fold r1 in C3, C4, C5, C6, C7, C8, C9, C10, C11, C12, C13.
  rewrite He in C3. destruct (r_err _) as [e|] eqn:Eh; [discriminate C3|]. specialize (C12 eq_refl). clear C3.
  destruct HF as (F1 & F2 & F3 & F4 & F5).
  destruct (g_cells g) as [|cell cells] eqn:Ec; [congruence|].
  destruct (g_names g) as [|name names] eqn:En; [discriminate F2|].
  destruct (C8 0%nat cell name eq_refl eq_refl) as [_ D2].
  destruct (g_files (gr_gauges r1)) as [|f fs] eqn:Ef; [discriminate C13|].
  apply Forall_cons_iff in C12. destruct C12 as [C12 _].
  unfold r2, grun. rewrite C4. cbn [length Nat.ltb Nat.leb].
  unfold write_gauge_values. cbn [g_cells setup_gauge_files]. rewrite C4. cbn [write_gauges].
  unfold write_gauge. apply Forall_cons_iff in F1. destruct F1 as [F1 _].
  rewrite (value_ok DQ DX num_dim qat auxat compute Hd) by exact F1.
  assert (W : forall r x, g_files x = g_files (setup_gauge_files (gr_gauges r1)) -> write_line 0 r x = (x, Some ClosedFile)).
  { intros r x Hx. unfold write_line. rewrite Hx. cbn [g_files setup_gauge_files]. rewrite Ef. cbn [app nth_error]. rewrite C12. reflexivity. }
  unfold record. change (g_keep (setup_gauge_files (gr_gauges r1))) with (g_keep (gr_gauges r1)). rewrite C6.
  destruct (g_keep g) eqn:Ek.
  - cbn [g_data g_cells setup_gauge_files]. specialize (C9 eq_refl). specialize (D2 eq_refl).
    rewrite C9, C4, Nat.eqb_refl.
    replace (forallb _ _) with true.
    + rewrite W by reflexivity. split; reflexivity.
    + symmetry. apply forallb_forall. intros x Hx. rewrite (nth_error_nth _ _ _ D2) in Hx.
      unfold gauge_rows in Hx. apply in_map_iff in Hx. destruct Hx as (y & <- & _). cbn [snd]. rewrite !Hm. apply Nat.eqb_refl.
  - rewrite W by reflexivity. split; reflexivity.
Qed.

(** *** C76: gauges work in three dimensions *)
Theorem C76_three_dimensions_refuted :
  exists (g : gauges), Forall (fun cell => length cell = 3%nat) (g_cells g) /\ fresh 3 g /\
    gr_err (gdemo_run 3 true [Some (1 # 10)] gdemo_solver gdemo_u g) = Some (GaugeError NoValue).
Proof.
  exists (gdemo_g [[2%Z; 0%Z; 0%Z]; [4%Z; 1%Z; 1%Z]] [] [] (fun _ => None) false). split; [repeat constructor|].
  split; [|vm_compute; reflexivity]. split; [repeat constructor|]. split; [reflexivity|]. split; [|split; reflexivity].
  constructor; [intros [X|[]]; discriminate X|]. constructor; [intros []|constructor].
Qed.

(** *** C77: overwrite=False *)

(** With gauges a run into a new directory is refused (setting up the gauge files has created the directory),
    and a run into an old directory destroys the old gauge files before it is refused. *)
Theorem C77_overwrite_refuted :
  (exists g, fresh 1 g /\ g_dir g = false /\
     gr_err (gdemo_run 1 false [Some (1 # 10)] gdemo_solver gdemo_u g) = Some Refuse) /\
  (exists g r, fresh 1 g /\ g_dir g = true /\ r = gdemo_run 1 false [Some (1 # 10)] gdemo_solver gdemo_u g /\
     gr_err r = Some Refuse /\ on_disk g 7 = Some [(9, [1])] /\ on_disk (gr_gauges r) 7 = Some [(0, [2])]).
Proof.
  split.
  - exists (gdemo_g [[2%Z]; [4%Z]] [] [] (fun _ => None) false). split; [apply C48_case|]. split; [reflexivity|]. vm_compute. reflexivity.
  - exists (gdemo_g [[2%Z]; [4%Z]] [] [] (fun _ => Some [(9, [1])]) true). eexists. split; [|split; [reflexivity|split; [reflexivity|]]].
    + split; [repeat constructor|]. split; [reflexivity|]. split; [|split; reflexivity].
      constructor; [intros [X|[]]; discriminate X|]. constructor; [intros []|constructor].
    + split; [vm_compute; reflexivity|]. split; [reflexivity|]. vm_compute. reflexivity.
Qed.
(** Without gauges: with output and overwrite=False a run is refused exactly when the directory exists, and
    then nothing is changed. *)
Theorem C77_overwrite_without_gauges_partial (DQ DX E : Type) (num_dim : Z) qat auxat compute
    (stepf : Q -> option Q -> solver E -> sol DQ DX -> solver E * sol DQ DX) acceptf before
    (calls : list (option Q)) (s : solver E) (so : sol DQ DX) (g : gauges) :
  g_cells g = [] ->
  let r := grun num_dim qat auxat compute stepf acceptf before true false calls s so g in
  (gr_err r = Some Refuse <-> g_dir g = true) /\
  (gr_err r = Some Refuse -> gr_solver r = s /\ gr_sol r = so /\ gr_gauges r = g).
Proof.
  intros Hc. cbv zeta. unfold grun, write_gauge_values. rewrite Hc. cbn [length Nat.ltb Nat.leb]. rewrite Hc. cbn [write_gauges].
  cbn [andb negb]. destruct (g_dir g); cbn [andb gr_err gr_solver gr_sol gr_gauges].
  - split; [split; reflexivity|]. intros _. split; [reflexivity|split; reflexivity].
  - assert (NR : forall calls s so g0, gr_err (gcalls num_dim qat auxat compute stepf acceptf before s so calls g0) <> Some Refuse).
    { clear. induction calls as [|c calls IH]; intros s so g0; cbn [gcalls]; [discriminate|].
      destruct (gr_err (gevolve_to_time num_dim qat auxat compute stepf acceptf before s so c g0)) as [e|] eqn:Ee; [|apply IH].
      rewrite Ee. intros [= ->]. revert Ee. unfold gevolve_to_time. destruct (evolve_setup _ _ _) as [s1 [e1|]]; [discriminate|].
      assert (NL : forall k n ts (te : option Q) s so num g0,
        snd (gevolve_loop num_dim qat auxat compute stepf acceptf before k n ts te s so num g0) <> Some Refuse).
      { clear. induction k as [|k IH]; intros n ts te s so num g0; cbn [gevolve_loop]; [discriminate|].
        destruct (attempt _ _ _ _ _ _ _ _) as [[[s1 so1] ev] e].
        destruct (if ev_accepted ev then _ else _) as [g1 [x|]]; [discriminate|]. destruct e; [discriminate|].
        destruct (finished te so1); [discriminate|]. apply IH. }
      specialize (NL (Z.to_nat (max_steps s1)) 0%Z (st so) c s1 so 0%Z g0).
      destruct (gevolve_loop _ _ _ _ _ _ _ _ _ _ _ _ _ _ _) as [[[[s2 so2] num] g2] [e2|]].
      - cbn [gr_err]. cbn [snd] in NL. congruence.
      - cbn [gr_err]. destruct c; [|discriminate]. destruct (_ && _)%bool; discriminate. }
    specialize (NR calls s so g). destruct (gr_err (gcalls _ _ _ _ _ _ _ _ _ _ _)) as [e|] eqn:Ee.
    + rewrite Ee. split; [split; [intros X; congruence|discriminate]|intros X; congruence].
    + cbn [gr_err]. split; [split; discriminate|discriminate].
Qed.
Example C77_case : g_cells (mkGauges [] [] [] false [] (fun _ => None) true) = [] /\
  gr_err (gdemo_run 1 false [] gdemo_solver gdemo_u (mkGauges [] [] [] false [] (fun _ => None) true)) = Some Refuse.
Proof. split; vm_compute; reflexivity. Qed.

Print Assumptions C48_gauges.
Print Assumptions C48_classic_rows.
Print Assumptions C48_sharpclaw_rows.
Print Assumptions C75_second_run_refuted.
Print Assumptions C75_second_run_always_fails.
Print Assumptions C76_three_dimensions_refuted.
Print Assumptions C77_overwrite_refuted.
Print Assumptions C77_overwrite_without_gauges_partial.
