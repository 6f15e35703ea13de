(** C143, C144: continuing from a frame on disk. *)
From Coq Require Import Ascii String.
From Verif Require Import Base TimeModel TimeSpec TimeProofs TimeProofs2 FormatModel HdfModel HdfSpec HdfProofs HdfProps.
From Verif Require Import ControllerModel ControllerSpec ControllerProofs ControllerProps RestartModel RestartSpec RestartProofs RestartProofs2 RestartProofs3.

Lemma derived_app {DQ DX P F} (a b : list (output DQ DX P F)) : derived_written (a ++ b) = derived_written a ++ derived_written b.
Proof. induction a as [|[n u p|n x u|n t v] a IH]; cbn [app derived_written]; rewrite ?IH; reflexivity. Qed.
Lemma derived_run {DQ DX P F} (c : controller DQ DX P F) f : c_output c = true -> c_p c = Some f -> forall us n u0,
  map snd (derived_written (run_files c n u0 us)) = map f (u0 :: us) /\
  map fst (derived_written (run_files c n u0 us)) = map (fun i => (n + Z.of_nat i)%Z) (seq 0 (length (u0 :: us))).
Proof.
  intros HO HP us n u0. unfold run_files, frame_files. rewrite HO, HP, derived_app.
  assert (K : forall us n, map snd (derived_written (later_files c n us)) = map f us /\
                map fst (derived_written (later_files c n us)) = map (fun i => (n + Z.of_nat i)%Z) (seq 0 (length us))).
  { clear us n. induction us as [|v us IH]; intros n; [split; reflexivity|]. cbn [later_files]. unfold frame_files. rewrite HO, HP, derived_app.
    destruct (IH (n + 1)%Z) as (K1 & K2). rewrite !map_app, K1, K2. cbn [length seq map]. rewrite <- seq_shift, map_map, Z.add_0_r.
    destruct (c_F c); (split; [reflexivity|]); cbn [app derived_written map fst]; f_equal; apply map_ext; intros i; lia. }
  destruct (K us (n + 1)%Z) as (K1 & K2). rewrite !map_app, K1, K2. cbn [length seq map]. rewrite <- seq_shift, map_map, Z.add_0_r.
  destruct (c_F c); (split; [reflexivity|]); cbn [app derived_written map fst]; f_equal; apply map_ext; intros i; lia.
Qed.
Lemma derived_none {DQ DX P F} (c : controller DQ DX P F) : c_output c = false \/ c_p c = None -> forall us n u0,
  derived_written (run_files c n u0 us) = [].
Proof.
  intros H us n u0. assert (K : forall n first u, derived_written (frame_files c n first u) = []).
  { intros. unfold frame_files. destruct H as [->|H]; [destruct (c_F c); reflexivity|]. rewrite H. destruct (c_output c), (c_F c); reflexivity. }
  unfold run_files. rewrite derived_app, K. cbn [app]. generalize (n + 1)%Z. clear n. induction us as [|v us IH]; intros n; [reflexivity|].
  cbn [later_files]. rewrite derived_app, K. apply IH.
Qed.
Lemma functionals_run {DQ DX P F} (c : controller DQ DX P F) f : c_F c = Some f -> forall us n u0 lines,
  F_lines lines (run_files c n u0 us) = map (fun u => (st u, f u)) (u0 :: us).
Proof.
  intros HF us n u0 lines.
  assert (A : forall (a b : list (output DQ DX P F)) l, F_lines l (a ++ b) = F_lines (F_lines l a) b).
  { induction a as [|[m u p|m x u|m t v] a IH]; intros b l; cbn [app F_lines]; try apply IH. reflexivity. }
  assert (K : forall m first u l, F_lines l (frame_files c m first u) = (if first then [] else l) ++ [(st u, f u)]).
  { intros. unfold frame_files. rewrite HF. destruct (c_output c), (c_p c); reflexivity. }
  unfold run_files. rewrite A, K. cbn [app map].
  assert (G : forall us m l, F_lines l (later_files c m us) = l ++ map (fun u => (st u, f u)) us).
  { clear us n. induction us as [|v us IH]; intros m l; cbn [later_files map]; [rewrite app_nil_r; reflexivity|].
    rewrite A, K, IH, <- app_assoc. reflexivity. }
  rewrite G. reflexivity.
Qed.
Lemma skip_head {A} (l : list A) : forall j x u, nth_error (x :: l) j = Some u -> skipn j (x :: l) = u :: skipn j l.
Proof.
  induction l as [|y l IH]; intros [|j] x u H; cbn in H; try (injection H as ->; reflexivity); [destruct j; discriminate|].
  cbn [skipn]. apply IH. exact H.
Qed.
Lemma skipn_map' {A B} (f : A -> B) : forall n l, skipn n (map f l) = map f (skipn n l).
Proof. induction n as [|n IH]; intros [|x l]; cbn [skipn map]; try reflexivity. apply IH. Qed.
Lemma pairs_eq {A B} : forall (a b : list (A * B)), map fst a = map fst b -> map snd a = map snd b -> a = b.
Proof. induction a as [|[x y] a IH]; intros [|[x' y'] b] H1 H2; try discriminate; [reflexivity|]. cbn in *. injection H1 as -> H1. injection H2 as -> H2. f_equal. apply IH; assumption. Qed.
Lemma skipn_seq' : forall j n a, skipn j (seq a n) = seq (a + j) (n - j).
Proof. induction j as [|j IH]; intros [|n] a; cbn [skipn seq Nat.sub]; try reflexivity; [rewrite Nat.add_0_r; reflexivity|]. rewrite IH. f_equal. lia. Qed.

Section Completes.
Context {E P F : Type} (c c2 : controller array (option array) P F).
Lemma completes_of path prefix pa j fs fs' fs1 fs2 n u0 u us : rest_of j c c2 -> nth_error (u0 :: us) j = Some u ->
  save path prefix pa (run_files c n u0 us) fs = Ok fs1 ->
  save path prefix pa (run_files c2 (n + Z.of_nat j) u (skipn j us)) fs' = Ok fs2 -> (forall name, fs2 name = fs1 name) ->
  completes path prefix pa j c fs fs' (run_files c n u0 us) (run_files c2 (n + Z.of_nat j) u (skipn j us)).
Proof.
  intros [R1 R2 R3 R4 R5 _] Hj S1 S2 S3. split.
  - exists fs1, fs2. split; [exact S1|]. split; [exact S2|exact S3].
  - destruct (c_output c) eqn:HO; [|rewrite !derived_none by (left; congruence); destruct j; reflexivity].
    destruct (c_p c) as [f|] eqn:HP; [|rewrite !derived_none by (right; congruence); destruct j; reflexivity].
    assert (HO2 : c_output c2 = true) by congruence. assert (HP2 : c_p c2 = Some f) by congruence.
    destruct (derived_run c f HO HP us n u0) as (A1 & A2). destruct (derived_run c2 f HO2 HP2 (skipn j us) (n + Z.of_nat j)%Z u) as (B1 & B2).
    rewrite <- (skip_head us j u0 u Hj) in B1, B2. apply pairs_eq.
    + rewrite <- skipn_map', A2, B2, skipn_map', skipn_seq', skipn_length, Nat.add_0_l.
      generalize (length (u0 :: us) - j)%nat. intros m. clear.
      assert (G : forall m a, map (fun i => (n + Z.of_nat j + Z.of_nat i)%Z) (seq a m) = map (fun i => (n + Z.of_nat i)%Z) (seq (j + a) m)).
      { induction m0 as [|m0 IH]; intros a; cbn [seq map]; [reflexivity|]. f_equal; [lia|]. rewrite IH. do 2 f_equal. lia. }
      rewrite G, Nat.add_0_r. reflexivity.
    + rewrite <- skipn_map', A1, B1, skipn_map'. reflexivity.
  - intros HF lines lines2. destruct (c_F c) as [f|] eqn:EF; [|contradiction]. 
    rewrite (functionals_run c f EF), (functionals_run c2 f) by congruence. rewrite skipn_map', (skip_head us j u0 u Hj). reflexivity.
Qed.
Lemma state_of_inj pa (u v : sol array (option array)) : state_of pa u = state_of pa v -> u = v.
Proof. destruct u, v. unfold state_of. cbn. intros H. injection H as -> -> ->. reflexivity. Qed.
End Completes.

Section Any.
Context {E P F : Type}.
Notation DQ := array. Notation DX := (option array).
Variable stepf : Q -> option Q -> solver E -> sol DQ DX -> solver E * sol DQ DX.
Variable bef : sol DQ DX -> DQ * DX.
Variable need : bool.
Hypothesis frame : step_frame stepf.
Hypothesis Hstep : forall ts te te2 s s2 so, agree need s s2 -> same_time te te2 ->
  snd (stepf ts te s so) = snd (stepf ts te2 s2 so) /\ dt (fst (stepf ts te s so)) = dt (fst (stepf ts te2 s2 so)) /\
  cfl (fst (stepf ts te s so)) = cfl (fst (stepf ts te2 s2 so)).
Hypothesis Hdt : forall ts te s so, dt_variable s = false -> ready need s ->
  dt (fst (stepf ts te s so)) = dt (get_dt_clip (st so) ts te s).
Notation evolve := (evolve_to_time stepf accept_reject_step bef).
Lemma any_restart setup valid path prefix pa (c c2 : controller DQ DX P F) (w w' w2 : world DQ DX E P F) outs j u later fs fs' :
  acceptable c w -> valid (first_solver setup w) (w_sol w) = true ->
  run evolve setup valid c w = (w', None) -> w_out w' = w_out w ++ outs -> kept_whole pa c outs ->
  crashed_after path prefix pa outs fs fs' (w_start w + Z.of_nat j) u ->
  In later (map fst (frames_written outs)) -> (w_start w + Z.of_nat j < later)%Z ->
  agree need (first_solver setup w) (first_solver setup w2) -> fits c (dt (first_solver setup w)) (st (w_sol w)) -> rest_of j c c2 ->
  solution_read fs' path (Prefix prefix) (w_start w + Z.of_nat j) true = Ok [state_of pa u] /\
  (resumes path prefix pa j fs' c c2 (w_start w) w2 -> valid (first_solver setup w2) (w_sol w2) = true ->
   exists w2' outs2, run evolve setup valid c2 w2 = (w2', None) /\ w_out w2' = w_out w2 ++ outs2 /\ w_sol w2' = w_sol w' /\
     completes path prefix pa j c fs fs' outs outs2).
Proof.
  intros HA HV HRun HOut HK HC HL1 HL2 AG HF HR.
  destruct (restart_all stepf bef need frame Hstep Hdt setup valid path prefix pa c c2 w w' w2 outs j u later fs fs'
              HA HV HRun HOut HK HC HL1 HL2 AG HF HR) as (R1 & R2).
  split; [exact R1|]. intros [E1 E2 _ E4] HV2. rewrite R1 in E1.
  assert (U : w_sol w2 = u) by (apply (state_of_inj pa); congruence).
  destruct (R2 U E2 HV2 E4) as (w2' & outs2 & fs1 & fs2 & K1 & K2 & K3 & K4 & K5 & K6 & us & K7 & K8 & K9).
  exists w2', outs2. split; [exact K1|]. split; [exact K2|]. split; [exact K3|].
  rewrite E2 in K8. cbn [start_frame] in K8. subst outs outs2. apply (completes_of c c2 path prefix pa j fs fs' fs1 fs2); assumption.
Qed.
End Any.

(** C143, classic solvers: if a program with fixed steps is killed while it writes its output, the last complete frames can
    be read back; a second program that starts from one of them (Solution(k, count_from_zero=False)) with the same step and
    asks for the frames that are left ends without an exception in the same final solution, and every file of the directory
    is then what it would have been without the interruption. *)
Theorem C143_classic {E P F} src hyp sp bef setup valid path prefix pa (c c2 : controller array (option array) P F)
    (w w' w2 : world array (option array) E P F) outs j u later fs fs' :
  let evolve := classic_evolve src hyp sp bef in
  acceptable c w -> valid (first_solver setup w) (w_sol w) = true ->
  run evolve setup valid c w = (w', None) -> w_out w' = w_out w ++ outs -> kept_whole pa c outs ->
  crashed_after path prefix pa outs fs fs' (w_start w + Z.of_nat j) u ->
  In later (map fst (frames_written outs)) -> (w_start w + Z.of_nat j < later)%Z ->
  fits c (dt (first_solver setup w)) (st (w_sol w)) ->
  same_steps (first_solver setup w) (first_solver setup w2) -> rest_of j c c2 ->
  solution_read fs' path (Prefix prefix) (w_start w + Z.of_nat j) true = Ok [state_of pa u] /\
  (resumes path prefix pa j fs' c c2 (w_start w) w2 -> valid (first_solver setup w2) (w_sol w2) = true ->
   exists w2' outs2, run evolve setup valid c2 w2 = (w2', None) /\ w_out w2' = w_out w2 ++ outs2 /\ w_sol w2' = w_sol w' /\
     completes path prefix pa j c fs fs' outs outs2).
Proof.
  intros evolve HA HV HRun HOut HK HC HL1 HL2 HF HS HR.
  apply (any_restart (classic_step src hyp sp) bef false (classic_frame src hyp sp) (classic_agree src hyp sp) (classic_fixed_dt src hyp sp)
           setup valid path prefix pa c c2 w w' w2 outs j u later fs fs'); try assumption.
  split; [exact HS|]. split; discriminate.
Qed.

(** C143, SharpClaw with a Runge-Kutta method; at the start of both programs no step has been rejected. *)
Theorem C143_sharpclaw {P F} slope stages bef setup valid path prefix pa (c c2 : controller array (option array) P F)
    (w w' w2 : world array (option array) array P F) outs j u later fs fs' :
  let evolve := sharp_evolve slope stages bef in
  acceptable c w -> valid (first_solver setup w) (w_sol w) = true ->
  run evolve setup valid c w = (w', None) -> w_out w' = w_out w ++ outs -> kept_whole pa c outs ->
  crashed_after path prefix pa outs fs fs' (w_start w + Z.of_nat j) u ->
  In later (map fst (frames_written outs)) -> (w_start w + Z.of_nat j < later)%Z ->
  fits c (dt (first_solver setup w)) (st (w_sol w)) ->
  same_steps (first_solver setup w) (first_solver setup w2) ->
  accept_step (first_solver setup w) = true -> accept_step (first_solver setup w2) = true -> rest_of j c c2 ->
  solution_read fs' path (Prefix prefix) (w_start w + Z.of_nat j) true = Ok [state_of pa u] /\
  (resumes path prefix pa j fs' c c2 (w_start w) w2 -> valid (first_solver setup w2) (w_sol w2) = true ->
   exists w2' outs2, run evolve setup valid c2 w2 = (w2', None) /\ w_out w2' = w_out w2 ++ outs2 /\ w_sol w2' = w_sol w' /\
     completes path prefix pa j c fs fs' outs outs2).
Proof.
  intros evolve HA HV HRun HOut HK HC HL1 HL2 HF HS Ha1 Ha2 HR.
  apply (any_restart (sharp_step slope stages) bef true (sharp_frame slope stages) (sharp_agree slope stages) (sharp_fixed_dt slope stages)
           setup valid path prefix pa c c2 w w' w2 outs j u later fs fs'); try assumption.
  split; [exact HS|]. split; intros _; assumption.
Qed.

(** ** A program that is killed: three frames, the third file is damaged *)
Definition ex_pa : patch := mkPatch (Some 1%Z) (Some 1%Z) [mkDim 0 1 2 (lit "x") None].
Definition ex_array (a b : Q) : array := mkArray [1%Z; 2%Z] (Some [a; b]).
Definition ex_u0 : sol array (option array) := mkSol (ex_array 1 2) None 0.
(** Growth by the factor 1 + dt in each step *)
Definition ex_hyp (d : Q) (u : sol array (option array)) : array * option array * Q :=
  (mkArray (a_shape (sq u)) (option_map (map (fun x => Qred (x * (1 + d)))) (a_data (sq u))), sx u, 2 * d).
Definition ex_c (num : Z) : controller array (option array) Q Q :=
  mkController 1 1 num [] 1 false true false true true None (Some (fun u => match a_data (sq u) with Some (x :: _) => x | _ => 0 end)).
Definition ex_solver (d : Q) (var : bool) : solver unit := mkSolver d None 100 var (9 # 10) 1 (9 # 10) 1000 None None None 0 true tt.
Definition ex_w (d : Q) (var : bool) (start : Z) (u : sol array (option array)) (dir : bool) : world array (option array) unit Q Q :=
  mkWorld (ex_solver d var) true u start [] dir [].
Definition ex_run := run (E := unit) (P := Q) (F := Q) (classic_evolve None ex_hyp 1 (fun u => (sq u, sx u))) (fun s => s) (fun _ _ => true).
Definition ex_outs := w_out (fst (ex_run (ex_c 2) (ex_w (1 # 4) false 0 ex_u0 false))).
Definition ex_u1 : sol array (option array) := mkSol (ex_array (25 # 16) (25 # 8)) None (1 # 2).
Definition ex_empty : files := fun _ => None.
Definition ex_damaged : files := fun name =>
  if text_eqb name (file_name (lit "out") (lit "claw") 2) then Some []
  else match save (lit "out") (lit "claw") ex_pa (firstn 4 ex_outs) ex_empty with Ok fs => fs name | Err _ => None end.
Lemma ex_storable_any u : a_shape (sq u) = [1%Z; 2%Z] -> sx u = None -> storable (state_of ex_pa u).
Proof.
  intros H1 H2. split; cbn [state_of s_patch ex_pa p_dims p_index p_level map d_name s_q s_aux]; try discriminate.
  - constructor; [|constructor]. cbn. repeat split; try lia; try discriminate; reflexivity.
  - constructor; [intros []|constructor].
  - exists 1%Z. split; [discriminate|exact H1].
  - rewrite H2. exact I.
Qed.
Example C143_case :
  let w := ex_w (1 # 4) false 0 ex_u0 false in let w2 := ex_w (1 # 4) false 1 ex_u1 true in
  acceptable (ex_c 2) w /\ ex_run (ex_c 2) w = (fst (ex_run (ex_c 2) w), None) /\ kept_whole ex_pa (ex_c 2) ex_outs /\
  crashed_after (lit "out") (lit "claw") ex_pa ex_outs ex_empty ex_damaged 1 ex_u1 /\
  In 2%Z (map fst (frames_written ex_outs)) /\ fits (ex_c 2) (1 # 4) 0 /\ same_steps (w_solver w) (w_solver w2) /\
  rest_of 1 (ex_c 2) (ex_c 1) /\ resumes (lit "out") (lit "claw") ex_pa 1 ex_damaged (ex_c 2) (ex_c 1) 0 w2 /\
  a_data (sq (w_sol (fst (ex_run (ex_c 2) w)))) = Some [625 # 256; 625 # 128].
Proof.
  cbv zeta. split; [split; [left; split; [reflexivity|cbn; lia]|reflexivity]|].
  split; [vm_compute; reflexivity|]. split.
  { intros n u H. assert (W : exists l, frames_written ex_outs = l /\ In (n, u) l) by (eexists; split; [reflexivity|exact H]).
    destruct W as (l & W & H'). vm_compute in W. subst l.
    destruct H' as [H'|[H'|[H'|[]]]]; pose proof (f_equal fst H') as Hn; pose proof (f_equal snd H') as Hu; cbn [fst snd] in Hn, Hu; subst n u;
      (split; [discriminate|]); (split; [apply ex_storable_any; reflexivity|right; reflexivity]). }
  split.
  { exists (firstn 4 ex_outs), (skipn 4 ex_outs).
    exists (match save (lit "out") (lit "claw") ex_pa (firstn 4 ex_outs) ex_empty with Ok fs => fs | Err _ => ex_empty end), false.
    split; [symmetry; apply firstn_skipn|]. split; [rewrite save_puts; reflexivity|]. split.
    - assert (W : exists l, firstn 4 ex_outs = l) by (eexists; reflexivity). destruct W as (l & W). rewrite W. vm_compute in W. subst l.
      right. right. left. reflexivity.
    - assert (W : exists a r, skipn 4 ex_outs = WriteQ 2 a r :: tl (skipn 4 ex_outs)) by (do 2 eexists; vm_compute; reflexivity).
      destruct W as (a & r & W). rewrite W. intros name Hn. unfold ex_damaged.
      destruct (text_eqb name (file_name (lit "out") (lit "claw") 2)) eqn:K; [apply text_eqb_true in K; contradiction|].
      rewrite save_puts. reflexivity. }
  split; [vm_compute; tauto|]. split.
  { split; [reflexivity|]. split; [reflexivity|]. split; [|vm_compute; discriminate]. exists 2%Z. split; [lia|reflexivity]. }
  split; [repeat split|]. split; [split; try reflexivity; split; reflexivity|]. split.
  { split; [vm_compute; reflexivity|reflexivity|split; try reflexivity; split; reflexivity|reflexivity]. }
  vm_compute. reflexivity.
Qed.
Example C143_case_read : solution_read ex_damaged (lit "out") (Prefix (lit "claw")) 1 true = Ok [state_of ex_pa ex_u1] /\
  solution_read ex_damaged (lit "out") (Prefix (lit "claw")) 2 true = Ok [].
Proof. split; vm_compute; reflexivity. Qed.
(** SharpClaw: forward Euler for q' = q *)
Definition ex_slope (d : Q) (u : sol array (option array)) : array * option array * Q := (sq u, sx u, 2 * d).
Definition ex_stages (d : Q) (k : array) (u : sol array (option array)) : array * option array * Q := ex_hyp d u.
Definition ex_sharp_w (start : Z) (u : sol array (option array)) : world array (option array) array Q Q :=
  mkWorld (mkSolver (1 # 4) None 100 false (9 # 10) 1 (9 # 10) 1000 None None None 0 true (sq u)) true u start [] false [].
Definition ex_sharp_run := run (P := Q) (F := Q) (sharp_evolve ex_slope ex_stages (fun u => (sq u, sx u))) (fun s => s) (fun _ _ => true).
Example C143_sharp_case :
  snd (ex_sharp_run (ex_c 2) (ex_sharp_w 0 ex_u0)) = None /\ w_out (fst (ex_sharp_run (ex_c 2) (ex_sharp_w 0 ex_u0))) = ex_outs /\
  same_steps (w_solver (ex_sharp_w 0 ex_u0)) (w_solver (ex_sharp_w 1 ex_u1)) /\
  accept_step (w_solver (ex_sharp_w 0 ex_u0)) = true /\ accept_step (w_solver (ex_sharp_w 1 ex_u1)) = true.
Proof. split; [vm_compute; reflexivity|]. split; [vm_compute; reflexivity|]. repeat split. Qed.

(** ** C144: what a program that goes on from a frame has to set itself *)
(** Only a positional frame with count_from_zero=False keeps its number. *)
Theorem C144_numbering_partial h frame : start_frame h frame = frame <-> h = Positional (Some false) \/ frame = 0%Z.
Proof.
  destruct h as [[[|]|]|]; cbn [start_frame]; split; intros H; try (right; congruence); try (left; reflexivity); try reflexivity;
    destruct H as [H|H]; congruence.
Qed.
(** Otherwise the frames are numbered from 0 and replace those of the first program. *)
Theorem C144_numbering_refuted : exists w2 w2' fs1 fs2,
  solution_read fs1 (lit "out") (Prefix (lit "claw")) 1 true = Ok [state_of ex_pa (w_sol w2)] /\
  save (lit "out") (lit "claw") ex_pa ex_outs ex_empty = Ok fs1 /\
  w_start w2 = start_frame (Positional None) 1 /\ ex_run (ex_c 1) w2 = (w2', None) /\
  save (lit "out") (lit "claw") ex_pa (w_out w2') fs1 = Ok fs2 /\
  solution_read fs1 (lit "out") (Prefix (lit "claw")) 0 true = Ok [state_of ex_pa ex_u0] /\
  solution_read fs2 (lit "out") (Prefix (lit "claw")) 0 true = Ok [state_of ex_pa ex_u1].
Proof.
  exists (ex_w (1 # 4) false 0 ex_u1 true), (fst (ex_run (ex_c 1) (ex_w (1 # 4) false 0 ex_u1 true))).
  exists (match save (lit "out") (lit "claw") ex_pa ex_outs ex_empty with Ok fs => fs | Err _ => ex_empty end).
  eexists. split; [vm_compute; reflexivity|]. split; [rewrite save_puts; reflexivity|]. split; [reflexivity|]. split; [vm_compute; reflexivity|].
  split; [rewrite save_puts; reflexivity|]. split; vm_compute; reflexivity.
Qed.
(** With variable steps the second program starts with the first step of the first program, not with the step that was
    reached: it ends elsewhere. *)
Definition ex_var (num : Z) (w : world array (option array) unit Q Q) := fst (ex_run (ex_c num) w).
Theorem C144_variable_refuted : exists w w2,
  w_solver w2 = w_solver w /\ dt_variable (w_solver w) = true /\ rest_of 1 (ex_c 2) (ex_c 1) /\
  snd (ex_run (ex_c 2) w) = None /\ In (1%Z, w_sol w2) (frames_written (w_out (ex_var 2 w))) /\ w_start w2 = 1%Z /\
  snd (ex_run (ex_c 1) w2) = None /\ sq (w_sol (ex_var 1 w2)) <> sq (w_sol (ex_var 2 w)).
Proof.
  pose (w := ex_w (1 # 8) true 0 ex_u0 false). 
  pose (u := match frames_written (w_out (ex_var 2 w)) with _ :: (_, u) :: _ => u | _ => ex_u0 end).
  exists w, (ex_w (1 # 8) true 1 u true). split; [reflexivity|]. split; [reflexivity|]. split; [split; try reflexivity; split; reflexivity|].
  split; [vm_compute; reflexivity|]. split; [vm_compute; tauto|]. split; [reflexivity|]. split; [vm_compute; reflexivity|].
  vm_compute. discriminate.
Qed.
(** The file of functionals is begun again: the lines before the frame are lost. *)
Theorem C144_functionals_refuted : exists w2 lines,
  w_sol w2 = ex_u1 /\ w_start w2 = start_frame (Positional (Some false)) 1 /\ rest_of 1 (ex_c 2) (ex_c 1) /\ snd (ex_run (ex_c 1) w2) = None /\
  F_lines [] ex_outs = lines /\ length lines = 3%nat /\ length (F_lines lines (w_out (fst (ex_run (ex_c 1) w2)))) = 2%nat.
Proof.
  exists (ex_w (1 # 4) false 1 ex_u1 true). eexists. split; [reflexivity|]. split; [reflexivity|]. split; [split; try reflexivity; split; reflexivity|].
  split; [vm_compute; reflexivity|]. split; [reflexivity|]. split; vm_compute; reflexivity.
Qed.

Print Assumptions C143_classic.
Print Assumptions C143_sharpclaw.
Print Assumptions C144_numbering_partial.
Print Assumptions C144_numbering_refuted.
Print Assumptions C144_variable_refuted.
Print Assumptions C144_functionals_refuted.
