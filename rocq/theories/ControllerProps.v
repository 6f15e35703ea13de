(** Properties of the run method of the controller. *)
From Verif Require Import Base TimeModel TimeSpec TimeProofs TimeProofs2 TimeProofs4 ControllerModel ControllerSpec ControllerProofs ControllerProofs2.

(** *** C44: the frames the user asked for *)

(** For the three output styles and any solver: run() writes the initial solution as frame [start] and after
    each completed block of calls the next frame, in order and numbered consecutively, and keeps a copy of
    each frame if asked to.  It stops at the first exception of the solver, having written exactly the
    frames before it; otherwise all frames are there.  Nothing else is written, and files written earlier
    are not touched. *)
Theorem C44_frames (DQ DX E P F : Type) (evolve : solver E -> sol DQ DX -> option Q -> result DQ DX E)
    (setup : solver E -> solver E) (valid : solver E -> sol DQ DX -> bool) (c : controller DQ DX P F)
    (w w' : world DQ DX E P F) (o : option run_error) :
  let s0 := if w_set_up w then w_solver w else setup (w_solver w) in
  acceptable c w -> valid s0 (w_sol w) = true ->
  run evolve setup valid c w = (w', o) ->
  exists blocks k,
    let go := reached evolve s0 (w_sol w) blocks in
    let frames := map (fun j => many_sol (go j)) (seq 1 k) in
    requested c (w_start w) (st (w_sol w)) blocks /\ (k <= length blocks)%nat /\
    (forall j, (j <= k)%nat -> many_err (go j) = None) /\
    w_out w' = w_out w ++ run_files c (w_start w) (w_sol w) frames /\
    w_frames w' = w_frames w ++ (if c_keep c then w_sol w :: frames else []) /\
    w_solver w' = fst (fst (go (S k))) /\ w_sol w' = many_sol (go (S k)) /\ w_set_up w' = true /\
    match o with
    | None => k = length blocks /\ concat blocks <> [] /\ w_start w' = Z.of_nat (length (w_frames w'))
    | Some StatusUnbound => k = length blocks /\ concat blocks = [] /\ w_start w' = Z.of_nat (length (w_frames w'))
    | Some (EvolveError e) => (k < length blocks)%nat /\ many_err (go (S k)) = Some e /\ w_start w' = w_start w
    | _ => False
    end.
Proof. cbv zeta. intros HA HV HR. exact (run_spec evolve setup valid c w w' o HA HV HR). Qed.

(** Variable steps with the classic or the SharpClaw solver: if the output times increase, every frame is at
    its output time, except that a call that runs out of attempts after a rejection returns early (C02);
    no frame is ever past its time. *)
Section Times.
Context {DQ DX E P F : Type}.
Variable stepf : Q -> option Q -> solver E -> sol DQ DX -> solver E * sol DQ DX.
Variable acceptf : solver E -> bool.
Variable before : sol DQ DX -> DQ * DX.
Hypothesis Hfr : step_frame stepf.
Hypothesis Hh : honours stepf.
Notation evolve := (evolve_to_time stepf acceptf before).

Lemma frames_on_time (setup : solver E -> solver E) valid (c : controller DQ DX P F) (w w' : world DQ DX E P F) ts :
  let s0 := if w_set_up w then w_solver w else setup (w_solver w) in
  c_style c = 2%Z -> c_times c <> [] -> tl (c_times c) = ts ->
  (c_output c = true -> w_dir w = true -> c_overwrite c = true) -> valid s0 (w_sol w) = true ->
  Good s0 -> (0 <= max_steps s0)%Z -> increasing (st (w_sol w)) ts ->
  run evolve setup valid c w = (w', None) ->
  exists us, w_out w' = w_out w ++ run_files c (w_start w) (w_sol w) us /\
    Forall2 (on_time stepf acceptf before (max_steps s0)) ts us.
Proof.
  cbv zeta. intros Hst Hne <- Hov HV HG Hm Hi HR.
  destruct (run_spec evolve setup valid c w w' None (conj (or_intror (or_introl (conj Hst Hne))) Hov) HV HR)
    as (blocks & k & Q1 & _ & Q3 & Q4 & _ & _ & _ & _ & Q5 & _ & _).
  unfold requested in Q1. rewrite Hst in Q1. subst blocks k. rewrite map_length in *.
  eexists. split; [exact Q4|]. unfold reached in *. unfold first_solver in *.
  pose proof (Q3 (length (tl (c_times c))) (le_n _)) as HE. rewrite concat_singletons, firstn_all in HE.
  pose proof (times_variable stepf acceptf before Hfr Hh _ (st (w_sol w)) _ (w_sol w) HG Hm (Qle_refl _) Hi HE) as K.
  match goal with |- Forall2 _ _ ?l => match type of K with Forall2 _ _ ?l' => replace l with l' end end; [exact K|].
  apply map_ext. intros j. rewrite concat_singletons. reflexivity.
Qed.

Lemma frames_on_time_1 (setup : solver E -> solver E) valid (c : controller DQ DX P F) (w w' : world DQ DX E P F) :
  let s0 := if w_set_up w then w_solver w else setup (w_solver w) in
  c_style c = 1%Z -> (0 <= c_num c)%Z ->
  (c_output c = true -> w_dir w = true -> c_overwrite c = true) -> valid s0 (w_sol w) = true ->
  Good s0 -> (0 <= max_steps s0)%Z -> st (w_sol w) < c_tfinal c ->
  run evolve setup valid c w = (w', None) ->
  exists ts us, w_out w' = w_out w ++ run_files c (w_start w) (w_sol w) us /\
    Z.of_nat (length ts) = c_num c /\
    (forall i x, nth_error ts i = Some x ->
       x == st (w_sol w) + (c_tfinal c - st (w_sol w)) * inject_Z (Z.of_nat i + 1) / inject_Z (c_num c)) /\
    Forall2 (on_time stepf acceptf before (max_steps s0)) ts us.
Proof.
  cbv zeta. intros Hst Hn Hov HV HG Hm Hlt HR.
  destruct (run_spec evolve setup valid c w w' None (conj (or_introl (conj Hst Hn)) Hov) HV HR)
    as (blocks & k & Q1 & _ & Q3 & Q4 & _ & _ & _ & _ & Q5 & _ & _).
  unfold requested in Q1. rewrite Hst in Q1. destruct Q1 as (ts & -> & Q1 & Q2). subst k. rewrite map_length in *.
  exists ts. eexists. split; [exact Q4|]. split; [exact Q1|]. split; [exact Q2|]. unfold reached in *. unfold first_solver in *.
  pose proof (Q3 (length ts) (le_n _)) as HE. rewrite concat_singletons, firstn_all in HE.
  pose proof (intervals_increasing _ _ _ _ Hlt Q1 Q2) as Hi.
  pose proof (times_variable stepf acceptf before Hfr Hh _ (st (w_sol w)) _ (w_sol w) HG Hm (Qle_refl _) Hi HE) as K.
  match goal with |- Forall2 _ _ ?l => match type of K with Forall2 _ _ ?l' => replace l with l' end end; [exact K|].
  apply map_ext. intros j. rewrite concat_singletons. reflexivity.
Qed.
End Times.

(** the frame [u] is at time [t], or the solver ran out of attempts on the way *)
Definition at_time {DQ DX E} (evolve : solver E -> sol DQ DX -> option Q -> result DQ DX E) (n : Z) (t : Q) (u : sol DQ DX) : Prop :=
  st u <= t /\
  (st u == t \/ exists s v, r_sol (evolve s v (Some t)) = u /\ r_err (evolve s v (Some t)) = None /\
                 out_of_attempts n (evolve s v (Some t))).

Theorem C44_output_style_1 (DQ DX E P F : Type) source hyper sp before (setup : solver E -> solver E) valid
    (c : controller DQ DX P F) (w w' : world DQ DX E P F) :
  let s0 := if w_set_up w then w_solver w else setup (w_solver w) in
  c_style c = 1%Z -> (0 <= c_num c)%Z ->
  (c_output c = true -> w_dir w = true -> c_overwrite c = true) -> valid s0 (w_sol w) = true ->
  dt_variable s0 = true -> 0 < dt s0 -> 0 < dt_max s0 -> 0 < cfl_desired s0 -> (0 <= max_steps s0)%Z ->
  st (w_sol w) < c_tfinal c ->
  run (classic_evolve source hyper sp before) setup valid c w = (w', None) ->
  exists ts us, w_out w' = w_out w ++ run_files c (w_start w) (w_sol w) us /\
    Z.of_nat (length ts) = c_num c /\
    (forall i x, nth_error ts i = Some x ->
       x == st (w_sol w) + (c_tfinal c - st (w_sol w)) * inject_Z (Z.of_nat i + 1) / inject_Z (c_num c)) /\
    Forall2 (at_time (E:=E) (classic_evolve source hyper sp before) (max_steps s0)) ts us.
Proof.
  cbv zeta. intros H1 H2 H3 H4 H5 H6 H7 H8 H9 H10 H11.
  exact (frames_on_time_1 _ _ _ (classic_frame source hyper sp) (classic_honours source hyper sp) setup valid c w w'
           H1 H2 H3 H4 (conj H5 (conj H6 (conj H7 H8))) H9 H10 H11).
Qed.
Theorem C44_output_style_2 (DQ DX E P F : Type) source hyper sp before (setup : solver E -> solver E) valid
    (c : controller DQ DX P F) (w w' : world DQ DX E P F) (t0 : Q) (ts : list Q) :
  let s0 := if w_set_up w then w_solver w else setup (w_solver w) in
  c_style c = 2%Z -> c_times c = t0 :: ts ->
  (c_output c = true -> w_dir w = true -> c_overwrite c = true) -> valid s0 (w_sol w) = true ->
  dt_variable s0 = true -> 0 < dt s0 -> 0 < dt_max s0 -> 0 < cfl_desired s0 -> (0 <= max_steps s0)%Z ->
  increasing (st (w_sol w)) ts ->
  run (classic_evolve source hyper sp before) setup valid c w = (w', None) ->
  exists us, w_out w' = w_out w ++ run_files c (w_start w) (w_sol w) us /\
    Forall2 (at_time (E:=E) (classic_evolve source hyper sp before) (max_steps s0)) ts us.
Proof.
  cbv zeta. intros H1 H2 H3 H4 H5 H6 H7 H8 H9 H10 H11.
  assert (N : c_times c <> []) by (rewrite H2; discriminate).
  assert (T : tl (c_times c) = ts) by (rewrite H2; reflexivity).
  exact (frames_on_time _ _ _ (classic_frame source hyper sp) (classic_honours source hyper sp) setup valid c w w' ts
           H1 N T H3 H4 (conj H5 (conj H6 (conj H7 H8))) H9 H10 H11).
Qed.
Theorem C44_sharpclaw_output_style_1 (DQ DX P F : Type) slope stages before (setup : solver DQ -> solver DQ) valid
    (c : controller DQ DX P F) (w w' : world DQ DX DQ P F) :
  let s0 := if w_set_up w then w_solver w else setup (w_solver w) in
  c_style c = 1%Z -> (0 <= c_num c)%Z ->
  (c_output c = true -> w_dir w = true -> c_overwrite c = true) -> valid s0 (w_sol w) = true ->
  dt_variable s0 = true -> 0 < dt s0 -> 0 < dt_max s0 -> 0 < cfl_desired s0 -> (0 <= max_steps s0)%Z ->
  st (w_sol w) < c_tfinal c ->
  run (sharp_evolve slope stages before) setup valid c w = (w', None) ->
  exists ts us, w_out w' = w_out w ++ run_files c (w_start w) (w_sol w) us /\
    Z.of_nat (length ts) = c_num c /\
    (forall i x, nth_error ts i = Some x ->
       x == st (w_sol w) + (c_tfinal c - st (w_sol w)) * inject_Z (Z.of_nat i + 1) / inject_Z (c_num c)) /\
    Forall2 (at_time (sharp_evolve slope stages before) (max_steps s0)) ts us.
Proof.
  cbv zeta. intros H1 H2 H3 H4 H5 H6 H7 H8 H9 H10 H11.
  exact (frames_on_time_1 _ _ _ (sharp_frame slope stages) (sharp_honours slope stages) setup valid c w w'
           H1 H2 H3 H4 (conj H5 (conj H6 (conj H7 H8))) H9 H10 H11).
Qed.

(** Fixed steps of the classic solver that divide the intervals between the output times: every frame is at
    its time. *)
Theorem C44_fixed_steps (DQ DX E P F : Type) source hyper sp before (setup : solver E -> solver E) valid
    (c : controller DQ DX P F) (w w' : world DQ DX E P F) (t0 : Q) (ts : list Q) :
  let s0 := if w_set_up w then w_solver w else setup (w_solver w) in
  c_style c = 2%Z -> c_times c = t0 :: ts ->
  (c_output c = true -> w_dir w = true -> c_overwrite c = true) -> valid s0 (w_sol w) = true ->
  dt_variable s0 = false -> canonical (dt s0) -> tol10 < dt s0 ->
  whole_steps (dt s0) (st (w_sol w)) ts -> Forall (fun x => eps14 * x <= dt s0) ts ->
  run (classic_evolve source hyper sp before) setup valid c w = (w', None) ->
  exists us, w_out w' = w_out w ++ run_files c (w_start w) (w_sol w) us /\ Forall2 (fun t u => st u == t) ts us.
Proof.
  cbv zeta. intros Hst Ht Hov HV Hv Hc Hd Hw Hs HR.
  assert (N : c_times c <> []) by (rewrite Ht; discriminate).
  destruct (run_spec (classic_evolve source hyper sp before) setup valid c w w' None (conj (or_intror (or_introl (conj Hst N))) Hov) HV HR)
    as (blocks & k & Q1 & _ & Q3 & Q4 & _ & _ & _ & _ & Q5 & _ & _).
  unfold requested in Q1. rewrite Hst, Ht in Q1. cbn [tl] in Q1. subst blocks k. rewrite map_length in *.
  eexists. split; [exact Q4|]. unfold reached in *. unfold first_solver in *.
  pose proof (Q3 (length ts) (le_n _)) as HE. rewrite concat_singletons, firstn_all in HE.
  pose proof (times_fixed source hyper sp before ts (st (w_sol w)) _ (w_sol w) Hv Hc Hd (Qeq_refl _) Hw Hs HE) as K.
  match goal with |- Forall2 _ _ ?l => match type of K with Forall2 _ _ ?l' => replace l with l' end end; [exact K|].
  apply map_ext. intros j. rewrite concat_singletons. reflexivity.
Qed.

(** a demonstration: q counts the steps, the Courant number is 2 dt *)
Definition demo_evolve : solver unit -> sol Q unit -> option Q -> result Q unit unit :=
  classic_evolve None (fun d so => (sq so + 1, sx so, 2 * d)) 1 (fun so => (sq so, sx so)).
Definition demo_solver (d : Q) (var : bool) : solver unit := mkSolver d None 100 var (9 # 10) 1 (9 # 10) 1000 None None None 0 true tt.
Definition demo_c (style num : Z) (times : list Q) (keepc : bool) : controller Q unit Q Q :=
  mkController style 1 num times 2 keepc true false true true (Some (fun so => sq so + 100)) (Some (fun so => 2 * sq so)).
Definition demo_w (start : Z) (frames : list (sol Q unit)) (dir : bool) : world Q unit unit Q Q :=
  mkWorld (demo_solver (1 # 4) true) true (mkSol 0 tt 0) start frames dir [].
Definition demo_valid (s : solver unit) (u : sol Q unit) : bool := true.

Example C44_case : acceptable (demo_c 1 2 [] true) (demo_w 0 [] false) /\
  map (fun o => match o with WriteP n u p => (n, st u, sq u, p) | WriteQ n a u => (n, st u, sq u, if a then 1 else 0) | WriteF b t v => ((if b then -1 else -2)%Z, t, v, 0) end)
    (w_out (fst (run demo_evolve (fun s => s) demo_valid (demo_c 1 2 [] true) (demo_w 0 [] false)))) =
  [(0%Z, 0, 0, 100); (0%Z, 0, 0, 1); ((-1)%Z, 0, 0, 0);
   (1%Z, 1 # 2, 2, 102); (1%Z, 1 # 2, 2, 0); ((-2)%Z, 1 # 2, 4, 0);
   (2%Z, 1, 4, 104); (2%Z, 1, 4, 0); ((-2)%Z, 1, 8, 0)] /\
  snd (run demo_evolve (fun s => s) demo_valid (demo_c 1 2 [] true) (demo_w 0 [] false)) = None.
Proof.
  split; [split; [left; split; [reflexivity|cbn [c_num demo_c]; lia]|reflexivity]|]. split; vm_compute; reflexivity.
Qed.
Example C44_case_style_3 : acceptable (demo_c 3 4 [] false) (demo_w 2 [] false) /\
  map (fun o => match o with WriteQ n a u => (n, st u, sq u) | _ => (0%Z, 0, 0) end)
    (w_out (fst (run demo_evolve (fun s => s) demo_valid
       (mkController 3 1 4 [] 2 false false false true true None None : controller Q unit Q Q) (demo_w 2 [] false)))) =
  [(2%Z, 0, 0); (3%Z, 7 # 10, 2); (4%Z, 8 # 5, 4)].
Proof.
  split; [split; [right; right; split; [reflexivity|cbn; lia]|reflexivity]|]. vm_compute. reflexivity.
Qed.
Example C44_case_fixed : whole_steps (1 # 4) 0 [1 # 2; 3 # 2] /\ Forall (fun x => eps14 * x <= 1 # 4) [1 # 2; 3 # 2] /\
  snd (run demo_evolve (fun s => s) demo_valid (demo_c 2 0 [0; 1 # 2; 3 # 2] true)
         (mkWorld (demo_solver (1 # 4) false) true (mkSol 0 tt 0) 0 [] false [])) = None.
Proof.
  split; [|split].
  - split; [exists 2%Z; split; [lia|vm_compute; reflexivity]|]. split; [exists 4%Z; split; [lia|vm_compute; reflexivity]|exact I].
  - constructor; [vm_compute; congruence|]. constructor; [vm_compute; congruence|constructor].
  - vm_compute. reflexivity.
Qed.

(** *** C74: the file of functionals *)

Lemma F_lines_app {DQ DX P F} (a b : list (output DQ DX P F)) : forall l, F_lines l (a ++ b) = F_lines (F_lines l a) b.
Proof. induction a as [|[n u p|n x u|n t v] a IH]; intros l; cbn [app F_lines]; [reflexivity|apply IH..]. Qed.

(** After a run, however it ended, F.txt holds one line for each frame of this run, in order: the time and
    the functionals of that frame. *)
Theorem C74_functionals (DQ DX E P F : Type) (evolve : solver E -> sol DQ DX -> option Q -> result DQ DX E)
    (setup : solver E -> solver E) (valid : solver E -> sol DQ DX -> bool) (c : controller DQ DX P F)
    (w w' : world DQ DX E P F) (o : option run_error) (f : sol DQ DX -> F) (old : list (Q * F)) :
  acceptable c w -> valid (if w_set_up w then w_solver w else setup (w_solver w)) (w_sol w) = true ->
  c_F c = Some f -> c_keep c = true ->
  run evolve setup valid c w = (w', o) ->
  exists us, w_frames w' = w_frames w ++ us /\ us <> [] /\
    F_lines old (w_out w') = map (fun u => (st u, f u)) us.
Proof.
  intros HA HV HF HK HR.
  destruct (run_spec evolve setup valid c w w' o HA HV HR) as (blocks & k & _ & _ & _ & Q4 & Q5 & _).
  rewrite HK in Q5. eexists. split; [exact Q5|]. split; [discriminate|].
  rewrite Q4, F_lines_app. unfold run_files. rewrite F_lines_app.
  set (us := map (fun j => many_sol (reached evolve (first_solver setup w) (w_sol w) blocks j)) (seq 1 k)).
  assert (A : forall n b u l, F_lines l (frame_files c n b u) = (if b then [] else l) ++ [(st u, f u)]).
  { intros n b u l. unfold frame_files. rewrite HF. destruct (c_output c), (c_p c); reflexivity. }
  rewrite A. cbn [app]. cbn [map].
  assert (B : forall us n l, F_lines l (later_files c n us) = l ++ map (fun u => (st u, f u)) us).
  { clear -A. intros us. induction us as [|u us IH]; intros n l; cbn [later_files map F_lines]; [symmetry; apply app_nil_r|].
    rewrite F_lines_app, A, IH, <- app_assoc. reflexivity. }
  rewrite B. reflexivity.
Qed.

Example C74_case :
  let c := mkController 1 1 2 [] 1 true false false true true None (Some (fun u => sq u)) : controller Q unit Q Q in
  acceptable c (demo_w 0 [] false) /\ c_keep c = true /\
  length (F_lines [] (w_out (fst (run demo_evolve (fun s => s) demo_valid c (demo_w 0 [] false))))) = 3%nat.
Proof. split; [split; [left; split; [reflexivity|cbn; lia]|reflexivity]|]. split; [reflexivity|]. vm_compute. reflexivity. Qed.

(** *** C71: a second run continues the numbering *)

Lemma frames_written_app {DQ DX P F} (a b : list (output DQ DX P F)) : frames_written (a ++ b) = frames_written a ++ frames_written b.
Proof. induction a as [|[n u p|n x u|n t v] a IH]; cbn [app frames_written]; rewrite ?IH; reflexivity. Qed.
Lemma frames_written_run {DQ DX P F} (c : controller DQ DX P F) us : c_output c = true -> forall n,
  frames_written (later_files c n us) = combine (map (fun i => n + Z.of_nat i)%Z (seq 0 (length us))) us.
Proof.
  intros Ho. induction us as [|u us IH]; intros n; [reflexivity|]. cbn [later_files length seq map combine].
  rewrite frames_written_app, IH. unfold frame_files. rewrite Ho.
  rewrite <- seq_shift, map_map.
  replace (map (fun x => (n + Z.of_nat (S x))%Z) (seq 0 (length us))) with (map (fun i => (n + 1 + Z.of_nat i)%Z) (seq 0 (length us)))
    by (apply map_ext; intros; lia).
  destruct (c_p c), (c_F c); cbn [app frames_written]; rewrite Z.add_0_r; reflexivity.
Qed.

(** With keep_copy set from the start: the frames of this run carry the next numbers and the next run starts
    after them. *)
Theorem C71_second_run_partial (DQ DX E P F : Type) (evolve : solver E -> sol DQ DX -> option Q -> result DQ DX E)
    (setup : solver E -> solver E) (valid : solver E -> sol DQ DX -> bool) (c : controller DQ DX P F)
    (w w' : world DQ DX E P F) :
  acceptable c w -> valid (if w_set_up w then w_solver w else setup (w_solver w)) (w_sol w) = true ->
  c_keep c = true -> c_output c = true -> w_start w = Z.of_nat (length (w_frames w)) ->
  run evolve setup valid c w = (w', None) ->
  exists new, frames_written (w_out w') = frames_written (w_out w) ++ new /\ new <> [] /\
    w_frames w' = w_frames w ++ map snd new /\
    map fst new = map (fun i => w_start w + Z.of_nat i)%Z (seq 0 (length new)) /\
    w_start w' = (w_start w + Z.of_nat (length new))%Z /\
    w_start w' = Z.of_nat (length (w_frames w')).
Proof.
  intros HA HV HK HO HS HR.
  destruct (run_spec evolve setup valid c w w' None HA HV HR) as (blocks & k & _ & _ & _ & Q4 & Q5 & _ & _ & _ & _ & _ & Q6).
  rewrite HK in Q5.
  set (us := map (fun j => many_sol (reached evolve (first_solver setup w) (w_sol w) blocks j)) (seq 1 k)) in *.
  exists (combine (map (fun i => w_start w + Z.of_nat i)%Z (seq 0 (length (w_sol w :: us)))) (w_sol w :: us)).
  assert (LEN : length (map (fun i => w_start w + Z.of_nat i)%Z (seq 0 (length (w_sol w :: us)))) = length (w_sol w :: us))
    by (rewrite map_length, seq_length; reflexivity).
  assert (LC : length (combine (map (fun i => w_start w + Z.of_nat i)%Z (seq 0 (length (w_sol w :: us)))) (w_sol w :: us)) = length (w_sol w :: us))
    by (rewrite combine_length, LEN; lia).
  split; [|split; [|split; [|split; [|split]]]].
  - rewrite Q4, frames_written_app. f_equal. unfold run_files. rewrite frames_written_app, frames_written_run by exact HO.
    unfold frame_files. rewrite HO. cbn [length seq map combine]. rewrite <- seq_shift, map_map.
    replace (map (fun x => (w_start w + Z.of_nat (S x))%Z) (seq 0 (length us))) with (map (fun i => (w_start w + 1 + Z.of_nat i)%Z) (seq 0 (length us)))
      by (apply map_ext; intros; lia).
    destruct (c_p c), (c_F c); cbn [app frames_written]; rewrite Z.add_0_r; reflexivity.
  - intros H. rewrite H in LC. discriminate LC.
  - rewrite Q5. f_equal. symmetry. revert LEN. generalize (map (fun i => w_start w + Z.of_nat i)%Z (seq 0 (length (w_sol w :: us)))).
    generalize (w_sol w :: us). clear. intros l. induction l as [|u l IH]; intros [|n ns] L; try discriminate L; [reflexivity|].
    cbn [combine map snd]. f_equal. apply IH. injection L as L. exact L.
  - rewrite LC. revert LEN. generalize (map (fun i => w_start w + Z.of_nat i)%Z (seq 0 (length (w_sol w :: us)))).
    generalize (w_sol w :: us). clear. intros l. induction l as [|u l IH]; intros [|n ns] L; try discriminate L; [reflexivity|].
    cbn [combine map fst]. f_equal. apply IH. injection L as L. exact L.
  - rewrite Q6, Q5, LC, app_length, Nat2Z.inj_add, HS. reflexivity.
  - exact Q6.
Qed.

(** Without keep_copy the next run starts again with frame 0: it overwrites frame 0 of the first run with a
    later solution. *)
Theorem C71_second_run_refuted :
  exists (c : controller Q unit Q Q) (w w1 w2 : world Q unit unit Q Q),
    acceptable c w /\ run demo_evolve (fun s => s) demo_valid c w = (w1, None) /\
    run demo_evolve (fun s => s) demo_valid c w1 = (w2, None) /\
    map (fun x => (fst x, st (snd x))) (frames_written (w_out w1)) = [(0%Z, 0); (1%Z, 1)] /\
    map (fun x => (fst x, st (snd x))) (frames_written (w_out w2)) = [(0%Z, 0); (1%Z, 1); (0%Z, 1); (1%Z, 2)].
Proof.
  pose (c := mkController 3 1 1 [] 2 false false false true true None None : controller Q unit Q Q).
  pose (w := mkWorld (demo_solver (1 # 2) false) true (mkSol 0 tt 0) 0 [] false [] : world Q unit unit Q Q).
  exists c, w, (fst (run demo_evolve (fun s => s) demo_valid c w)),
    (fst (run demo_evolve (fun s => s) demo_valid c (fst (run demo_evolve (fun s => s) demo_valid c w)))).
  split; [split; [right; right; split; [reflexivity|cbn; lia]|reflexivity]|].
  split; [vm_compute; reflexivity|]. split; [vm_compute; reflexivity|]. split; vm_compute; reflexivity.
Qed.
Example C71_case : acceptable (demo_c 1 2 [] true) (demo_w 0 [] false) /\
  w_start (demo_w 0 [] false) = Z.of_nat (length (w_frames (demo_w 0 [] false))) /\
  w_start (fst (run demo_evolve (fun s => s) demo_valid (demo_c 1 2 [] true) (demo_w 0 [] false))) = 3%Z.
Proof. split; [apply C44_case|]. split; [reflexivity|]. vm_compute. reflexivity. Qed.

(** *** C72: run() with nothing to do *)

(** If no further output is asked for, run() writes the initial frame and then fails with an unbound local
    variable; with an empty list of output times it fails with a missing attribute. *)
Theorem C72_nothing_to_do_refuted :
  (exists (c : controller Q unit Q Q) (w : world Q unit unit Q Q), acceptable c w /\ c_style c = 1%Z /\ c_num c = 0%Z /\
     snd (run demo_evolve (fun s => s) demo_valid c w) = Some StatusUnbound) /\
  (exists (c : controller Q unit Q Q) (w : world Q unit unit Q Q), c_style c = 2%Z /\ c_times c = [] /\
     snd (run demo_evolve (fun s => s) demo_valid c w) = Some NoAttributeT).
Proof.
  split.
  - exists (demo_c 1 0 [] false), (demo_w 0 [] false).
    split; [split; [left; split; [reflexivity|cbn; lia]|reflexivity]|]. split; [reflexivity|]. split; [reflexivity|]. vm_compute. reflexivity.
  - exists (demo_c 2 0 [] false), (demo_w 0 [] false). repeat split; vm_compute; reflexivity.
Qed.
(** Whenever at least one call of the solver is asked for, run() returns normally or raises what the solver
    raised. *)
Theorem C72_returns_or_reports_partial (DQ DX E P F : Type) (evolve : solver E -> sol DQ DX -> option Q -> result DQ DX E)
    (setup : solver E -> solver E) (valid : solver E -> sol DQ DX -> bool) (c : controller DQ DX P F) (w : world DQ DX E P F) :
  acceptable c w -> valid (if w_set_up w then w_solver w else setup (w_solver w)) (w_sol w) = true ->
  (c_style c = 1%Z -> c_num c <> 0%Z) -> (c_style c = 2%Z -> tl (c_times c) <> []) ->
  (c_style c = 3%Z -> (w_start w < c_num c)%Z /\ (0 < c_nstepout c)%Z) ->
  snd (run evolve setup valid c w) = None \/ exists e, snd (run evolve setup valid c w) = Some (EvolveError e).
Proof.
  intros HA HV H1 H2 H3. destruct (run evolve setup valid c w) as [w' o] eqn:HR. cbn [snd].
  destruct (run_spec evolve setup valid c w w' o HA HV HR) as (blocks & k & Q1 & _ & _ & _ & _ & _ & _ & _ & Q6).
  assert (NE : concat blocks <> []).
  { unfold requested in Q1. destruct HA as [[(S1 & N1)|[(S2 & N2)|(S3 & N3)]] _].
    - rewrite S1 in Q1. destruct Q1 as (ts & -> & L & _). specialize (H1 S1).
      destruct ts as [|t ts]; [cbn [length] in L; lia|]. discriminate.
    - rewrite S2 in Q1. subst blocks. specialize (H2 S2). destruct (tl (c_times c)); [congruence|discriminate].
    - rewrite S3 in Q1. subst blocks. destruct (H3 S3) as [H4 H5].
      destruct (Z.to_nat (c_num c - w_start w)) as [|n] eqn:En; [lia|].
      destruct (Z.to_nat (c_nstepout c)) as [|m] eqn:Em; [lia|]. discriminate. }
  destruct o as [[]|]; try contradiction.
  - destruct Q6 as (_ & Q6 & _). congruence.
  - right. eexists. reflexivity.
  - left. reflexivity.
Qed.
Example C72_case : acceptable (demo_c 1 2 [] true) (demo_w 0 [] false) /\ c_num (demo_c 1 2 [] true) <> 0%Z.
Proof. split; [apply C44_case|discriminate]. Qed.

(** *** C73: a frame at every time of the list *)

(** The first entry of the list of output times is skipped: there is no frame at this time unless the run
    starts there. *)
Theorem C73_output_times_refuted :
  exists (c : controller Q unit Q Q) (w w' : world Q unit unit Q Q),
    acceptable c w /\ c_style c = 2%Z /\ increasing (st (w_sol w)) (c_times c) /\
    run demo_evolve (fun s => s) demo_valid c w = (w', None) /\
    In (1 # 2) (c_times c) /\ forall n u, In (n, u) (frames_written (w_out w')) -> ~ st u == 1 # 2.
Proof.
  pose (c := demo_c 2 0 [1 # 2; 1] false). exists c, (demo_w 0 [] false),
    (fst (run demo_evolve (fun s => s) demo_valid c (demo_w 0 [] false))).
  split; [split; [right; left; split; [reflexivity|discriminate]|reflexivity]|]. split; [reflexivity|].
  split; [cbn; lra|]. split; [vm_compute; reflexivity|]. split; [left; reflexivity|].
  assert (K : forall l : list (Z * sol Q unit), forallb (fun x => negb (qeqb (st (snd x)) (1 # 2))) l = true ->
     forall n u, In (n, u) l -> ~ st u == 1 # 2).
  { intros l H n u Hin Heq. rewrite forallb_forall in H. specialize (H _ Hin). cbn [snd] in H.
    apply negb_true_iff in H. apply qeqb_eq in Heq. congruence. }
  apply K. vm_compute. reflexivity.
Qed.
(** If the list starts with the current time, every entry gets its frame. *)
Theorem C73_output_times_partial (DQ DX E P F : Type) source hyper sp before (setup : solver E -> solver E) valid
    (c : controller DQ DX P F) (w w' : world DQ DX E P F) (t0 : Q) (ts : list Q) :
  let s0 := if w_set_up w then w_solver w else setup (w_solver w) in
  c_style c = 2%Z -> c_times c = t0 :: ts -> t0 == st (w_sol w) -> c_output c = true ->
  (w_dir w = true -> c_overwrite c = true) -> valid s0 (w_sol w) = true ->
  dt_variable s0 = true -> 0 < dt s0 -> 0 < dt_max s0 -> 0 < cfl_desired s0 -> (0 <= max_steps s0)%Z ->
  increasing t0 ts ->
  run (classic_evolve source hyper sp before) setup valid c w = (w', None) ->
  exists us, frames_written (w_out w') = frames_written (w_out w) ++
                combine (map (fun i => w_start w + Z.of_nat i)%Z (seq 0 (length (c_times c)))) us /\
    Forall2 (at_time (E:=E) (classic_evolve source hyper sp before) (max_steps s0)) (c_times c) us.
Proof.
  cbv zeta. intros H1 H2 Ht0 HO H3 H4 H5 H6 H7 H8 H9 H10 H11.
  assert (Hi : increasing (st (w_sol w)) ts).
  { destruct ts as [|x ts]; [exact I|]. destruct H10 as [A B]. split; [rewrite <- Ht0; exact A|exact B]. }
  destruct (C44_output_style_2 DQ DX E P F source hyper sp before setup valid c w w' t0 ts H1 H2 (fun _ => H3) H4 H5 H6 H7 H8 H9 Hi H11)
    as (us & O & FF).
  exists (w_sol w :: us). assert (L : length us = length ts) by (clear -FF; induction FF; cbn [length]; lia).
  rewrite H2. split.
  - rewrite O, frames_written_app. f_equal. unfold run_files. rewrite frames_written_app, frames_written_run by exact HO.
    unfold frame_files. rewrite HO. cbn [length seq map combine]. rewrite <- seq_shift, map_map, L.
    replace (map (fun x => (w_start w + Z.of_nat (S x))%Z) (seq 0 (length ts))) with (map (fun i => (w_start w + 1 + Z.of_nat i)%Z) (seq 0 (length ts)))
      by (apply map_ext; intros; lia).
    destruct (c_p c), (c_F c); cbn [app frames_written]; rewrite Z.add_0_r; reflexivity.
  - constructor; [|exact FF]. split; [rewrite Ht0; apply Qle_refl|left; symmetry; exact Ht0].
Qed.
Example C73_case : increasing 0 [1 # 4; 1 # 2] /\ 0 == st (w_sol (demo_w 0 [] false)) /\
  snd (run demo_evolve (fun s => s) demo_valid (demo_c 2 0 [0; 1 # 4; 1 # 2] false) (demo_w 0 [] false)) = None.
Proof. split; [cbn; lra|]. split; [reflexivity|]. vm_compute. reflexivity. Qed.

Print Assumptions C44_frames.
Print Assumptions C44_output_style_1.
Print Assumptions C44_output_style_2.
Print Assumptions C44_sharpclaw_output_style_1.
Print Assumptions C44_fixed_steps.
Print Assumptions C71_second_run_partial.
Print Assumptions C71_second_run_refuted.
Print Assumptions C72_nothing_to_do_refuted.
Print Assumptions C72_returns_or_reports_partial.
Print Assumptions C73_output_times_refuted.
Print Assumptions C73_output_times_partial.
Print Assumptions C74_functionals.
