(** The run method of the controller: src/pyclaw/controller.py.

    Simplifications: solver and solution are those of TimeModel; [evolve] is solver.evolve_to_time, any
    function with that interface.  Logging, plotting and the gauges (GaugeModel) are left out.  Writing a file
    succeeds; what is written is recorded in a list, oldest first.  compute_p and compute_F are functions of
    the state whose results (state.p, state.F) are seen by the writers only. *)
From Verif Require Import Base TimeModel.

Inductive run_error :=
| NoSolver            (* controller.py:293 *)
| Invalid             (* controller.py:216-234 check_validity *)
| BadStyle            (* controller.py:321 'Invalid output style' *)
| BadCount            (* numpy: ValueError, negative number of output times *)
| NoAttributeT        (* controller.py:325: the controller has no attribute t *)
| RefuseOverwrite     (* controller.py:334 *)
| StatusUnbound       (* controller.py:395: UnboundLocalError, no step was ever asked for *)
| EvolveError (e : err).

(** numpy.linspace(a, b, k) *)
Definition linspace (a b : Q) (k : Z) : option (list Q) :=
  if (k <? 0)%Z then None
  else Some (map (fun i => if (i =? k - 1)%Z && negb (k =? 1)%Z then b
                           else Qred (a + inject_Z i * ((b - a) / inject_Z (k - 1))))%bool
                 (map Z.of_nat (seq 0 (Z.to_nat k)))).

Section Run.
Variables DQ DX E : Type.
Variables P F : Type.

(** controller.py:85-195: the parameters *)
Record controller := mkController {
  c_style : Z;               (* output_style *)
  c_tfinal : Q;
  c_num : Z;                 (* num_output_times *)
  c_times : list Q;          (* out_times *)
  c_nstepout : Z;
  c_keep : bool;             (* keep_copy *)
  c_aux_init : bool;         (* write_aux_init *)
  c_aux_always : bool;       (* write_aux_always *)
  c_output : bool;           (* output_format is not None *)
  c_overwrite : bool;
  c_p : option (sol DQ DX -> P);       (* compute_p *)
  c_F : option (sol DQ DX -> F) }.     (* compute_F followed by sum_F *)

(** what run() leaves behind outside the program *)
Inductive output :=
| WriteP (frame : Z) (so : sol DQ DX) (p : P)             (* solution.write(frame, outdir_p, ..., write_p=True) *)
| WriteQ (frame : Z) (aux : bool) (so : sol DQ DX)        (* solution.write(frame, outdir, ..., write_aux) *)
| WriteF (new : bool) (t : Q) (v : F).                    (* one line of F.txt; [new]: the file is truncated first *)

(** everything run() changes *)
Record world := mkWorld {
  w_solver : solver E;
  w_set_up : bool;                 (* solver._is_set_up *)
  w_sol : sol DQ DX;
  w_start : Z;                     (* solution._start_frame *)
  w_frames : list (sol DQ DX);     (* controller.frames *)
  w_dir : bool;                    (* os.path.exists(outdir) *)
  w_out : list output }.

Definition put (o : list output) (w : world) : world :=
  mkWorld (w_solver w) (w_set_up w) (w_sol w) (w_start w) (w_frames w) (w_dir w) (w_out w ++ o).
Definition made_dir (w : world) : world :=
  mkWorld (w_solver w) (w_set_up w) (w_sol w) (w_start w) (w_frames w) true (w_out w).
Definition keep (c : controller) (w : world) : world :=
  mkWorld (w_solver w) (w_set_up w) (w_sol w) (w_start w)
    (if c_keep c then w_frames w ++ [w_sol w] else w_frames w) (w_dir w) (w_out w).
Definition set_solution (s : solver E) (so : sol DQ DX) (w : world) : world :=
  mkWorld s (w_set_up w) so (w_start w) (w_frames w) (w_dir w) (w_out w).
Definition set_start (k : Z) (w : world) : world :=
  mkWorld (w_solver w) (w_set_up w) (w_sol w) k (w_frames w) (w_dir w) (w_out w).

(** solver.evolve_to_time *)
Variable evolve : solver E -> sol DQ DX -> option Q -> result DQ DX E.
(** solver.setup followed by dt = dt_initial (controller.py:302-304) *)
Variable setup : solver E -> solver E.
(** check_validity (controller.py:216-234) *)
Variable valid : solver E -> sol DQ DX -> bool.

(** controller.py:332-350, 368-382: the files of one frame *)
Definition write_frame (c : controller) (frame : Z) (aux : bool) (w : world) : world :=
  if c_output c then
    let w1 := match c_p c with Some f => put [WriteP frame (w_sol w) (f (w_sol w))] w | None => w end in
    made_dir (put [WriteQ frame aux (w_sol w)] w1)
  else w.
(** controller.py:399-409 write_F *)
Definition write_F (c : controller) (new : bool) (w : world) : world :=
  match c_F c with Some f => put [WriteF new (st (w_sol w)) (f (w_sol w))] w | None => w end.

(** evolve_to_time with its effects; the status of the solver is part of the solver *)
Definition evolve_world (tend : option Q) (w : world) : world * option err :=
  let r := evolve (w_solver w) (w_sol w) tend in
  (set_solution (r_solver r) (r_sol r) w, r_err r).
(** controller.py:362-363 [for n in range(nstepout)]; the flag tells whether [status] was assigned *)
Fixpoint single_steps (k : nat) (w : world) (bound : bool) : world * bool * option err :=
  match k with
  | O => (w, bound, None)
  | S k' => let '(w', e) := evolve_world None w in
            match e with
            | Some x => (w', bound, Some x)
            | None => single_steps k' w' true
            end
  end.
(** controller.py:357-388: one pass of the loop over the output times *)
Definition one_output (c : controller) (t : Q) (frame : Z) (w : world) (bound : bool) : world * bool * option err :=
  let '(w1, bound1, e) :=
    if (c_style c <? 3)%Z then let '(w', e) := evolve_world (Some t) w in (w', true, e)
    else single_steps (Z.to_nat (c_nstepout c)) w bound in
  match e with
  | Some x => (w1, bound1, Some x)
  | None => (write_F c false (write_frame c (frame + 1) (c_aux_always c) (keep c w1)), bound1, None)
  end.
Fixpoint outputs (c : controller) (ts : list Q) (frame : Z) (w : world) (bound : bool) : world * bool * option err :=
  match ts with
  | [] => (w, bound, None)
  | t :: ts' =>
      let '(w1, bound1, e) := one_output c t frame w bound in
      match e with
      | Some x => (w1, bound1, Some x)
      | None => outputs c ts' (frame + 1) w1 bound1
      end
  end.

(** controller.py:311-321 *)
Definition output_times (c : controller) (w : world) : list Q + run_error :=
  if (c_style c =? 1)%Z then
    match linspace (st (w_sol w)) (c_tfinal c) (c_num c + 1) with Some l => inl l | None => inr BadCount end
  else if (c_style c =? 2)%Z then inl (c_times c)
  else if (c_style c =? 3)%Z then
    let k := (c_num c + 1 - w_start w)%Z in
    if (k <? 0)%Z then inr BadCount else inl (repeat 1 (Z.to_nat k))
  else inr BadStyle.

(** controller.py:275-395 run; [None] is a normal return of the status *)
Definition run (c : controller) (w : world) : world * option run_error :=
  let start := w_start w in
  let w1 := if w_set_up w then w
            else mkWorld (setup (w_solver w)) true (w_sol w) (w_start w) (w_frames w) (w_dir w) (w_out w) in
  if negb (valid (w_solver w1) (w_sol w1)) then (w1, Some Invalid) else
  match output_times c w1 with
  | inr e => (w1, Some e)
  | inl [] => (w1, Some NoAttributeT)
  | inl (_ :: ts) =>
      let w2 := keep c w1 in
      if (c_output c && w_dir w2 && negb (c_overwrite c))%bool then (w2, Some RefuseOverwrite) else
      let w3 := write_F c true (write_frame c start (c_aux_always c || c_aux_init c) w2) in
      let '(w4, bound, e) := outputs c ts start w3 false in
      match e with
      | Some x => (w4, Some (EvolveError x))
      | None =>
          let w5 := set_start (Z.of_nat (length (w_frames w4))) w4 in
          if bound then (w5, None) else (w5, Some StatusUnbound)
      end
  end.
End Run.

Arguments mkController {DQ DX P F}. Arguments c_style {DQ DX P F}. Arguments c_tfinal {DQ DX P F}.
Arguments c_num {DQ DX P F}. Arguments c_times {DQ DX P F}. Arguments c_nstepout {DQ DX P F}.
Arguments c_keep {DQ DX P F}. Arguments c_aux_init {DQ DX P F}. Arguments c_aux_always {DQ DX P F}.
Arguments c_output {DQ DX P F}. Arguments c_overwrite {DQ DX P F}. Arguments c_p {DQ DX P F}. Arguments c_F {DQ DX P F}.
Arguments WriteP {DQ DX P F}. Arguments WriteQ {DQ DX P F}. Arguments WriteF {DQ DX P F}.
Arguments mkWorld {DQ DX E P F}. Arguments w_solver {DQ DX E P F}. Arguments w_set_up {DQ DX E P F}.
Arguments w_sol {DQ DX E P F}. Arguments w_start {DQ DX E P F}. Arguments w_frames {DQ DX E P F}.
Arguments w_dir {DQ DX E P F}. Arguments w_out {DQ DX E P F}.
Arguments put {DQ DX E P F}. Arguments made_dir {DQ DX E P F}. Arguments keep {DQ DX E P F}.
Arguments set_solution {DQ DX E P F}. Arguments set_start {DQ DX E P F}.
Arguments write_frame {DQ DX E P F}. Arguments write_F {DQ DX E P F}.
Arguments evolve_world {DQ DX E P F}. Arguments single_steps {DQ DX E P F}. Arguments one_output {DQ DX E P F}.
Arguments outputs {DQ DX E P F}. Arguments output_times {DQ DX E P F}. Arguments run {DQ DX E P F}.
