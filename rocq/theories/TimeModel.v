(** Model of PyClaw's time-stepping control:
    src/pyclaw/solver.py (Solver.get_dt, get_dt_new, accept_reject_step, evolve_to_time),
    src/pyclaw/cfl.py and src/pyclaw/classic/solver.py (ClawSolver.step).

    Simplifications:
    - numbers are exact rationals; step sizes and times computed here are kept in lowest terms
      ([Qred]), so that equal times are identical values for the callbacks;
    - [-np.inf]/[np.inf] in the status dictionary are [None];
    - [solver.setup] and logging are not modelled (they do not touch the fields below);
    - callbacks (before_step, step_source, step_hyperbolic) are arbitrary functions of time, q
      and "everything else they can see or change" (type [DX]: aux, problem_data, globals); they do
      not reassign solver.dt, solver.max_steps etc. nor solution.t. *)
From Verif Require Import Base.

Section Time.
Variable DQ : Type.   (* contents of state.q *)
Variable DX : Type.   (* all other data visible to the callbacks (aux, problem_data, ...) *)
Variable E  : Type.   (* solver-class specific attributes (SharpClaw registers, ...) *)

(** solver.py:197-205 and classic/solver.py:78-91: the attributes used for time stepping. *)
Record solver := mkSolver {
  dt : Q;                    (* solver.dt *)
  dt_old : option Q;         (* solver.dt_old, None initially *)
  dt_max : Q;                (* solver.dt_max *)
  dt_variable : bool;        (* solver.dt_variable *)
  cfl_desired : Q;
  cfl_max : Q;
  cfl : Q;                   (* cfl.py: CFL._global_max *)
  max_steps : Z;
  st_cflmax : option Q;      (* status['cflmax'], None = -inf *)
  st_dtmin : option Q;       (* status['dtmin'],  None = +inf *)
  st_dtmax : option Q;       (* status['dtmax'],  None = -inf *)
  st_numsteps : Z;           (* status['numsteps'] *)
  accept_step : bool;        (* solver.accept_step: was the last attempted step accepted *)
  ext : E }.

(** The part of a Solution the time loop touches: q, everything else, t. *)
Record sol := mkSol { sq : DQ; sx : DX; st : Q }.

Definition set_dt (d : Q) (s : solver) : solver :=
  mkSolver d (dt_old s) (dt_max s) (dt_variable s) (cfl_desired s) (cfl_max s) (cfl s)
    (max_steps s) (st_cflmax s) (st_dtmin s) (st_dtmax s) (st_numsteps s) (accept_step s) (ext s).
Definition set_dt_old (d : option Q) (s : solver) : solver :=
  mkSolver (dt s) d (dt_max s) (dt_variable s) (cfl_desired s) (cfl_max s) (cfl s)
    (max_steps s) (st_cflmax s) (st_dtmin s) (st_dtmax s) (st_numsteps s) (accept_step s) (ext s).
Definition set_cfl (c : Q) (s : solver) : solver :=
  mkSolver (dt s) (dt_old s) (dt_max s) (dt_variable s) (cfl_desired s) (cfl_max s) c
    (max_steps s) (st_cflmax s) (st_dtmin s) (st_dtmax s) (st_numsteps s) (accept_step s) (ext s).
Definition set_max_steps (m : Z) (s : solver) : solver :=
  mkSolver (dt s) (dt_old s) (dt_max s) (dt_variable s) (cfl_desired s) (cfl_max s) (cfl s)
    m (st_cflmax s) (st_dtmin s) (st_dtmax s) (st_numsteps s) (accept_step s) (ext s).
Definition set_st_cflmax (c : option Q) (s : solver) : solver :=
  mkSolver (dt s) (dt_old s) (dt_max s) (dt_variable s) (cfl_desired s) (cfl_max s) (cfl s)
    (max_steps s) c (st_dtmin s) (st_dtmax s) (st_numsteps s) (accept_step s) (ext s).
Definition set_st_dt (lo hi : option Q) (s : solver) : solver :=
  mkSolver (dt s) (dt_old s) (dt_max s) (dt_variable s) (cfl_desired s) (cfl_max s) (cfl s)
    (max_steps s) (st_cflmax s) lo hi (st_numsteps s) (accept_step s) (ext s).
Definition set_numsteps (n : Z) (s : solver) : solver :=
  mkSolver (dt s) (dt_old s) (dt_max s) (dt_variable s) (cfl_desired s) (cfl_max s) (cfl s)
    (max_steps s) (st_cflmax s) (st_dtmin s) (st_dtmax s) n (accept_step s) (ext s).
Definition set_accept_step (b : bool) (s : solver) : solver :=
  mkSolver (dt s) (dt_old s) (dt_max s) (dt_variable s) (cfl_desired s) (cfl_max s) (cfl s)
    (max_steps s) (st_cflmax s) (st_dtmin s) (st_dtmax s) (st_numsteps s) b (ext s).
Definition set_ext (e : E) (s : solver) : solver :=
  mkSolver (dt s) (dt_old s) (dt_max s) (dt_variable s) (cfl_desired s) (cfl_max s) (cfl s)
    (max_steps s) (st_cflmax s) (st_dtmin s) (st_dtmax s) (st_numsteps s) (accept_step s) e.

(** [min(x, inf)] / [max(x, -inf)] with [None] as the infinity. *)
Definition omin (x : Q) (o : option Q) : option Q :=
  Some (match o with None => x | Some y => pymin x y end).
Definition omax (x : Q) (o : option Q) : option Q :=
  Some (match o with None => x | Some y => pymax x y end).

(** Exceptions raised by evolve_to_time. *)
Inductive err :=
| EDtNotDivide        (* solver.py:593 'dt does not divide (tend-tstart) and dt is fixed!' *)
| EZeroDivision       (* solver.py:590, dt = 0 with a fixed time step *)
| ECflDesired         (* solver.py:596 'Variable time-stepping and desired CFL > maximum CFL' *)
| ECflTooLarge        (* solver.py:651 'CFL too large, giving up!' *)
| EMaxSteps.          (* solver.py:664 'Maximum number of timesteps have been taken' *)

(** solver.py:524-529 Solver.accept_reject_step *)
Definition accept_reject_step (s : solver) : bool :=
  if qltb (cfl_max s) (cfl s) then false else true.

(** solver.py:531-533 Solver.get_dt_new (called only when cfl > 0) *)
Definition get_dt_new (s : solver) : solver :=
  set_dt (pymin (dt_max s) (Qred (dt s * cfl_desired s / cfl s))) s.

(** solver.py:551 the constant 1.e-14 (as the decimal, not its binary64 rounding) *)
Definition eps14 : Q := 1 # 100000000000000.

(** solver.py:538-545, first half of Solver.get_dt, parametric in the get_dt_new override. *)
Definition get_dt_choose (new : solver -> solver) (s : solver) : solver :=
  if (dt_variable s && match dt_old s with Some _ => true | None => false end)%bool then
    if qltb 0 (cfl s) then
      let s1 := new s in
      set_st_dt (omin (dt s1) (st_dtmin s1)) (omax (dt s1) (st_dtmax s1)) s1
    else set_dt (dt_max s) s
  else set_dt_old (Some (dt s)) s.

(** solver.py:547-552, second half of Solver.get_dt ([tend = None] is take_one_step). *)
Definition get_dt_clip (t tstart : Q) (tend : option Q) (s : solver) : solver :=
  match tend with
  | None => s
  | Some te =>
      let s1 := if (qltb te (t + dt s) && qltb tstart te)%bool
                then set_dt (Qred (te - t)) s else s in
      if qltb (te - t - dt s1) (eps14 * t) then set_dt (Qred (te - t)) s1 else s1
  end.

(** solver.py:535-552 Solver.get_dt *)
Definition get_dt (new : solver -> solver) (t tstart : Q) (tend : option Q) (s : solver) : solver :=
  get_dt_clip t tstart tend (get_dt_choose new s).

(** What happened in one pass of the loop solver.py:605-657 (history variable, not in the source):
    the step size used, the Courant number, and the solution before and after. *)
Record event := mkEvent {
  ev_accepted : bool; ev_dt : Q; ev_cfl : Q; ev_before : sol; ev_after : sol }.

(** Result of evolve_to_time: the (mutated) solver and solution, the history, and the exception
    raised, if any.  Mutations made before an exception persist, as in Python. *)
Record result := mkResult {
  r_solver : solver; r_sol : sol; r_trace : list event; r_err : option err }.

(** The solver class: [stepf] is solver.step, [acceptf] is solver.accept_reject_step,
    [before] is solver.before_step: the new q and the new rest (unchanged when unset). *)
Variable stepf : Q -> option Q -> solver -> sol -> solver * sol.   (* tstart tend *)
Variable acceptf : solver -> bool.
Variable before : sol -> DQ * DX.

(** One pass of the loop body, solver.py:605-651.  Returns the new solver, solution, the event and
    the exception raised. [n] is the loop counter. *)
Definition attempt (tstart : Q) (tend : option Q) (n : Z) (s : solver) (so : sol)
  : solver * sol * event * option err :=
  (* 609-612 backup of q and t (only used when dt_variable) *)
  let q_backup := sq so in
  let told := st so in
  (* 614-618 before_step and step *)
  let so1 := mkSol (fst (before so)) (snd (before so)) (st so) in
  let '(s1, so2) := stepf tstart tend s so1 in
  (* 621-622 *)
  let c := cfl s1 in
  let s2 := set_accept_step (acceptf s1) s1 in
  if acceptf s1 then
    (* 623-639 accept *)
    let s3 := set_st_cflmax (omax c (st_cflmax s2)) s2 in
    let t' := Qred (if dt_variable s3 then st so2 + dt s3
                    else tstart + inject_Z (n + 1) * dt s3) in
    let so3 := mkSol (sq so2) (sx so2) t' in
    let s4 := set_numsteps (st_numsteps s3 + 1) s3 in
    (s4, so3, mkEvent true (dt s4) c so so3, None)
  else
    (* 641-651 reject *)
    if dt_variable s2 then
      let so3 := mkSol q_backup (sx so2) told in
      (s2, so3, mkEvent false (dt s2) c so so3, None)
    else
      let s3 := set_st_cflmax (omax c (st_cflmax s2)) s2 in
      (s3, so2, mkEvent false (dt s3) c so so2, Some ECflTooLarge).

(** solver.py:653-657: leave the loop? *)
Definition finished (tend : option Q) (so : sol) : bool :=
  match tend with None => true | Some te => qleb te (st so) end.

(** solver.py:605-657 [for n in range(max_steps)].  [k] iterations remain, [n] is the counter,
    [num] is num_steps.  The trace is newest first. *)
Fixpoint evolve_loop (k : nat) (n : Z) (tstart : Q) (tend : option Q)
    (s : solver) (so : sol) (num : Z) (tr : list event)
  : solver * sol * Z * list event * option err :=
  match k with
  | O => (s, so, num, tr, None)
  | S k' =>
      let '(s', so', ev, e) := attempt tstart tend n s so in
      let num' := if ev_accepted ev then (num + 1)%Z else num in
      match e with
      | Some e => (s', so', num', ev :: tr, Some e)
      | None =>
          if finished tend so' then (s', so', num', ev :: tr, None)
          else evolve_loop k' (n + 1) tstart tend s' so' num' (ev :: tr)
      end
  end.

Definition tol10 : Q := 1 # 10000000000.   (* 1e-10, solver.py:590 *)
Definition tol5 : Q := 1 # 100000.         (* 1e-5, solver.py:592 *)

(** solver.py:585-602: set-up of max_steps and the argument checks. *)
Definition evolve_setup (tstart : Q) (tend : option Q) (s : solver) : solver * option err :=
  let '(s1, e1) :=
    if dt_variable s then (s, None)
    else match tend with
         | None => (set_max_steps 1 s, None)
         | Some te =>
             if qeqb (dt s) 0 then (s, Some EZeroDivision) else
             let m := qtrunc ((te - tstart + tol10) / dt s) in
             let s1 := set_max_steps m s in
             if qltb (tol5 * (te - tstart)) (Qabs (inject_Z m * dt s - (te - tstart)))
             then (s1, Some EDtNotDivide) else (s1, None)
         end in
  match e1 with
  | Some e => (s1, Some e)
  | None =>
      if (dt_variable s1 && qltb (cfl_max s1) (cfl_desired s1))%bool then (s1, Some ECflDesired)
      else match tend with
           | Some te => if qleb te tstart then (set_max_steps 0 s1, None) else (s1, None)
           | None => (s1, None)
           end
  end.

(** solver.py:554-666 Solver.evolve_to_time ([tend = None] takes a single step). *)
Definition evolve_to_time (s : solver) (so : sol) (tend : option Q) : result :=
  let tstart := st so in
  let '(s1, e1) := evolve_setup tstart tend s in
  match e1 with
  | Some e => mkResult s1 so [] (Some e)
  | None =>
      let '(s2, so2, num, tr, e2) :=
        evolve_loop (Z.to_nat (max_steps s1)) 0 tstart tend s1 so 0 [] in
      match e2 with
      | Some e => mkResult s2 so2 (rev tr) (Some e)
      | None =>
          (* 661-664 *)
          let too_many :=
            match tend with
            | None => false
            | Some te => (dt_variable s2 && qltb (st so2) te && Z.eqb num (max_steps s2))%bool
            end in
          mkResult s2 so2 (rev tr) (if too_many then Some EMaxSteps else None)
      end
  end.

End Time.

Arguments mkSolver {E}. Arguments mkSol {DQ DX}. Arguments mkEvent {DQ DX}.
Arguments mkResult {DQ DX E}.
Arguments dt {E}. Arguments dt_old {E}. Arguments dt_max {E}. Arguments dt_variable {E}.
Arguments cfl_desired {E}. Arguments cfl_max {E}. Arguments cfl {E}. Arguments max_steps {E}.
Arguments st_cflmax {E}. Arguments st_dtmin {E}. Arguments st_dtmax {E}.
Arguments st_numsteps {E}. Arguments accept_step {E}. Arguments ext {E}.
Arguments sq {DQ DX}. Arguments sx {DQ DX}. Arguments st {DQ DX}.
Arguments ev_accepted {DQ DX}. Arguments ev_dt {DQ DX}. Arguments ev_cfl {DQ DX}.
Arguments ev_before {DQ DX}. Arguments ev_after {DQ DX}.
Arguments r_solver {DQ DX E}. Arguments r_sol {DQ DX E}. Arguments r_trace {DQ DX E}.
Arguments r_err {DQ DX E}.
Arguments set_dt {E}. Arguments set_dt_old {E}. Arguments set_cfl {E}.
Arguments set_max_steps {E}. Arguments set_st_cflmax {E}. Arguments set_st_dt {E}.
Arguments set_numsteps {E}. Arguments set_accept_step {E}. Arguments set_ext {E}.
Arguments accept_reject_step {E}. Arguments get_dt_new {E}. Arguments get_dt_choose {E}.
Arguments get_dt_clip {E}. Arguments get_dt {E}.
Arguments attempt {DQ DX E}. Arguments evolve_loop {DQ DX E}.
Arguments evolve_setup {E}. Arguments evolve_to_time {DQ DX E}. Arguments finished {DQ DX}.

(** ** Classic solver step: classic/solver.py:96-146 ClawSolver.step *)
Section Classic.
Variable DQ DX E : Type.
(** step_source(solver,state,dt): None when unset.  Arguments: dt, current t. *)
Variable source : option (Q -> sol DQ DX -> DQ * DX).
(** step_hyperbolic: dt and the solution give the new q, the new rest and the Courant number that
    is passed to cfl.update_global_max. *)
Variable hyper : Q -> sol DQ DX -> DQ * DX * Q.
Variable source_split : Z.

Definition with_data (so : sol DQ DX) (d : DQ * DX) : sol DQ DX := mkSol (fst d) (snd d) (st so).

Definition classic_step (tstart : Q) (tend : option Q) (s : solver E) (so : sol DQ DX)
  : solver E * sol DQ DX :=
  (* 120-121 *)
  let s1 := set_cfl 0 (get_dt get_dt_new (st so) tstart tend s) in
  (* 123-124 *)
  let so1 := match source with
             | Some src => if Z.eqb source_split 2 then with_data so (src (Qred (dt s1 / 2)) so) else so
             | None => so
             end in
  (* 126, and update_global_max: max(0,cfl) *)
  let '(q2, x2, c) := hyper (dt s1) so1 in
  let so2 := mkSol q2 x2 (st so1) in
  let s2 := set_cfl (pymax (cfl s1) c) s1 in
  (* 131-132: return False *)
  if qleb (cfl_max s2) (cfl s2) then (s2, so2)
  else
    (* 134-144 *)
    match source with
    | None => (s2, so2)
    | Some src =>
        if Z.eqb source_split 2 then (s2, with_data so2 (src (Qred (dt s2 / 2)) so2))
        else if Z.eqb source_split 1 then (s2, with_data so2 (src (dt s2) so2))
        else (s2, so2)
    end.

(** A classic solver run (accept_reject_step is the base-class one). *)
Definition classic_evolve (before : sol DQ DX -> DQ * DX) (s : solver E) (so : sol DQ DX)
    (tend : option Q) : result DQ DX E :=
  evolve_to_time classic_step accept_reject_step before s so tend.

End Classic.
Arguments with_data {DQ DX}. Arguments classic_step {DQ DX E}. Arguments classic_evolve {DQ DX E}.

(** ** SharpClaw step with a Runge-Kutta integrator: sharpclaw/solver.py:283-388 (the LMM branches
    are modelled separately).  The only class-specific attribute that survives between steps is
    [dq_dt]. *)
Section Sharp.
Variable DQ DX : Type.
(** [dq(state)/dt] evaluated at the current solution with the current dt (line 293): the slope, the
    other data afterwards, and the Courant number it reports. *)
Variable slope : Q -> sol DQ DX -> DQ * DX * Q.
(** Lines 308-348: the Runge-Kutta stages with step dt and first slope dq_dt; returns q, the other
    data, and the largest Courant number reported by the stages. *)
Variable stages : Q -> DQ -> sol DQ DX -> DQ * DX * Q.

(** sharpclaw/solver.py:653-685 get_dt_new, Runge-Kutta branch *)
Definition sharp_get_dt_new (s : solver DQ) : solver DQ :=
  set_dt (Qred (dt s * cfl_desired s / cfl s)) (set_dt_old (Some (dt s)) s).

(** dt_old as a number; sharpclaw/solver.py:302 divides by it (it is set by then). *)
Definition dt_old_val (s : solver DQ) : Q := match dt_old s with Some d => d | None => 1 end.

Definition sharp_step (tstart : Q) (tend : option Q) (s : solver DQ) (so : sol DQ DX)
  : solver DQ * sol DQ DX :=
  (* 291-293 *)
  let '(s1, so1) :=
    if accept_step s then
      let '(k, x1, c) := slope (dt s) so in
      (set_ext k (set_cfl (pymax 0 c) s), mkSol (sq so) x1 (st so))
    else (s, so) in
  (* 298 *)
  let s2 := get_dt sharp_get_dt_new (st so1) tstart tend s1 in
  (* 301-303 *)
  let s3 := set_dt_old (Some (dt s2)) (set_cfl (dt s2 / dt_old_val s2 * cfl s2) s2) in
  (* 306-348 *)
  let '(q', x', c') := stages (dt s3) (ext s3) so1 in
  (set_cfl (pymax (cfl s3) c') s3, mkSol q' x' (st so1)).

(** A SharpClaw Runge-Kutta run; sharpclaw/solver.py:622-650 accept_reject_step is the base test for
    Runge-Kutta methods. *)
Definition sharp_evolve (before : sol DQ DX -> DQ * DX) (s : solver DQ) (so : sol DQ DX)
    (tend : option Q) : result DQ DX DQ :=
  evolve_to_time sharp_step accept_reject_step before s so tend.
End Sharp.
Arguments sharp_get_dt_new {DQ}. Arguments dt_old_val {DQ}.
Arguments sharp_step {DQ DX}. Arguments sharp_evolve {DQ DX}.
