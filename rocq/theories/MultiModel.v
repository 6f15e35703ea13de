(** Model of SharpClaw's multistep methods inside the time loop: src/pyclaw/sharpclaw/solver.py step (the
    branches for 'SSPLMMk2', 'SSPLMMk3' and 'LMM'), update_saved_values, check_3rd_ord_cond,
    accept_reject_step and get_dt_new.  The loop itself is evolve_to_time of TimeModel.v.

    Simplifications: the registers keep q and t only.  [dq(state)] is [dt * f(t, q)] and reports the Courant
    number [dt * speed(t, q)]; it does not change aux.  [hook] is before_step, called on the stages of the
    starting method when call_before_step_each_stage is set (the identity otherwise).  A Courant number 0,
    for which line 447 divides by zero, gives dtFE = 0 here.  The IndexError of 'LMM' when lmm_steps exceeds
    len(alpha)+1 is modelled in [lmm] (SharpModel.v) but not here: the solution is then left unchanged. *)
From Verif Require Import Base TimeModel SharpModel.

Section Multi.
Variable Idx DX : Type.
Notation V := (Idx -> Q).
Variable f : Q -> V -> V.
Variable speed : Q -> V -> Q.
Variable hook : Q -> V -> V.

(** Settings that do not change during a run: time_integrator, lmm_steps, check_lmm_cond, alpha, beta and the
    number of registers. *)
Variable I : integrator.
Variable lmm_steps : Z.
Variable check : bool.
Variable alpha beta : list Q.

(** The class-specific attributes that survive between steps. *)
Record hist := mkHist {
  h_regs : list (V * Q);              (* _registers: q and t *)
  h_fs : list V;                      (* prev_dq_dt_values *)
  h_dts : list Q;                     (* prev_dt_values *)
  h_dtFEs : list Q;                   (* prev_dtFE_values *)
  h_dqdt : V;                         (* dq_dt *)
  h_lmm_cond : bool }.                (* lmm_cond *)

(** [l[1:] + l[:1]] with the last entry then set to x *)
Definition roll {A} (l : list A) (x : A) : list A := tl l ++ [x].
(** [l[-1] = x] in place *)
Definition set_last {A} (l : list A) (x : A) : list A := removelast l ++ [x].

Definition is_ssp : bool := match I with SSPLMMk2 | SSPLMMk3 => true | _ => false end.
Definition is_k3 : bool := match I with SSPLMMk3 => true | _ => false end.
(** sharpclaw/solver.py:226,236 self.sspcoeff *)
Definition sspcoeff : Q :=
  match I with
  | SSPLMMk2 => inject_Z (lmm_steps - 2) / inject_Z (lmm_steps - 1)
  | SSPLMMk3 => inject_Z (lmm_steps - 3) / inject_Z (lmm_steps - 1)
  | _ => 1
  end.
(** sspcoeff0/sspcoeff with sspcoeff0 = _sspcoeff['SSP22'] = 1; 1 for 'LMM' (line 637) *)
Definition ratio : Q := if is_ssp then 1 / sspcoeff else 1.

(** sharpclaw/solver.py:495-516 check_3rd_ord_cond *)
Definition check_3rd_ord_cond (nregs step_index : Z) (dt dtFE last_dtFE : Q) : bool :=
  let rho := if Z.eqb nregs 4 then 6 # 10 else 57 # 100 in
  let rhoFE := if Z.eqb nregs 4 then 9 # 10 else 962 # 1000 in
  negb ((Z.leb step_index nregs && qltb (rho * dtFE) dt)
        || qltb dtFE (rhoFE * last_dtFE) || qltb (last_dtFE / rhoFE) dtFE)%bool.

Notation solver := (solver hist).
Notation sol := (sol V DX).

(** sharpclaw/solver.py:447,453 *)
Definition dtFE_now (s : solver) : Q := dt s / cfl s * cfl_max s / sspcoeff.

(** sharpclaw/solver.py:433-492 update_saved_values *)
Definition update_saved_values (s : solver) (so : sol) (step_index : Z) : solver * sol * Z :=
  let h := ext s in
  let nregs := Z.of_nat (length (h_regs h)) in
  let here := (sq so, st so) in
  match h_dts h with
  | [] =>
      (* 439-449 *)
      (set_ext (mkHist (set_last (h_regs h) here) (h_fs h ++ [h_dqdt h]) (h_dts h ++ [0])
                  (if is_ssp then h_dtFEs h ++ [dtFE_now s] else h_dtFEs h) (h_dqdt h) (h_lmm_cond h)) s,
       so, step_index)
  | _ =>
      if accept_step s then
        let cond := if (is_k3 && check)%bool
                    then check_3rd_ord_cond nregs step_index (dt s) (dtFE_now s) (last (h_dtFEs h) 0)
                    else h_lmm_cond h in
        if (is_k3 && check && negb cond)%bool then
          (* 457-463: the previous step is discarded *)
          let r := last (h_regs h) here in
          let s1 := set_numsteps (st_numsteps s - 1) (set_accept_step false
                      (set_ext (mkHist (h_regs h) (h_fs h) (h_dts h) (h_dtFEs h) (last (h_fs h) (h_dqdt h)) cond) s)) in
          (s1, mkSol (fst r) (sx so) (snd r), (st_numsteps s1 + 1)%Z)
        else
          (* 465-490; dt_old is set by the previous step *)
          let startup := Z.leb step_index nregs in
          let push {A} (l : list A) (x : A) := if startup then l ++ [x] else roll l x in
          let d := match dt_old s with Some d => d | None => 0 end in
          let fs := match I with SSPLMMk2 => h_fs h | _ => push (h_fs h) (h_dqdt h) end in
          let dts := if is_ssp then push (h_dts h) d else h_dts h in
          let dtFEs := if is_ssp then push (h_dtFEs h) (dtFE_now s) else h_dtFEs h in
          (set_ext (mkHist (roll (h_regs h) here) fs dts dtFEs (h_dqdt h) cond) s, so, step_index)
      else (s, so, step_index)
  end.

(** sharpclaw/solver.py:653-683 get_dt_new; line 685 for 'LMM' (not called when dt_variable is off) *)
Definition multi_get_dt_new (s : solver) : solver :=
  let h := ext s in
  let nregs := Z.of_nat (length (h_regs h)) in
  let s1 := set_dt_old (Some (dt s)) s in
  if is_ssp then
    if Z.ltb (st_numsteps s + 1) nregs then
      let d := ratio * dt s * cfl_desired s / cfl s in
      let rho := if Z.eqb nregs 4 then 6 # 10 else 57 # 100 in
      set_dt (Qred (if (is_k3 && check && negb (h_lmm_cond h))%bool then rho * d else d)) s1
    else if accept_step s then
      set_dt (Qred (ssplmm_dt (if is_k3 then 3 else 2) (h_dts h) (h_dtFEs h))) s1
    else if (is_k3 && check)%bool then set_dt (Qred ((1 # 2) * dt s)) s1
    else s1
  else set_dt (Qred (dt s * cfl_desired s / cfl s)) s1.

(** sharpclaw/solver.py:622-650 accept_reject_step *)
Definition multi_accept (s : solver) : bool :=
  if Z.ltb (st_numsteps s + 1) (Z.of_nat (length (h_regs (ext s)))) then
    negb (qltb (ratio * cfl_max s) (cfl s))
  else true.

(** Courant numbers reported by the second and later stages of the starting methods *)
Definition ssp22_speed (d : Q) (k0 : V) (t : Q) (q : V) : Q :=
  speed (t + d) (hook (t + d) (vadd q (vscale d k0))).
Definition ssp104_speed (d : Q) (k0 : V) (t : Q) (q : V) : Q :=
  let at_ (s : Q * V) := speed (fst s) (hook (fst s) (snd s)) in
  let fix go n (s : Q * V) := match n with
                              | O => (0, s)
                              | S n => let (c, s') := go n (ssp104_stage f hook d s) in (pymax (at_ s) c, s')
                              end in
  let '(c1, s1) := go 4%nat (t + d / 6, vadd q (vscale (d / 6) k0)) in
  let q' := vadd (vscale (1 / 25) q) (vscale (36 # 100) (snd s1)) in
  let '(c2, s2) := go 4%nat (t + d / 3, vadd (vscale 15 q') (vscale (-(5)) (snd s1))) in
  pymax c1 (pymax c2 (at_ s2)).

(** sharpclaw/solver.py:283-388 step, with a multistep integrator.  ssp22 (lines 391-397) uses register 0 as
    scratch space; ssp104 uses a copy. *)
Definition multi_step (tstart : Q) (tend : option Q) (s : solver) (so : sol) : solver * sol :=
  let step_index := (st_numsteps s + 1)%Z in
  (* 291-293 *)
  let s1 := if accept_step s
            then let h := ext s in
                 set_ext (mkHist (h_regs h) (h_fs h) (h_dts h) (h_dtFEs h) (f (st so) (sq so)) (h_lmm_cond h))
                   (set_cfl (pymax 0 (dt s * speed (st so) (sq so))) s)
            else s in
  (* 295-296 *)
  let '(s2, so2, step_index) := update_saved_values s1 so step_index in
  (* 298-303 *)
  let s3 := get_dt multi_get_dt_new (st so2) tstart tend s2 in
  let d_old := match dt_old s3 with Some d => d | None => 1 end in
  let s4 := set_dt_old (Some (dt s3)) (set_cfl (dt s3 / d_old * cfl s3) s3) in
  let h := ext s4 in
  let d := dt s4 in
  let q := sq so2 in
  let t := st so2 in
  let with_q q' := mkSol q' (sx so2) t in
  if is_ssp then
    if Z.ltb step_index lmm_steps then
      (* 353-355 *)
      let r := (hook (t + d) (vadd q (vscale d (h_dqdt h))), t + d) in
      let s5 := set_ext (mkHist (r :: tl (h_regs h)) (h_fs h) (h_dts h) (h_dtFEs h) (h_dqdt h) (h_lmm_cond h)) s4 in
      (set_cfl (pymax (cfl s5) (d * ssp22_speed d (h_dqdt h) t q)) s5,
       with_q (ssp22 f hook d (h_dqdt h) t q))
    else
      (* 357-375 *)
      let q' := match I with
                | SSPLMMk2 => ssplmm2 d lmm_steps (h_dts h) (map fst (h_regs h)) (h_dqdt h) q
                | _ => ssplmm3 d lmm_steps (h_dts h) (map fst (h_regs h)) (h_fs h) q
                end in
      (s4, with_q (match q' with Some q' => q' | None => q end))
  else
    (* 378-384 *)
    if Z.ltb step_index (Z.of_nat (length (h_regs h))) then
      (set_cfl (pymax (cfl s4) (d * ssp104_speed d (h_dqdt h) t q)) s4,
       with_q (ssp104 f hook d (h_dqdt h) t q))
    else
      (s4, with_q (match lmm d lmm_steps alpha beta (map fst (h_regs h)) (h_fs h) with
                   | Some q' => q' | None => q end)).

(** A run of the solver: solver.py:554-666 evolve_to_time for each time in the list (None takes one step),
    stopping at the first exception.  [before] is before_step, which may change everything but q (and not t). *)
Variable before : sol -> DX.
Definition multi_evolve (s : solver) (so : sol) (tend : option Q) : result V DX hist :=
  evolve_to_time multi_step multi_accept (fun so => (sq so, before so)) s so tend.
Fixpoint multi_runs (s : solver) (so : sol) (tends : list (option Q)) : solver * sol * list (event V DX) :=
  match tends with
  | [] => (s, so, [])
  | te :: l =>
      let r := multi_evolve s so te in
      match r_err r with
      | Some _ => (r_solver r, r_sol r, r_trace r)
      | None => let '(s', so', tr) := multi_runs (r_solver r) (r_sol r) l in (s', so', r_trace r ++ tr)
      end
  end.
End Multi.
Arguments mkHist {Idx}. Arguments h_regs {Idx}. Arguments h_fs {Idx}. Arguments h_dts {Idx}.
Arguments h_dtFEs {Idx}. Arguments h_dqdt {Idx}. Arguments h_lmm_cond {Idx}.
Arguments update_saved_values {Idx DX}. Arguments multi_get_dt_new {Idx}. Arguments multi_accept {Idx}.
Arguments ssp22_speed {Idx}. Arguments ssp104_speed {Idx}. Arguments multi_step {Idx DX}.
Arguments multi_evolve {Idx DX}. Arguments multi_runs {Idx DX}. Arguments dtFE_now {Idx}.
