(** Model of parallel runs (PetClaw): src/petclaw/state.py (get_qbc_from_q, get_auxbc_from_aux through a
    periodic PETSc DA), src/petclaw/geometry.py (boundary flags of the local grids), src/petclaw/cfl.py, and
    src/pyclaw/solver.py _apply_bcs on each process.

    PETSc enters through its contract: the cells are cut into one box per process, globalToLocal fills the
    ghost cells of a process with the values of the cells that hold these positions on the periodically
    continued grid, and Vec.max is the maximum over the processes. *)
From Verif Require Import Base TimeModel BCModel LimiterModel Classic1DModel.

(** Position on the periodic continuation of n cells (petclaw/state.py:186-221: the DA is always periodic). *)
Definition wrap (n i : Z) : Z := Z.modulo i n.

(** petclaw/state.py:223-231 get_qbc_from_q (233-241 get_auxbc_from_aux): the local array with ng ghost cells of
    the process whose box starts at cell [os]; [ns] are the global numbers of cells. *)
Definition global_to_local {V} (g : Z) (ns os : list Z) (q : arr V) : arr V :=
  fun c ix => q c (map (fun p => wrap (fst (fst p)) (snd (fst p) + snd p - g)) (combine (combine ns os) ix)).

(** petclaw/geometry.py:23-41: the local dimension of the process that holds cells lo .. hi-1 *)
Definition local_bc (D : dimbc) (b : Z * Z) : dimbc :=
  mkDim (snd b - fst b) (q_lo D) (q_hi D) (a_lo D) (a_hi D) (Z.eqb (fst b) 0) (Z.eqb (snd b) (ncells D)) (reflect D).
Definition local_bcs (Ds : list dimbc) (bs : list (Z * Z)) : list dimbc :=
  map (fun p => local_bc (fst p) (snd p)) (combine Ds bs).

(** pyclaw/solver.py:351-437 _apply_bcs on the process with box [bs] (one interval per dimension); petclaw's
    get_qbc_from_q discards the previous contents. *)
Definition par_apply_bcs {V} (opp : V -> V) (ng : nat) (has_aux : bool) (F : userfuns V) (neq : Z) (Ds : list dimbc)
    (bs : list (Z * Z)) (q aux auxbc0 : arr V) : outcome (arr V * arr V) :=
  let g2l := global_to_local (Z.of_nat ng) (map ncells Ds) (map fst bs) in
  apply_dims V opp ng has_aux F neq 0 (local_bcs Ds bs) (g2l q, if has_aux then g2l aux else auxbc0).

(** ** 1D classic solver *)
(** The settings of the solver on one process: only the grid differs (the local cell width is the global
    one, C46). *)
Definition with_bc (C : settings) (D : dimbc) : settings :=
  mkSet (c_neq C) (c_nw C) (c_naux C) (c_ng C) (c_fwave C) (c_order C) (c_mthlim C) (c_rp C) (c_dx C) (c_dt C)
    (c_capa C) D (c_funs C).

(** classic/solver.py:279-387 step_hyperbolic on the process that holds cells lo .. hi-1 *)
Definition local_step (pow : Q -> Q -> Q) (undef : Q -> Q -> Z -> Q) (L : lang) (C : settings)
    (q aux auxbc0 : arr Q) (b : Z * Z) : stepresult :=
  match par_apply_bcs Qopp (c_ng C) (Nat.ltb 0 (c_naux C)) (c_funs C) (Z.of_nat (c_neq C)) [c_bc C] [b] q aux auxbc0 with
  | Raised e => BCError e
  | Ok (qbc, auxbc) =>
      match kernel pow undef L (with_bc C (local_bc (c_bc C) b)) (fun m i => qbc m [i]) (fun m i => auxbc m [i]) with
      | None => Stopped
      | Some (q', cfl) => Stepped (fun m i => q' m (i + Z.of_nat (c_ng C))%Z) cfl
      end
  end.

(** One hyperbolic step of all processes: cell i of the new global array is computed by the process that holds
    it; petclaw/cfl.py:34-36: the result of the reduction is the maximum of the local Courant numbers.  The step fails
    if it fails on some process. *)
Fixpoint par_collect (rs : list ((Z * Z) * stepresult)) : stepresult :=
  match rs with
  | [] => Stepped (fun _ _ => 0) 0
  | (b, Stepped a c) :: l =>
      match par_collect l with
      | Stepped a' c' => Stepped (fun m i => if in_slice (fst b) (snd b) i then a m (i - fst b)%Z else a' m i) (pymax c c')
      | e => e
      end
  | (_, e) :: _ => e
  end.
Definition par_step (pow : Q -> Q -> Q) (undef : Q -> Q -> Z -> Q) (L : lang) (C : settings)
    (bs : list (Z * Z)) (q aux auxbc0 : arr Q) : stepresult :=
  par_collect (map (fun b => (b, local_step pow undef L C q aux auxbc0 b)) bs).

(** ** Whole runs *)
(** The settings of a step of length [dt] (classic/solver.py:311 uses self.dt). *)
Definition with_dt (C : settings) (dt : Q) : settings :=
  mkSet (c_neq C) (c_nw C) (c_naux C) (c_ng C) (c_fwave C) (c_order C) (c_mthlim C) (c_rp C) (c_dx C) dt
    (c_capa C) (c_bc C) (c_funs C).

(** The data of a run: q ([None] once the program has stopped), aux, and everything else the callbacks see. *)
Notation run_sol X := (sol (option (arr Q)) (arr Q * X)).
Definition of_line (q : Z -> Z -> Q) : arr Q := fun m ix => q m (hd 0%Z ix).

(** step_hyperbolic as the time loop sees it: [stepper] takes the step of length dt on q and aux. *)
Definition hyper_of {X} (stepper : Q -> arr Q -> arr Q -> stepresult) (dt : Q) (so : run_sol X)
  : option (arr Q) * (arr Q * X) * Q :=
  match sq so with
  | None => (None, sx so, 0)
  | Some q =>
      match stepper dt q (fst (sx so)) with
      | Stepped q' c => (Some (of_line q'), sx so, c)
      | _ => (None, sx so, 0)
      end
  end.
(** A callback (before_step, step_source) is not called after the program has stopped. *)
Definition callback {X} (f : Q -> arr Q -> arr Q * X -> arr Q * (arr Q * X)) (so : run_sol X) : option (arr Q) * (arr Q * X) :=
  match sq so with
  | None => (None, sx so)
  | Some q => let r := f (st so) q (sx so) in (Some (fst r), snd r)
  end.

(** classic_evolve with the serial step; [left] is whatever earlier steps left in the ghosted arrays. *)
Definition serial_run {X E} (pow : Q -> Q -> Q) (undef : Q -> Q -> Z -> Q) (L : lang) (C : settings)
    (left : Q -> arr Q -> arr Q -> arr Q * arr Q)
    (source : option (Q -> Q -> arr Q -> arr Q * X -> arr Q * (arr Q * X))) (source_split : Z)
    (before : Q -> arr Q -> arr Q * X -> arr Q * (arr Q * X)) (s : solver E) (so : run_sol X) (tend : option Q) :=
  classic_evolve (option_map (fun f dt => callback (f dt)) source)
    (hyper_of (fun dt q aux => step_hyperbolic pow undef L (with_dt C dt) q aux (fst (left dt q aux)) (snd (left dt q aux))))
    source_split (callback before) s so tend.
(** The same with the processes that hold the boxes [bs]; the callbacks act on all of them. *)
Definition par_run {X E} (pow : Q -> Q -> Q) (undef : Q -> Q -> Z -> Q) (L : lang) (C : settings) (bs : list (Z * Z))
    (left : Q -> arr Q -> arr Q -> arr Q)
    (source : option (Q -> Q -> arr Q -> arr Q * X -> arr Q * (arr Q * X))) (source_split : Z)
    (before : Q -> arr Q -> arr Q * X -> arr Q * (arr Q * X)) (s : solver E) (so : run_sol X) (tend : option Q) :=
  classic_evolve (option_map (fun f dt => callback (f dt)) source)
    (hyper_of (fun dt q aux => par_step pow undef L (with_dt C dt) bs q aux (left dt q aux)))
    source_split (callback before) s so tend.
