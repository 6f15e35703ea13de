(** Parallel runs (PetClaw) of the classic solvers in two and three dimensions: src/petclaw/state.py,
    src/petclaw/geometry.py, src/petclaw/cfl.py and src/petclaw/classic/solver.py on top of the kernels of SweepModel.v,
    UnsplitModel.v and Unsplit3Model.v.  The contract of PETSc is that of ParallelModel.v. *)
From Verif Require Import Base TimeModel BCModel LimiterModel Classic1DModel SweepModel UnsplitModel Unsplit3Model ParallelModel RunModel.

(** The solver on the process with box [bs] (one interval of cells per dimension): only the grid differs
    (petclaw/geometry.py:23-41). *)
Definition mlocal (S : msettings) (bs : list (Z * Z)) : msettings :=
  mkMSet (n_neq S) (n_nw S) (n_naux S) (n_ng S) (n_fwave S) (n_order S) (n_mthlim S) (n_rpn S) (n_rpt S) (n_delta S) (n_dt S)
    (n_capa S) (local_bcs (n_bcs S) bs) (n_funs S).

(** The kernels: new ghosted q and Courant number from ghosted aux and q. *)
Notation mkernel := (msettings -> arr Q -> arr Q -> arr Q * Q).
Definition split_kernel (undef : Q -> Q -> Z -> Q) : mkernel := fun S auxbc qbc => split_sweeps undef S auxbc qbc.
Definition unsplit_kernel (undef : Q -> Q -> Z -> Q) (trans : Z) : mkernel := fun S auxbc qbc => step2 undef S trans auxbc qbc qbc.
Definition unsplit3_kernel (undef : Q -> Q -> Z -> Q) (rpt : nat -> rpt3solver) (rptt : nat -> rptt3solver)
    (stale : nat -> list Z -> leftovers) (trans : Z) : mkernel :=
  fun S auxbc qbc => step3 undef S rpt rptt stale trans auxbc qbc qbc.

(** classic/solver.py:497-549, 648-706 step_hyperbolic on one process *)
Definition mserial_step (K : mkernel) (S : msettings) (q aux qbc0 auxbc0 : arr Q) : mresult :=
  match apply_bcs Q Qopp (n_ng S) (Nat.ltb 0 (n_naux S)) (n_funs S) (Z.of_nat (n_neq S)) (n_bcs S) q aux qbc0 auxbc0 with
  | Raised e => MBCError e
  | Ok (qbc, auxbc) => let r := K S auxbc qbc in MStepped (set_q_from_qbc Q (n_ng S) (fst r)) (snd r)
  end.
(** ... and on the process with box [bs] of several *)
Definition mlocal_step (K : mkernel) (S : msettings) (q aux auxbc0 : arr Q) (bs : list (Z * Z)) : mresult :=
  match par_apply_bcs Qopp (n_ng S) (Nat.ltb 0 (n_naux S)) (n_funs S) (Z.of_nat (n_neq S)) (n_bcs S) bs q aux auxbc0 with
  | Raised e => MBCError e
  | Ok (qbc, auxbc) => let r := K (mlocal S bs) auxbc qbc in MStepped (set_q_from_qbc Q (n_ng S) (fst r)) (snd r)
  end.

(** Does the box hold the cell, and where *)
Fixpoint holds (bs : list (Z * Z)) (ix : list Z) : bool :=
  match bs, ix with
  | [], [] => true
  | b :: bs, i :: ix => (in_slice (fst b) (snd b) i && holds bs ix)%bool
  | _, _ => false
  end.
Definition relative (bs : list (Z * Z)) (ix : list Z) : list Z := map (fun p => (snd p - fst (fst p))%Z) (combine bs ix).
(** One hyperbolic step of all processes: each cell is computed by the process that holds it; petclaw/cfl.py:34-36: the
    Courant number is the maximum over the processes. *)
Fixpoint mcollect (rs : list (list (Z * Z) * mresult)) : mresult :=
  match rs with
  | [] => MStepped (fun _ _ => 0) 0
  | (b, MStepped a c) :: l =>
      match mcollect l with
      | MStepped a' c' => MStepped (fun m ix => if holds b ix then a m (relative b ix) else a' m ix) (pymax c c')
      | e => e
      end
  | (_, e) :: _ => e
  end.
Definition mpar_step (K : mkernel) (S : msettings) (boxes : list (list (Z * Z))) (q aux auxbc0 : arr Q) : mresult :=
  mcollect (map (fun b => (b, mlocal_step K S q aux auxbc0 b)) boxes).

(** ** Whole runs *)
(** step_hyperbolic as the time loop sees it; q is [None] once the program has stopped. *)
Definition mhyper_of {X} (stepper : Q -> arr Q -> arr Q -> mresult) (dt : Q) (so : run_sol X)
  : option (arr Q) * (arr Q * X) * Q :=
  match sq so with
  | None => (None, sx so, 0)
  | Some q =>
      match stepper dt q (fst (sx so)) with
      | MStepped q' c => (Some q', sx so, c)
      | MBCError _ => (None, sx so, 0)
      end
  end.
(** classic_evolve with the serial step and with the processes that hold the boxes; [left] is whatever earlier steps
    left in the ghosted arrays. *)
Definition mserial_run {X E} (K : mkernel) (S : msettings) (left : Q -> arr Q -> arr Q -> arr Q * arr Q)
    (source : option (Q -> Q -> arr Q -> arr Q * X -> arr Q * (arr Q * X))) (source_split : Z)
    (before : Q -> arr Q -> arr Q * X -> arr Q * (arr Q * X)) (s : solver E) (so : run_sol X) (tend : option Q) :=
  classic_evolve (option_map (fun f dt => callback (f dt)) source)
    (mhyper_of (fun dt q aux => mserial_step K (with_mdt S dt) q aux (fst (left dt q aux)) (snd (left dt q aux))))
    source_split (callback before) s so tend.
Definition mpar_run {X E} (K : mkernel) (S : msettings) (boxes : list (list (Z * Z))) (left : Q -> arr Q -> arr Q -> arr Q)
    (source : option (Q -> Q -> arr Q -> arr Q * X -> arr Q * (arr Q * X))) (source_split : Z)
    (before : Q -> arr Q -> arr Q * X -> arr Q * (arr Q * X)) (s : solver E) (so : run_sol X) (tend : option Q) :=
  classic_evolve (option_map (fun f dt => callback (f dt)) source)
    (mhyper_of (fun dt q aux => mpar_step K (with_mdt S dt) boxes q aux (left dt q aux)))
    source_split (callback before) s so tend.
