(** The module arrays of the Fortran SharpClaw kernel over the life of solver objects:
    src/pyclaw/sharpclaw/ClawParams.f90, workspace.f90, reconstruct.f90 (allocation), solver.py
    (SharpClawSolver.setup, _set_fortran_parameters, __del__), flux1.f90 (which arrays are used).

    There is one set of module arrays for each number of space dimensions, whatever the number of solvers; the
    model is of one of them, and all solvers in it have that number of dimensions and Fortran kernels.
    Simplification: the extents of all arrays of a solver are represented by one number that stands for
    (maxnx, num_ghost, num_eqn, num_waves). *)
From Verif Require Import Base.
Local Open Scope nat_scope.

(** ClawParams.f90:8-13, workspace.f90:7-11, reconstruct.f90:7-9. The evl and evr of reconstruct.f90:10 are never
    allocated or used. *)
Inductive arr :=
| Xlower | Xupper | Dx | Mthlim
| Ql | Qr | Amdq | Apdq | Amdq2 | Apdq2 | Wave | Speed | Dtdx | Evl | Evr
| Uu | Dq1m | Dq | U | Hh | Gg | Uh.
Definition arr_eqb (a b : arr) : bool :=
  match a, b with
  | Xlower, Xlower | Xupper, Xupper | Dx, Dx | Mthlim, Mthlim
  | Ql, Ql | Qr, Qr | Amdq, Amdq | Apdq, Apdq | Amdq2, Amdq2 | Apdq2, Apdq2 | Wave, Wave | Speed, Speed
  | Dtdx, Dtdx | Evl, Evl | Evr, Evr
  | Uu, Uu | Dq1m, Dq1m | Dq, Dq | U, U | Hh, Hh | Gg, Gg | Uh, Uh => true
  | _, _ => false
  end.

(** Allocated arrays and their size *)
Definition mem := arr -> option Z.
Definition store (a : arr) (v : option Z) (m : mem) : mem := fun b => if arr_eqb a b then v else m b.

(** allocate and deallocate stop the program if the array is, or is not, allocated *)
Fixpoint allocate (n : Z) (l : list arr) (m : mem) : option mem :=
  match l with
  | [] => Some m
  | a :: r => match m a with Some _ => None | None => allocate n r (store a (Some n) m) end
  end.
Fixpoint deallocate (l : list arr) (m : mem) : option mem :=
  match l with
  | [] => Some m
  | a :: r => match m a with None => None | Some _ => deallocate r (store a None m) end
  end.

Definition params : list arr := [Xlower; Xupper; Dx; Mthlim].
(** ClawParams.f90:18-25 and 27-45 *)
Definition alloc_clawparams (n : Z) (m : mem) : option mem := allocate n params m.
Definition dealloc_clawparams (m : mem) : mem := fold_left (fun m a => store a None m) params m.

Definition work : list arr := [Ql; Qr; Amdq; Apdq; Amdq2; Apdq2; Wave; Speed; Dtdx].
(** workspace.f90:16-36 and 38-61 *)
Definition alloc_workspace (n char_decomp : Z) (m : mem) : option mem :=
  match allocate n work m with
  | Some m' => if (1 <? char_decomp)%Z then allocate n [Evl; Evr] m' else Some m'
  | None => None
  end.
Definition dealloc_workspace (char_decomp : Z) (m : mem) : option mem :=
  match m Ql with
  | Some _ =>
      match deallocate work m with
      | Some m' => if (1 <? char_decomp)%Z then deallocate [Evl; Evr] m' else Some m'
      | None => None
      end
  | None => Some m
  end.

(** reconstruct.f90:18-54 and 57-88: nothing is deallocated for lim_type 3 *)
Definition alloc_recon (n lim_type char_decomp : Z) (m : mem) : option mem :=
  match lim_type with
  | 1%Z => match char_decomp with
           | 1%Z => allocate n [Uu] m
           | 2%Z => allocate n [Dq; U; Hh] m
           | _ => Some m
           end
  | 2%Z => match char_decomp with
           | 0%Z => allocate n [Uu; Dq1m] m
           | 2%Z => allocate n [Dq; Uu; Hh] m
           | 3%Z => allocate n [Dq; Gg; U; Hh; Uh] m
           | _ => Some m
           end
  | 3%Z => allocate n [Uu; Dq1m] m
  | _ => Some m
  end.
Definition dealloc_recon (lim_type char_decomp : Z) (m : mem) : option mem :=
  match lim_type with
  | 1%Z => match char_decomp with
           | 1%Z => deallocate [Uu] m
           | 2%Z => deallocate [Dq; U; Hh] m
           | _ => Some m
           end
  | 2%Z => match char_decomp with
           | 0%Z => deallocate [Uu; Dq1m] m
           | 2%Z => deallocate [Dq; Uu; Hh] m
           | 3%Z => deallocate [Dq; Gg; U; Hh; Uh] m
           | _ => Some m
           end
  | _ => Some m
  end.

(** flux1.f90:57-192 and the routines it calls (reconstruct.f90): the arrays that an evaluation touches; None for
    options with which it stops the program. With lim_type 1 and any other char_decomp nothing is reconstructed. *)
Definition used_by_flux (lim_type char_decomp : Z) : option (list arr) :=
  let base := [Dx; Dtdx; Ql; Qr; Wave; Speed; Amdq; Apdq; Amdq2; Apdq2] in
  match lim_type with
  | 1%Z => match char_decomp with
           | 0%Z => Some (Mthlim :: base)
           | 1%Z => Some (Mthlim :: Uu :: base)
           | 2%Z => Some (Mthlim :: Evl :: Evr :: Dq :: U :: Hh :: base)
           | _ => Some base
           end
  | 2%Z => match char_decomp with
           | 0%Z => Some (Uu :: Dq1m :: base)
           | 1%Z => Some base
           | 2%Z => Some (Evl :: Evr :: Dq :: Uu :: Hh :: base)
           | 3%Z => Some (Evl :: Evr :: Dq :: Gg :: U :: Hh :: Uh :: base)
           | _ => None
           end
  | 3%Z => Some (Uu :: Dq1m :: base)
  | _ => None
  end.

(** solver objects: lim_type, char_decomp, sizes, _is_set_up, still referenced *)
Record solver := mkSolver { o_lim : Z; o_char : Z; o_size : Z; o_set_up : bool; o_alive : bool }.
(** clawparams.lim_type and char_decomp, the module arrays, and the evaluations so far: which solver, and the
    lim_type and char_decomp that the kernel used *)
Record session := mkSession {
  f_mem : mem; f_lim : Z; f_char : Z; f_solvers : list solver; f_log : list (nat * Z * Z) }.

Inductive op :=
| Create (lim_type char_decomp size : Z)
| SetOptions (s : nat) (lim_type char_decomp : Z)
| Setup (s : nat)                                   (* solver.setup(solution) *)
| Evolve (s : nat)                                  (* solver.evolve_to_time: at least one evaluation *)
| Delete (s : nat).                                 (* the last reference disappears: __del__ *)

Inductive trouble :=
| Allocated        (* allocate of an allocated array: the program stops *)
| NotAllocated     (* deallocate of an array that is not allocated, or use of it: the program stops *)
| WrongSize        (* the kernel reads and writes outside its arrays *)
| Stopped          (* flux1 executes STOP *)
| NoSuchSolver.
Inductive result := Ok (w : session) | Fail (e : trouble).

Definition set_solver (s : nat) (v : solver) (w : session) : session :=
  mkSession (f_mem w) (f_lim w) (f_char w) (firstn s (f_solvers w) ++ v :: skipn (S s) (f_solvers w)) (f_log w).
Definition alive (w : session) (s : nat) : option solver :=
  match nth_error (f_solvers w) s with
  | Some v => if o_alive v then Some v else None
  | None => None
  end.

(** solver.py:202-265 setup and 563-588 _set_fortran_parameters *)
Definition setup (s : nat) (w : session) : result :=
  match alive w s with
  | None => Fail NoSuchSolver
  | Some v =>
      match alloc_clawparams (o_size v) (f_mem w) with
      | None => Fail Allocated
      | Some m1 =>
          match alloc_workspace (o_size v) (o_char v) m1 with
          | None => Fail Allocated
          | Some m2 =>
              match alloc_recon (o_size v) (o_lim v) (o_char v) m2 with
              | None => Fail Allocated
              | Some m3 =>
                  Ok (set_solver s (mkSolver (o_lim v) (o_char v) (o_size v) true true)
                        (mkSession m3 (o_lim v) (o_char v) (f_solvers w) (f_log w)))
              end
          end
      end
  end.

(** solver.py:572-573 and one call of flux1 (solver.py:749-759) *)
Definition evaluate (s : nat) (v : solver) (w : session) : result :=
  match used_by_flux (f_lim w) (f_char w) with
  | None => Fail Stopped
  | Some l =>
      if existsb (fun a => match f_mem w a with None => true | Some _ => false end) l then Fail NotAllocated
      else if existsb (fun a => match f_mem w a with Some n => negb (n =? o_size v)%Z | None => true end) l
      then Fail WrongSize
      else Ok (mkSession (f_mem w) (f_lim w) (f_char w) (f_solvers w) (f_log w ++ [(s, f_lim w, f_char w)]))
  end.
Definition evolve (s : nat) (w : session) : result :=
  match alive w s with
  | None => Fail NoSuchSolver
  | Some v =>
      match (if o_set_up v then Ok w else setup s w) with
      | Fail e => Fail e
      | Ok w' => evaluate s v w'
      end
  end.

(** solver.py:268-279 __del__: a solver that was never set up has fmod = None, so __del__ raises, which Python
    ignores *)
Definition delete (s : nat) (w : session) : result :=
  match alive w s with
  | None => Fail NoSuchSolver
  | Some v =>
      let gone := mkSolver (o_lim v) (o_char v) (o_size v) false false in
      if o_set_up v then
        match dealloc_workspace (o_char v) (dealloc_clawparams (f_mem w)) with
        | None => Fail NotAllocated
        | Some m1 =>
            match dealloc_recon (f_lim w) (f_char w) m1 with
            | None => Fail NotAllocated
            | Some m2 => Ok (set_solver s gone (mkSession m2 (f_lim w) (f_char w) (f_solvers w) (f_log w)))
            end
        end
      else Ok (set_solver s gone w)
  end.

Definition exec (o : op) (w : session) : result :=
  match o with
  | Create l c n => Ok (mkSession (f_mem w) (f_lim w) (f_char w) (f_solvers w ++ [mkSolver l c n false true]) (f_log w))
  | SetOptions s l c =>
      match alive w s with
      | Some v => Ok (set_solver s (mkSolver l c (o_size v) (o_set_up v) true) w)
      | None => Fail NoSuchSolver
      end
  | Setup s => setup s w
  | Evolve s => evolve s w
  | Delete s => delete s w
  end.
Fixpoint exec_all (os : list op) (w : session) : result :=
  match os with
  | [] => Ok w
  | o :: r => match exec o w with Ok w' => exec_all r w' | Fail e => Fail e end
  end.
Definition start : session := mkSession (fun _ => None) 0 0 [] [].
