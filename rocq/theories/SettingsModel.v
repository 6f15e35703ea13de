(** Which values of the options reach the kernels of the classic solvers, and which problem data reach the Riemann
    solvers: src/pyclaw/classic/solver.py (_set_mthlim, _set_method, setup, _set_fortran_parameters,
    step_hyperbolic), src/pyclaw/state.py (set_cparam), src/pyclaw/solver.py (evolve_to_time).

    Solvers and solutions are numbered. A step is recorded by what it passes to the kernel.
    Simplifications: attributes are assigned, lists and dictionaries are not modified in place; each solution has one
    state; the entries of _method that no kernel uses (dt_variable, verbosity, 0) are left out. *)
From Verif Require Import Base.

Inductive language := Fortran | Python.

(** The options of a classic solver (classic/solver.py:13-98; limiters as a list, a single number being [x]) *)
Record options := mkOptions {
  order : Z; limiters : list Z; num_waves : nat; fwave : bool;
  dimensional_split : bool; transverse_waves : Z }.
(** What a solver is created with: number of dimensions, kernel language and the module of its Riemann solver *)
Record built := mkBuilt { dims : nat; lang : language; module : nat }.
(** The part of a state that concerns the kernels; problem_data: the value of a name, if set *)
Record pstate := mkState { index_capa : Z; num_aux : Z; problem_data : Z -> option Q }.

(** What a kernel call depends on: split or unsplit kernel, order, method(3), capacity component (1-based, 0 for
    none), number of auxiliary fields, limiters, f-waves, and the values of the parameters of the Riemann solver *)
Record call := mkCall {
  k_split : bool; k_order : Z; k_code : Z; k_capa : Z; k_naux : Z; k_limiters : list Z; k_fwave : bool;
  k_params : list (option Q) }.

(** _mthlim and _method *)
Record fixed := mkFixed { x_limiters : list Z; x_order : Z; x_code : Z; x_capa : Z; x_naux : Z }.

Record session := mkSession {
  s_opts : nat -> options; s_fixed : nat -> option fixed;       (* _is_set_up: s_fixed is not None *)
  s_states : nat -> pstate;
  s_cparam : nat -> Z -> option Q;                              (* the common block of each module *)
  s_calls : list (nat * nat * call) }.                          (* solver, solution, call *)

Definition upd {A} (f : nat -> A) (i : nat) (v : A) : nat -> A := fun j => if Nat.eqb j i then v else f j.

Section Settings.
  (** the solvers of the program, and the names in the common block of each module *)
  Variable solvers : nat -> built.
  Variable names : nat -> list Z.

  (** classic/solver.py:162-172 _set_mthlim *)
  Definition set_mthlim (o : options) : option (list Z) :=
    let l := if Nat.eqb (length (limiters o)) 1 then concat (repeat (limiters o) (num_waves o)) else limiters o in
    if Nat.eqb (length l) (num_waves o) then Some l else None.
  (** classic/solver.py:174-194 _set_method, entries 1, 2, 5, 6 *)
  Definition set_method (b : built) (o : options) (st : pstate) (l : list Z) : fixed :=
    mkFixed l (order o)
      (if Nat.eqb (dims b) 1 then 0%Z else if dimensional_split o then (-1)%Z else transverse_waves o)
      (index_capa st + 1) (num_aux st).
  (** state.py:206-231 set_cparam *)
  Definition set_cparam (mo : nat) (st : pstate) (c : nat -> Z -> option Q) : option (nat -> Z -> option Q) :=
    if forallb (fun k => match problem_data st k with Some _ => true | None => false end) (names mo)
    then Some (upd c mo (fun k => match problem_data st k with Some v => Some v | None => c mo k end))
    else None.

  (** classic/solver.py:196-234 setup and _set_fortran_parameters; None: it raises *)
  Definition setup (s i : nat) (w : session) : option session :=
    let b := solvers s in
    let o := s_opts w s in
    match set_mthlim o with
    | None => None
    | Some l =>
        let x := set_method b o (s_states w i) l in
        match lang b with
        | Fortran =>
            match set_cparam (module b) (s_states w i) (s_cparam w) with
            | None => None
            | Some c => Some (mkSession (s_opts w) (upd (s_fixed w) s (Some x)) (s_states w) c (s_calls w))
            end
        | Python =>
            if Nat.ltb 1 (dims b) then None
            else Some (mkSession (s_opts w) (upd (s_fixed w) s (Some x)) (s_states w) (s_cparam w) (s_calls w))
        end
    end.

  (** classic/solver.py:281-345 (1D), 498-545 (2D) and the same in 3D. The Python kernel takes the order, the
      capacity component and the problem data of the moment; it has no method(3), which is recorded as 0. *)
  Definition kernel_call (b : built) (o : options) (x : fixed) (st : pstate) (c : nat -> Z -> option Q) : call :=
    match lang b with
    | Fortran =>
        mkCall (if Nat.eqb (dims b) 1 then false else dimensional_split o)
               (x_order x) (x_code x) (x_capa x) (x_naux x) (x_limiters x) (fwave o)
               (map (c (module b)) (names (module b)))
    | Python =>
        mkCall false (order o) 0 (index_capa st + 1) (num_aux st) (x_limiters x) (fwave o)
               (map (problem_data st) (names (module b)))
    end.

  Inductive op :=
  | SetOptions (s : nat) (o : options)
  | SetState (i : nat) (st : pstate)
  | Step (s i : nat).                     (* evolve_to_time, one step *)

  (** solver.py:572-573: setup only if it has not been done *)
  Definition exec (a : op) (w : session) : option session :=
    match a with
    | SetOptions s o => Some (mkSession (upd (s_opts w) s o) (s_fixed w) (s_states w) (s_cparam w) (s_calls w))
    | SetState i st => Some (mkSession (s_opts w) (s_fixed w) (upd (s_states w) i st) (s_cparam w) (s_calls w))
    | Step s i =>
        match (match s_fixed w s with Some _ => Some w | None => setup s i w end) with
        | None => None
        | Some w' =>
            match s_fixed w' s with
            | None => None
            | Some x =>
                Some (mkSession (s_opts w') (s_fixed w') (s_states w') (s_cparam w')
                        (s_calls w' ++
                         [(s, i, kernel_call (solvers s) (s_opts w' s) x (s_states w' i) (s_cparam w'))]))
            end
        end
    end.
  Fixpoint exec_all (os : list op) (w : session) : option session :=
    match os with
    | [] => Some w
    | a :: r => match exec a w with Some w' => exec_all r w' | None => None end
    end.
  (** Before the first step: given options and states, nothing in the common blocks *)
  Definition start (opts : nat -> options) (states : nat -> pstate) : session :=
    mkSession opts (fun _ => None) states (fun _ _ => None) [].
End Settings.
