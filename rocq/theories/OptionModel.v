(** Attributes of solvers: src/pyclaw/solver.py (Solver.__setattr__, __init__, the property all_bcs) and the
    constructors of src/pyclaw/classic/solver.py and src/pyclaw/sharpclaw/solver.py.

    Simplifications: values are of any type [V] with a boolean reading; attributes found in the class rather
    than in the object (methods, class attributes, properties) are given by a list of names, [all_bcs] being
    the only property (solver.py:146-153) with a setter that changes the elements of the lists bc_lower and
    bc_upper; deleting attributes is left out. *)
From Coq Require Import String.
From Verif Require Import Base.

Section Attributes.
Variable V : Type.
Variable of_bool : bool -> V.
Variable truthy : V -> bool.
Variable class_names : list string.          (* dir(type(self)), apart from all_bcs *)
Variable fill : V -> V -> V.                 (* a list with every element replaced by the given value *)

(** the dictionary of the object *)
Definition dict := list (string * V).
Fixpoint get (k : string) (d : dict) : option V :=
  match d with
  | [] => None
  | (k', v) :: r => if String.eqb k k' then Some v else get k r
  end.
Fixpoint put (k : string) (v : V) (d : dict) : dict :=
  match d with
  | [] => [(k, v)]
  | (k', v') :: r => if String.eqb k k' then (k', v) :: r else (k', v') :: put k v r
  end.

(** hasattr(self, key) *)
Definition has (k : string) (d : dict) : bool :=
  match get k d with
  | Some _ => true
  | None => (String.eqb k "all_bcs" || existsb (String.eqb k) class_names)%bool
  end.

Inductive attr_error := TypeError | AttributeError.

(** object.__setattr__; solver.py:149-153 for all_bcs *)
Definition object_setattr (k : string) (v : V) (d : dict) : dict * option attr_error :=
  if String.eqb k "all_bcs" then
    match get "bc_lower" d, get "bc_upper" d with
    | Some lo, Some hi => (put "bc_upper" (fill hi v) (put "bc_lower" (fill lo v) d), None)
    | _, _ => (d, Some AttributeError)
    end
  else (put k v d, None).

(** solver.py:139-144 Solver.__setattr__ *)
Definition setattr (k : string) (v : V) (d : dict) : dict * option attr_error :=
  let d1 := if has "_isinitialized" d then d else put "_isinitialized" (of_bool false) d in
  let init := match get "_isinitialized" d1 with Some x => truthy x | None => true end in
  if (init && negb (has k d1))%bool then (d1, Some TypeError)
  else object_setattr k v d1.

(** Assignments one after the other, each exception caught by the caller. *)
Fixpoint assignments (l : list (string * V)) (d : dict) : dict * list (option attr_error) :=
  match l with
  | [] => (d, [])
  | (k, v) :: r => let '(d1, e) := setattr k v d in
                   let '(d2, es) := assignments r d1 in (d2, e :: es)
  end.
End Attributes.
Arguments get {V}. Arguments put {V}. Arguments has {V}. Arguments object_setattr {V}. Arguments setattr {V}. Arguments assignments {V}.

Open Scope string_scope.
(** The attributes assigned by the constructors, in order; solver.py:157-242 (without a Riemann solver) *)
Definition init_solver : list string :=
  ["logger"; "dt_initial"; "dt_max"; "max_steps"; "dt_variable"; "num_waves"; "qbc"; "auxbc"; "rp"; "fmod"; "_is_set_up";
   "_use_old_bc_sig"; "accept_step"; "before_step"; "claw_package"; "dt"; "cfl"; "status"; "bc_lower"; "bc_upper";
   "aux_bc_lower"; "aux_bc_upper"; "user_bc_lower"; "user_bc_upper"; "user_aux_bc_lower"; "user_aux_bc_upper";
   "num_eqn"; "num_waves"; "fwave"; "compute_gauge_values"; "qbc"].
(** classic/solver.py:71-93 *)
Definition init_classic : list string :=
  ["num_ghost"; "limiters"; "order"; "source_split"; "fwave"; "step_source"; "kernel_language"; "verbosity"; "cfl_max";
   "cfl_desired"; "_mthlim"; "_method"; "dt_old"].
(** sharpclaw/solver.py:156-199 *)
Definition init_sharp : list string :=
  ["limiters"; "lim_type"; "weno_order"; "time_integrator"; "char_decomp"; "tfluct_solver"; "tfluct"; "aux_time_dep";
   "kernel_language"; "num_ghost"; "fwave"; "cfl_desired"; "cfl_max"; "dq_src"; "call_before_step_each_stage"; "_mthlim";
   "_method"; "_registers"; "dq_dt"; "dt_old"; "a"; "b"; "c"; "sspcoeff0"; "alpha"; "beta"; "lmm_steps"; "sspcoeff";
   "prev_dq_dt_values"; "prev_dt_values"; "prev_dtFE_values"; "check_lmm_cond"; "lmm_cond"].
(** classic/solver.py:262-275, 435-452, 597-615; sharpclaw/solver.py:701-707, 836-845, 908-917 *)
Definition init_1d : list string := ["num_dim"; "reflect_index"].
Definition init_classic_2d3d : list string :=
  ["dimensional_split"; "transverse_waves"; "num_dim"; "reflect_index"; "aux1"; "aux2"; "aux3"; "work"].

Inductive solver_class := Classic1D | Classic2D | Classic3D | Sharp1D | Sharp2D | Sharp3D.
Definition constructor (c : solver_class) : list string :=
  match c with
  | Classic1D => init_1d ++ init_classic ++ init_solver
  | Classic2D | Classic3D => init_classic_2d3d ++ init_classic ++ init_solver
  | Sharp1D | Sharp2D | Sharp3D => init_1d ++ init_sharp ++ init_solver
  end.
(** The attributes of self that the methods assign after construction: solver.py:300, 310, 339-373, 533-552,
    588-622; classic/solver.py:167-181, 211, 302, 490-494, 527-539, 640-644; sharpclaw/solver.py:207-257, 293, 303,
    449-488, 520-527, 554, 616, 658-685 *)
Definition later_solver : list string :=
  ["_is_set_up"; "qbc"; "auxbc"; "_use_old_bc_sig"; "dt"; "dt_old"; "accept_step"; "max_steps"].
Definition later (c : solver_class) : list string :=
  later_solver ++
  match c with
  | Classic1D => ["_mthlim"; "_method"; "fmod"]
  | Classic2D | Classic3D => ["_mthlim"; "_method"; "fmod"; "aux1"; "aux2"; "aux3"; "work"]
  | Sharp1D | Sharp2D | Sharp3D =>
      ["num_ghost"; "cfl_desired"; "cfl_max"; "fmod"; "sspcoeff"; "dq_dt"; "sspcoeff0"; "_registers"; "lmm_cond"; "prev_dt_values";
       "prev_dtFE_values"; "prev_dq_dt_values"; "_mthlim"]
  end.

(** solver.py:157-242 with the assignments of the subclass before: a new solver; [v k] are the values *)
Definition construct {V} (of_bool : bool -> V) (truthy : V -> bool) (class_names : list string) (fill : V -> V -> V)
    (v : string -> V) (c : solver_class) : dict V * list (option attr_error) :=
  assignments of_bool truthy class_names fill (map (fun k => (k, v k)) (constructor c) ++ [("_isinitialized", of_bool true)]) [].
