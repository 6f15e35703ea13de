(** Which memory the arrays of solutions and solvers share: src/pyclaw/state.py (State.new_array,
    set_q_from_qbc, get_qbc_from_q, is_valid), src/pyclaw/solver.py (_allocate_bc_arrays, evolve_to_time),
    src/pyclaw/classic/solver.py (step, step_hyperbolic), src/pyclaw/controller.py (run, check_validity).

    An array is a block of memory together with NumPy's description of how indices are laid out in it. The
    numerical work of a step is an arbitrary function on the block of the solver's array.
    Simplifications: a solution has one state (solver.py and the classic solver use states[0] only); aux,
    which is passed through the functions set_aux_from_auxbc and get_auxbc_from_aux with the same bodies, is
    left out; sizes and strides count elements, not bytes. *)
From Verif Require Import Base.
Local Open Scope nat_scope.

Definition heap := list (list Q).

(** A NumPy array: the block it lives in, the place of its first element, and the extent and stride of each
    dimension. The first dimension of q is the component. *)
Record nd := mkNd { n_buf : nat; n_off : nat; n_dims : list (nat * nat) }.
Definition n_shape (a : nd) : list nat := map fst (n_dims a).

(** The places of the elements in the block, first index fastest *)
Fixpoint places (ds : list (nat * nat)) : list nat :=
  match ds with
  | [] => [0]
  | (n, s) :: r => flat_map (fun p => map (fun i => p + i * s) (seq 0 n)) (places r)
  end.
Definition n_places (a : nd) : list nat := map (fun p => n_off a + p) (places (n_dims a)).

Definition get_at (ps : list nat) (b : list Q) : list Q := map (fun p => nth p b 0%Q) ps.
Fixpoint replace_q (p : nat) (v : Q) (b : list Q) : list Q :=
  match b, p with
  | [], _ => []
  | _ :: r, O => v :: r
  | x :: r, S p' => x :: replace_q p' v r
  end.
Fixpoint put_at (ps : list nat) (vs : list Q) (b : list Q) : list Q :=
  match ps, vs with
  | p :: ps', v :: vs' => put_at ps' vs' (replace_q p v b)
  | _, _ => b
  end.

Fixpoint set_block (k : nat) (b : list Q) (h : heap) : heap :=
  match h, k with
  | [], _ => []
  | _ :: r, O => b :: r
  | x :: r, S k' => x :: set_block k' b r
  end.
Definition block (h : heap) (k : nat) : list Q := nth k h [].

(** The values of an array, and a[...] = values (the right-hand side is computed before it is stored) *)
Definition read (h : heap) (a : nd) : list Q := get_at (n_places a) (block h (n_buf a)).
Definition write (h : heap) (a : nd) (vs : list Q) : heap :=
  set_block (n_buf a) (put_at (n_places a) vs (block h (n_buf a))) h.

(** np.empty(shape,order='F') (state.py:330-335), np.zeros(..., order='F') (solver.py:341-347), a.copy('F') and
    copy.deepcopy(a): a new block in Fortran order *)
Fixpoint fstrides (k : nat) (sh : list nat) : list (nat * nat) :=
  match sh with
  | [] => []
  | n :: r => (n, k) :: fstrides (k * n) r
  end.
Definition prod (sh : list nat) : nat := fold_right Nat.mul 1 sh.
Definition new_array (h : heap) (sh : list nat) (vs : list Q) : heap * nd :=
  (h ++ [firstn (prod sh) (vs ++ repeat 0%Q (prod sh))], mkNd (length h) 0 (fstrides 1 sh)).

(** flags['F_CONTIGUOUS'] as NumPy computes it: an array without elements is contiguous, and the stride of a
    dimension of extent one does not matter *)
Fixpoint strides_contiguous (k : nat) (ds : list (nat * nat)) : bool :=
  match ds with
  | [] => true
  | (n, s) :: r => if n =? 1 then strides_contiguous k r else (s =? k) && strides_contiguous (k * n) r
  end.
Definition f_contiguous (a : nd) : bool :=
  existsb (fun d => fst d =? 0) (n_dims a) || strides_contiguous 1 (n_dims a).

(** qbc[:,num_ghost:-num_ghost,...] (state.py:239-253): a view. With num_ghost = 0 the slice 0:-0 is empty. *)
Definition inner_dim (g : nat) (d : nat * nat) : nat * nat :=
  (if g =? 0 then 0 else fst d - 2 * g, snd d).
Definition inner_off (g : nat) (ds : list (nat * nat)) : nat :=
  fold_right Nat.add 0 (map (fun d => g * snd d) ds).
Definition inner_view (g : nat) (a : nd) : nd :=
  match n_dims a with
  | [] => a
  | d :: r => mkNd (n_buf a) (n_off a + inner_off g r) (d :: map (inner_dim g) r)
  end.

(** Broadcasting in dst[...] = src for arrays with the same number of dimensions: an extent of one is repeated,
    any other difference is a ValueError *)
Fixpoint broadcast (src dst : list (nat * nat)) : option (list (nat * nat)) :=
  match src, dst with
  | [], [] => Some []
  | (n, s) :: r, (m, _) :: r' =>
      match broadcast r r' with
      | Some b => if n =? m then Some ((n, s) :: b) else if n =? 1 then Some ((m, 0) :: b) else None
      | None => None
      end
  | _, _ => None
  end.
Definition assign (h : heap) (dst src : nd) : option heap :=
  match broadcast (n_dims src) (n_dims dst) with
  | Some ds => Some (write h dst (read h (mkNd (n_buf src) (n_off src) ds)))
  | None => None
  end.

(** A classic solver: num_ghost and, once set up, qbc *)
Record solver := mkSolver { v_ghost : nat; v_qbc : option nd }.
Record world := mkWorld { w_heap : heap; w_sols : list nd; w_solvers : list solver }.

(** What a program does with solutions and solvers, numbered in the order in which they are created *)
Inductive op :=
| New (sh : list nat) (vs : list Q)                 (* a new State filled with values *)
| Copy (x : nat)                                    (* copy.deepcopy of a solution *)
| Assign (x : nat) (vs : list Q)                    (* state.q = an expression, as the SharpClaw steps do *)
| Write (x : nat) (f : list Q -> list Q)            (* state.q[...] = f(state.q), also state.q += ... *)
| NewSolver (g : nat)
| Setup (s x : nat)                                 (* solver.setup(solution) *)
| Step (s x : nat) (before hyp after : list Q -> list Q) (ok : bool).
    (* one pass of the loop of evolve_to_time with a classic solver *)

Inductive failure := NoSuchObject | ShapeMismatch.
Inductive outcome := Done (w : world) | Raised (e : failure).

Definition set_sol (x : nat) (a : nd) (w : world) : world :=
  mkWorld (w_heap w) (firstn x (w_sols w) ++ a :: skipn (S x) (w_sols w)) (w_solvers w).
Definition set_solver (s : nat) (v : solver) (w : world) : world :=
  mkWorld (w_heap w) (w_sols w) (firstn s (w_solvers w) ++ v :: skipn (S s) (w_solvers w)).
Definition set_heap (h : heap) (w : world) : world := mkWorld h (w_sols w) (w_solvers w).

(** solver.py:321-349 _allocate_bc_arrays, called by setup (classic/solver.py:195-219): qbc has the extents of q
    and num_ghost more cells at each end. The first _apply_bcs, which writes to the new array only, is left out:
    every step fills the array again. *)
Definition pad (g : nat) (sh : list nat) : list nat :=
  match sh with
  | [] => []
  | m :: ns => m :: map (fun n => n + 2 * g) ns
  end.
Definition setup (s x : nat) (w : world) : outcome :=
  match nth_error (w_solvers w) s, nth_error (w_sols w) x with
  | Some v, Some q =>
      let (h, b) := new_array (w_heap w) (pad (v_ghost v) (n_shape q)) [] in
      Done (set_solver s (mkSolver (v_ghost v) (Some b)) (set_heap h w))
  | _, _ => Raised NoSuchObject
  end.

(** classic/solver.py:96-146 step and 279-387 step_hyperbolic of a set-up solver:
    - before: before_step and the source terms ahead of the hyperbolic part, which change state.q in place;
    - state.get_qbc_from_q(num_ghost,qbc) (state.py:271-286), then hyp: ghost cells and kernel, which work in place on the memory
      of qbc (also in two and three dimensions, where qold is a copy and qbc is updated);
    - state.set_q_from_qbc(num_ghost,qbc): from now on state.q is a view of qbc;
    - after: the source terms after the hyperbolic part, in place. *)
Definition classic_step (s x : nat) (before hyp after : list Q -> list Q) (w : world) : outcome :=
  match nth_error (w_solvers w) s, nth_error (w_sols w) x with
  | Some (mkSolver g (Some b)), Some q =>
      let h1 := write (w_heap w) q (before (read (w_heap w) q)) in
      match assign h1 (inner_view g b) q with
      | None => Raised ShapeMismatch
      | Some h2 =>
          let h3 := set_block (n_buf b) (hyp (block h2 (n_buf b))) h2 in
          let q' := inner_view g b in
          let h4 := write h3 q' (after (read h3 q')) in
          Done (set_sol x q' (set_heap h4 w))
      end
  | _, _ => Raised NoSuchObject
  end.

(** solver.py:552-660 evolve_to_time: set-up only if solver._is_set_up is false (572-573); q_backup =
    state.q.copy('F') before the step, and state.q = q_backup when the step is rejected *)
Definition evolve_once (s x : nat) (before hyp after : list Q -> list Q) (ok : bool) (w : world) : outcome :=
  let start := match nth_error (w_solvers w) s with
               | Some (mkSolver _ None) => setup s x w
               | _ => Done w
               end in
  match start with
  | Raised e => Raised e
  | Done w0 =>
      match nth_error (w_sols w0) x with
      | None => Raised NoSuchObject
      | Some q =>
          let (h, backup) := new_array (w_heap w0) (n_shape q) (read (w_heap w0) q) in
          match classic_step s x before hyp after (set_heap h w0) with
          | Raised e => Raised e
          | Done w1 => Done (if ok then w1 else set_sol x backup w1)
          end
      end
  end.

Definition exec (o : op) (w : world) : outcome :=
  match o with
  | New sh vs =>
      let (h, a) := new_array (w_heap w) sh vs in
      Done (mkWorld h (w_sols w ++ [a]) (w_solvers w))
  | Copy x =>
      match nth_error (w_sols w) x with
      | Some q =>
          let (h, a) := new_array (w_heap w) (n_shape q) (read (w_heap w) q) in
          Done (mkWorld h (w_sols w ++ [a]) (w_solvers w))
      | None => Raised NoSuchObject
      end
  | Assign x vs =>
      match nth_error (w_sols w) x with
      | Some q =>
          let (h, a) := new_array (w_heap w) (n_shape q) vs in
          Done (set_sol x a (set_heap h w))
      | None => Raised NoSuchObject
      end
  | Write x f =>
      match nth_error (w_sols w) x with
      | Some q => Done (set_heap (write (w_heap w) q (f (read (w_heap w) q))) w)
      | None => Raised NoSuchObject
      end
  | NewSolver g => Done (mkWorld (w_heap w) (w_sols w) (w_solvers w ++ [mkSolver g None]))
  | Setup s x => setup s x w
  | Step s x before hyp after ok => evolve_once s x before hyp after ok w
  end.

Fixpoint exec_all (os : list op) (w : world) : outcome :=
  match os with
  | [] => Done w
  | o :: r => match exec o w with Done w' => exec_all r w' | Raised e => Raised e end
  end.

Definition empty_world : world := mkWorld [] [] [].

(** What a user sees of solution x *)
Definition values_of (x : nat) (w : world) : option (list Q) :=
  option_map (read (w_heap w)) (nth_error (w_sols w) x).

(** controller.py:302-306 and 216-233: run raises 'Initial solution is not valid.' unless State.is_valid
    (state.py:165-204; without a mapped grid) finds q contiguous *)
Definition can_run (x : nat) (w : world) : option bool :=
  option_map f_contiguous (nth_error (w_sols w) x).
