(** Model of ghost-cell filling: src/pyclaw/solver.py (Solver._apply_bcs, _bc_lower, _bc_upper) and
    src/pyclaw/state.py (get_qbc_from_q, set_q_from_qbc and their aux twins), in any number of
    dimensions.

    An array with ghost cells is a function of the component and of the list of indices (one per
    dimension, counted from 0 at the first ghost cell).  Python's negative indices are written out
    with the array length [N = num_cells + 2*num_ghost].  Array entries have an arbitrary type [V]
    with a negation [opp]. *)
From Verif Require Import Base.

Section BC.
Variable V : Type.
Variable opp : V -> V.

Definition arr := Z -> list Z -> V.

(** Entry [d] of an index list, and the list with entry [d] replaced. *)
Fixpoint get (d : nat) (ix : list Z) : Z :=
  match ix, d with
  | [], _ => 0%Z
  | i :: _, O => i
  | _ :: l, S d => get d l
  end.
Fixpoint put (d : nat) (v : Z) (ix : list Z) : list Z :=
  match ix, d with
  | [], _ => []
  | _ :: l, O => v :: l
  | i :: l, S d => i :: put d v l
  end.

(** [array[:,dst,...] = array[:,src,...]] along axis [d] *)
Definition copy_layer (d : nat) (dst src : Z) (a : arr) : arr :=
  fun c ix => if Z.eqb (get d ix) dst then a c (put d src ix) else a c ix.
(** [array[r,dst,...] = -array[r,src,...]] along axis [d] *)
Definition neg_layer (d : nat) (r dst src : Z) (a : arr) : arr :=
  fun c ix => if (Z.eqb c r && Z.eqb (get d ix) dst)%bool then opp (a c (put d src ix)) else a c ix.

(** [for i in range(n): a = f(i)(a)] *)
Fixpoint for_range (n : nat) (f : Z -> arr -> arr) (a : arr) : arr :=
  match n with
  | O => a
  | S n => f (Z.of_nat n) (for_range n f a)
  end.

(** solver.py:13-19 class BC, plus [None] and any other value *)
Inductive bctype := Custom | Extrap | Periodic | Wall | Unset | Unknown.

(** Exceptions *)
Inductive bcerr :=
| ENotSpecified      (* solver.py:475, 516 'boundary condition not specified' *)
| ENotImplemented    (* solver.py:477, 518 NotImplementedError *)
| EIndex             (* reflect_index outside the components of q: IndexError *)
| ENoFunction.       (* custom boundary condition without a user function: TypeError *)

Inductive outcome (A : Type) := Ok (a : A) | Raised (e : bcerr).
Arguments Ok {A}. Arguments Raised {A}.

Variable ng : nat.   (* num_ghost *)
Notation g := (Z.of_nat ng).

(** solver.py:439-478 Solver._bc_lower along axis [d] of an array of length [N] with [neq]
    components; [refl] is reflect_index[idim]; [isq] is [name == 'q']. *)
Definition bc_lower (ty : bctype) (d : nat) (N : Z) (isq : bool) (refl neq : Z) (a : arr) : outcome arr :=
  match ty with
  | Extrap => Ok (for_range ng (fun i => copy_layer d i g) a)
  | Periodic => Ok (fun c ix => if Z.ltb (get d ix) g
                                then a c (put d (get d ix + (N - 2 * g)) ix) else a c ix)
  | Wall =>
      if isq then
        if (Z.ltb 0 g && negb (Z.leb 0 refl && Z.ltb refl neq))%bool then Raised EIndex else
        Ok (for_range ng (fun i a =>
              neg_layer d refl i (2 * g - 1 - i) (copy_layer d i (2 * g - 1 - i) a)) a)
      else Ok (for_range ng (fun i => copy_layer d i (2 * g - 1 - i)) a)
  | Unset => Raised ENotSpecified
  | _ => Raised ENotImplemented
  end.

(** solver.py:480-519 Solver._bc_upper *)
Definition bc_upper (ty : bctype) (d : nat) (N : Z) (isq : bool) (refl neq : Z) (a : arr) : outcome arr :=
  match ty with
  | Extrap => Ok (for_range ng (fun i => copy_layer d (N - i - 1) (N - g - 1)) a)
  | Periodic => Ok (fun c ix => if Z.leb (N - g) (get d ix)
                                then a c (put d (get d ix - (N - g) + g) ix) else a c ix)
  | Wall =>
      if isq then
        if (Z.ltb 0 g && negb (Z.leb 0 refl && Z.ltb refl neq))%bool then Raised EIndex else
        Ok (for_range ng (fun i a =>
              neg_layer d refl (N - i - 1) (N - 2 * g + i)
                (copy_layer d (N - i - 1) (N - 2 * g + i) a)) a)
      else Ok (for_range ng (fun i => copy_layer d (N - i - 1) (N - 2 * g + i)) a)
  | Unset => Raised ENotSpecified
  | _ => Raised ENotImplemented
  end.

(** Boundary data of one dimension (entry idim of the lists in the solver, and the grid's flags). *)
Record dimbc := mkDim {
  ncells : Z;                 (* grid.num_cells[idim] *)
  q_lo : bctype; q_hi : bctype;     (* bc_lower[idim], bc_upper[idim] *)
  a_lo : bctype; a_hi : bctype;     (* aux_bc_lower[idim], aux_bc_upper[idim] *)
  on_lo : bool; on_hi : bool;       (* grid.on_lower_boundary[idim], on_upper_boundary[idim] *)
  reflect : Z }.              (* reflect_index[idim] *)

(** A user boundary function: it sees and may change both ghosted arrays (new-style signature). *)
Definition custom_fun := nat -> arr * arr -> arr * arr.

(** solver.py:398-410 (lower) and 424-436 (upper): one array at one side. [lower] selects the side,
    [isq] the array. *)
Definition apply_one (lower isq : bool) (fn : option custom_fun) (neq : Z) (d : nat) (D : dimbc)
    (s : arr * arr) : outcome (arr * arr) :=
  let ty := match lower, isq with
            | true, true => q_lo D | true, false => a_lo D
            | false, true => q_hi D | false, false => a_hi D end in
  let opposite := if lower then on_hi D else on_lo D in
  let N := (ncells D + 2 * g)%Z in
  let fill := if lower then bc_lower else bc_upper in
  match ty with
  | Custom => match fn with Some f => Ok (f d s) | None => Raised ENoFunction end
  | _ =>
      if (match ty with Periodic => true | _ => false end && negb opposite)%bool then Ok s
      else match fill ty d N isq (reflect D) neq (if isq then fst s else snd s) with
           | Ok a => Ok (if isq then (a, snd s) else (fst s, a))
           | Raised e => Raised e
           end
  end.

Definition bind {A B} (x : outcome A) (f : A -> outcome B) : outcome B :=
  match x with Ok a => f a | Raised e => Raised e end.

(** The user functions: q lower, q upper, aux lower, aux upper. *)
Record userfuns := mkFuns {
  f_q_lo : option custom_fun; f_q_hi : option custom_fun;
  f_a_lo : option custom_fun; f_a_hi : option custom_fun }.

(** solver.py:382-410 / 412-436: one side of one dimension: aux first (if present), then q. *)
Definition apply_side (lower has_aux : bool) (F : userfuns) (neq : Z) (d : nat) (D : dimbc) (s : arr * arr)
  : outcome (arr * arr) :=
  if (if lower then on_lo D else on_hi D) then
    bind (if has_aux then apply_one lower false (if lower then f_a_lo F else f_a_hi F) neq d D s
          else Ok s)
         (apply_one lower true (if lower then f_q_lo F else f_q_hi F) neq d D)
  else Ok s.

(** solver.py:379-437: loop over the dimensions. *)
Fixpoint apply_dims (has_aux : bool) (F : userfuns) (neq : Z) (d : nat) (Ds : list dimbc) (s : arr * arr)
  : outcome (arr * arr) :=
  match Ds with
  | [] => Ok s
  | D :: Ds =>
      bind (apply_side true has_aux F neq d D s) (fun s1 =>
      bind (apply_side false has_aux F neq d D s1) (fun s2 =>
      apply_dims has_aux F neq (S d) Ds s2))
  end.

(** Is every index in the interior [num_ghost, num_ghost + n)? *)
Fixpoint interior (ns : list Z) (ix : list Z) : bool :=
  match ns, ix with
  | [], [] => true
  | n :: ns, i :: ix => (Z.leb g i && Z.ltb i (g + n) && interior ns ix)%bool
  | _, _ => false
  end.
Definition shift (k : Z) (ix : list Z) : list Z := map (fun i => (i + k)%Z) ix.

(** state.py:271-286 get_qbc_from_q (and get_auxbc_from_aux 288-303): write q (indexed from 0) into the
    interior of qbc. *)
Definition get_qbc_from_q (ns : list Z) (q qbc : arr) : arr :=
  fun c ix => if interior ns ix then q c (shift (- g) ix) else qbc c ix.
(** state.py:239-253 set_q_from_qbc (and set_aux_from_auxbc 255-268): q is the interior view of qbc.
    Python writes the slice as num_ghost:-num_ghost, which is the interior only for num_ghost >= 1. *)
Definition set_q_from_qbc (qbc : arr) : arr := fun c ix => qbc c (shift g ix).

(** solver.py:351-437 Solver._apply_bcs.  [qbc0], [auxbc0] are the ghosted arrays as left by the
    previous call (stale ghost cells included). *)
Definition apply_bcs (has_aux : bool) (F : userfuns) (neq : Z) (Ds : list dimbc) (q aux qbc0 auxbc0 : arr)
  : outcome (arr * arr) :=
  let ns := map ncells Ds in
  let qbc := get_qbc_from_q ns q qbc0 in
  let auxbc := if has_aux then get_qbc_from_q ns aux auxbc0 else auxbc0 in
  apply_dims has_aux F neq 0 Ds (qbc, auxbc).

(** solver.py:247-287 Solver.is_valid, the boundary-condition checks: custom types need a user function
    and no q type may be unset.  The aux boundary types are not looked at. *)
Definition bcs_valid (F : userfuns) (Ds : list dimbc) : bool :=
  let custom ty := match ty with Custom => true | _ => false end in
  let unset ty := match ty with Unset => true | _ => false end in
  let isnone (f : option custom_fun) := match f with None => true | Some _ => false end in
  negb ((existsb (fun D => custom (q_lo D)) Ds && isnone (f_q_lo F))
     || (existsb (fun D => custom (q_hi D)) Ds && isnone (f_q_hi F))
     || existsb (fun D => unset (q_lo D) || unset (q_hi D)) Ds)%bool.

End BC.
Arguments Ok {A}. Arguments Raised {A}.
