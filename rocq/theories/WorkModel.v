(** Model of the work arrays of the classic solvers in two and three dimensions: their allocation in
    src/pyclaw/classic/solver.py and their partition in step2.f90, step2ds.f90, step3.f90 and step3ds.f90. *)
From Verif Require Import Base.
Local Open Scope Z_scope.

(** classic/solver.py:485-494 (ClawSolver2D._allocate_workspace): length of the array work *)
Definition mwork2 (mx my ng neq nw : Z) : Z :=
  let maxm := Z.max mx my in (maxm + 2 * ng) * (5 * neq + nw + neq * nw).
(** classic/solver.py:635-644 (ClawSolver3D._allocate_workspace) *)
Definition mwork3 (mx my mz ng neq nw : Z) : Z :=
  let maxm := Z.max (Z.max mx my) mz in (maxm + 2 * ng) * (31 * neq + nw + neq * nw).

(** step2.f90:57-64 and step2ds.f90:55-62: first index of each piece, and the last index used *)
Definition starts2 (maxm ng neq nw : Z) : list Z * Z :=
  let i0wave := 1 in
  let i0s := i0wave + (maxm + 2 * ng) * neq * nw in
  let i0amdq := i0s + (maxm + 2 * ng) * nw in
  let i0apdq := i0amdq + (maxm + 2 * ng) * neq in
  let i0cqxx := i0apdq + (maxm + 2 * ng) * neq in
  let i0bmadq := i0cqxx + (maxm + 2 * ng) * neq in
  let i0bpadq := i0bmadq + (maxm + 2 * ng) * neq in
  let iused := i0bpadq + (maxm + 2 * ng) * neq - 1 in
  ([i0wave; i0s; i0amdq; i0apdq; i0cqxx; i0bmadq; i0bpadq], iused).

(** step3.f90:59-92 and step3ds.f90:70-103 *)
Definition starts3 (maxm ng neq nw : Z) : list Z * Z :=
  let i0wave := 1 in
  let i0s := i0wave + (maxm + 2 * ng) * neq * nw in
  let i0amdq := i0s + (maxm + 2 * ng) * nw in
  let i0apdq := i0amdq + (maxm + 2 * ng) * neq in
  let i0cqxx := i0apdq + (maxm + 2 * ng) * neq in
  let i0bmamdq := i0cqxx + (maxm + 2 * ng) * neq in
  let i0bmapdq := i0bmamdq + (maxm + 2 * ng) * neq in
  let i0bpamdq := i0bmapdq + (maxm + 2 * ng) * neq in
  let i0bpapdq := i0bpamdq + (maxm + 2 * ng) * neq in
  let i0cmamdq := i0bpapdq + (maxm + 2 * ng) * neq in
  let i0cmapdq := i0cmamdq + (maxm + 2 * ng) * neq in
  let i0cpamdq := i0cmapdq + (maxm + 2 * ng) * neq in
  let i0cpapdq := i0cpamdq + (maxm + 2 * ng) * neq in
  let i0cmamdq2 := i0cpapdq + (maxm + 2 * ng) * neq in
  let i0cmapdq2 := i0cmamdq2 + (maxm + 2 * ng) * neq in
  let i0cpamdq2 := i0cmapdq2 + (maxm + 2 * ng) * neq in
  let i0cpapdq2 := i0cpamdq2 + (maxm + 2 * ng) * neq in
  let i0bmcqxxp := i0cpapdq2 + (maxm + 2 * ng) * neq in
  let i0bmcqxxm := i0bmcqxxp + (maxm + 2 * ng) * neq in
  let i0bpcqxxp := i0bmcqxxm + (maxm + 2 * ng) * neq in
  let i0bpcqxxm := i0bpcqxxp + (maxm + 2 * ng) * neq in
  let i0cmcqxxp := i0bpcqxxm + (maxm + 2 * ng) * neq in
  let i0cmcqxxm := i0cmcqxxp + (maxm + 2 * ng) * neq in
  let i0cpcqxxp := i0cmcqxxm + (maxm + 2 * ng) * neq in
  let i0cpcqxxm := i0cpcqxxp + (maxm + 2 * ng) * neq in
  let i0bmcmamdq := i0cpcqxxm + (maxm + 2 * ng) * neq in
  let i0bmcmapdq := i0bmcmamdq + (maxm + 2 * ng) * neq in
  let i0bpcmamdq := i0bmcmapdq + (maxm + 2 * ng) * neq in
  let i0bpcmapdq := i0bpcmamdq + (maxm + 2 * ng) * neq in
  let i0bmcpamdq := i0bpcmapdq + (maxm + 2 * ng) * neq in
  let i0bmcpapdq := i0bmcpamdq + (maxm + 2 * ng) * neq in
  let i0bpcpamdq := i0bmcpapdq + (maxm + 2 * ng) * neq in
  let i0bpcpapdq := i0bpcpamdq + (maxm + 2 * ng) * neq in
  let iused := i0bpcpapdq + (maxm + 2 * ng) * neq - 1 in
  ([i0wave; i0s; i0amdq; i0apdq; i0cqxx; i0bmamdq; i0bmapdq; i0bpamdq; i0bpapdq; i0cmamdq; i0cmapdq; i0cpamdq; i0cpapdq; i0cmamdq2; i0cmapdq2; i0cpamdq2; i0cpapdq2; i0bmcqxxp; i0bmcqxxm; i0bpcqxxp; i0bpcqxxm; i0cmcqxxp; i0cmcqxxm; i0cpcqxxp; i0cpcqxxm; i0bmcmamdq; i0bmcmapdq; i0bpcmamdq; i0bpcmapdq; i0bmcpamdq; i0bmcpapdq; i0bpcpamdq; i0bpcpapdq], iused).

(** step2.f90:66 and the same lines of the other three: the program stops if this holds *)
Definition stops (iused mwork : Z) : bool := Z.ltb mwork iused.

(** flux2.f90:60-76 and flux3.f90:111-159: the shapes with which the pieces are declared, first index fastest *)
Definition shapes (pieces : nat) (maxm ng neq nw : Z) : list (list Z) :=
  [neq; nw; maxm + 2 * ng] :: [nw; maxm + 2 * ng] :: repeat [neq; maxm + 2 * ng] pieces.

(** Fortran's storage order: the place of an element (indices counted from 0) behind the start of its array *)
Fixpoint offset (shape ix : list Z) : Z :=
  match shape, ix with
  | n :: shape, i :: ix => i + n * offset shape ix
  | _, _ => 0
  end.
