(** Specification for parallel runs (C45). *)
From Verif Require Import Base TimeModel BCModel BCSpec Classic1DModel GeometrySpec.

(** A dimension with standard boundary conditions and, if there is a wall, the normal velocity among the
    components; the process holds the cells fst b .. snd b - 1, at least ng of them, and so do the processes
    next to it (PETSc refuses narrower boxes). *)
Definition fit_box (ng : nat) (has_aux : bool) (neq : Z) (D : dimbc) (b : Z * Z) : Prop :=
  let g := Z.of_nat ng in
  (q_lo D = Wall \/ q_hi D = Wall -> 0 <= reflect D < neq)%Z /\
  standard (q_lo D) /\ standard (q_hi D) /\ (has_aux = true -> standard (a_lo D) /\ standard (a_hi D)) /\
  (0 <= fst b /\ fst b < snd b /\ g <= snd b - fst b /\ snd b <= ncells D)%Z /\
  (fst b = 0 \/ g <= fst b)%Z /\ (snd b = ncells D \/ snd b + g <= ncells D)%Z.

(** The cells 0 .. n-1 of one dimension cut into boxes of at least ng cells. *)
Definition decomposed (ng : nat) (n : Z) (bs : list (Z * Z)) : Prop :=
  cuts 0 n bs /\ Forall (fun b => (Z.of_nat ng <= snd b - fst b)%Z) bs.

(** Two runs with the same cells: equal components 0 .. n-1 in the cells 0 .. mx-1. *)
Definition same_cells (n : nat) (mx : Z) (a b : arr Q) : Prop :=
  forall m i, (0 <= m < Z.of_nat n)%Z -> (0 <= i < mx)%Z -> a m [i] = b m [i].
Definition oeq (a b : option Q) : Prop :=
  match a, b with Some x, Some y => x == y | None, None => True | _, _ => False end.
Definition same_solution {X} (C : settings) (a b : sol (option (arr Q)) (arr Q * X)) : Prop :=
  match sq a, sq b with
  | Some q, Some q' => same_cells (c_neq C) (ncells (c_bc C)) q q'
  | None, None => True
  | _, _ => False
  end /\
  same_cells (c_naux C) (ncells (c_bc C)) (fst (sx a)) (fst (sx b)) /\ snd (sx a) = snd (sx b) /\ st a = st b.
(** A callback that acts on the cells only. *)
Definition respects_cells {X} (C : settings) (f : Q -> arr Q -> arr Q * X -> arr Q * (arr Q * X)) : Prop :=
  forall t q q' x x', same_cells (c_neq C) (ncells (c_bc C)) q q' ->
  same_cells (c_naux C) (ncells (c_bc C)) (fst x) (fst x') -> snd x = snd x' ->
  let r := f t q x in let r' := f t q' x' in
  same_cells (c_neq C) (ncells (c_bc C)) (fst r) (fst r') /\
  same_cells (c_naux C) (ncells (c_bc C)) (fst (snd r)) (fst (snd r')) /\ snd (snd r) = snd (snd r').
(** The same attempted steps: sizes, verdicts, Courant numbers, solutions before and after. *)
Definition same_event {X} (C : settings) (a b : event (option (arr Q)) (arr Q * X)) : Prop :=
  ev_accepted a = ev_accepted b /\ ev_dt a = ev_dt b /\ ev_cfl a == ev_cfl b /\
  same_solution C (ev_before a) (ev_before b) /\ same_solution C (ev_after a) (ev_after b).
Definition same_solver {E} (a b : solver E) : Prop :=
  dt a = dt b /\ dt_old a = dt_old b /\ cfl a == cfl b /\ max_steps a = max_steps b /\
  oeq (st_cflmax a) (st_cflmax b) /\ st_dtmin a = st_dtmin b /\ st_dtmax a = st_dtmax b /\
  st_numsteps a = st_numsteps b /\ accept_step a = accept_step b.
