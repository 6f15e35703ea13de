(** Specification for parallel SharpClaw runs (C150). *)
From Verif Require Import Base TimeModel BCModel Classic1DModel SemiModel ParallelSpec.

(** A reconstruction (for any number of cells) whose edge values at the interfaces of a grid are determined by the
    num_ghost cells around, in the same way everywhere: if the arrays (q', a') of a grid of n' cells are the part of
    (q, a) from cell o on, ghost cells included, then so are the edge values next to its interfaces 1 .. n'+1. *)
Definition local_recon (neq naux : nat) (ng : Z) (r : Z -> (Z -> Z -> Q) -> (Z -> Z -> Q) -> edges) : Prop :=
  forall n n' o q q' a a', (1 <= n')%Z -> (0 <= o)%Z -> (o + n' <= n)%Z ->
  (forall m i, (0 <= m < Z.of_nat neq)%Z -> (1 - ng <= i <= n' + ng)%Z -> q' m i = q m (i + o)%Z) ->
  (forall m i, (0 <= m < Z.of_nat naux)%Z -> (1 - ng <= i <= n' + ng)%Z -> a' m i = a m (i + o)%Z) ->
  forall m, (0 <= m < Z.of_nat neq)%Z ->
  (forall i, (0 <= i <= n')%Z -> snd (r n' q' a') m i = snd (r n q a) m (i + o)%Z) /\
  (forall i, (1 <= i <= n' + 1)%Z -> fst (r n' q' a') m i = fst (r n q a) m (i + o)%Z).

(** A method for every number of cells: the Python code, or a local Fortran reconstruction. *)
Definition local_method (C : settings) (M : Z -> method) : Prop :=
  (exists eps lim cd, forall n, M n = PyRecon eps lim cd) \/
  (exists r tf, (forall n, M n = FRecon (r n) tf) /\ local_recon (c_neq C) (c_naux C) (Z.of_nat (c_ng C)) r).
Definition local_fortran (C : settings) (M : Z -> method) : Prop :=
  exists r tf, (forall n, M n = FRecon (r n) tf) /\ local_recon (c_neq C) (c_naux C) (Z.of_nat (c_ng C)) r.

(** The same cells, for functions of component and cell. *)
Definition agree (C : settings) (u v : Z * Z -> Q) : Prop :=
  forall m i, (0 <= m < Z.of_nat (c_neq C))%Z -> (0 <= i < ncells (c_bc C))%Z -> u (m, i) = v (m, i).
Definition same_rest {X} (C : settings) (x y : arr Q * X) : Prop :=
  same_cells (c_naux C) (ncells (c_bc C)) (fst x) (fst y) /\ snd x = snd y.
Definition agree_sol {X} (C : settings) (a b : sol (Z * Z -> Q) (arr Q * X)) : Prop :=
  agree C (sq a) (sq b) /\ same_rest C (sx a) (sx b) /\ st a = st b.
(** Functions of the user that act on the cells only: before_step, the hook of the stages, dq_src. *)
Definition local_before {X} (C : settings) (f : sol (Z * Z -> Q) (arr Q * X) -> (Z * Z -> Q) * (arr Q * X)) : Prop :=
  forall a b, agree_sol C a b -> agree C (fst (f a)) (fst (f b)) /\ same_rest C (snd (f a)) (snd (f b)).
Definition local_hook (C : settings) (h : Q -> (Z * Z -> Q) -> Z * Z -> Q) : Prop :=
  forall t u v, agree C u v -> agree C (h t u) (h t v).
Definition local_src {X} (C : settings) (f : arr Q * X -> Q -> (Z * Z -> Q) -> Z * Z -> Q) : Prop :=
  forall x y t u v, same_rest C x y -> agree C u v -> agree C (f x t u) (f y t v).

(** The same attempted steps: sizes, verdicts, Courant numbers, solutions before and after. *)
Definition agree_event {X} (C : settings) (a b : event (Z * Z -> Q) (arr Q * X)) : Prop :=
  ev_accepted a = ev_accepted b /\ ev_dt a = ev_dt b /\ ev_cfl a == ev_cfl b /\
  agree_sol C (ev_before a) (ev_before b) /\ agree_sol C (ev_after a) (ev_after b).
