(** Specification for the unsplit two-dimensional solver (C34, C65, C66). *)
From Verif Require Import Base BCModel LimiterModel Classic1DModel Classic1DSpec SweepModel SweepSpec.

(** A transverse solver that splits a zero fluctuation into zeros. *)
Definition splits_nothing (neq : nat) (rpt : rptsolver) : Prop :=
  forall imp ql qr al ar dq, Forall (fun x => x == 0) dq ->
  forall m, (0 <= m < Z.of_nat neq)%Z -> fst (rpt imp ql qr al ar dq) m == 0 /\ snd (rpt imp ql qr al ar dq) m == 0.

(** The faces at which the unsplit solver solves Riemann problems that change cells inside the grid: like [face] in
    SweepSpec.v, but with one layer of ghost cells across. *)
Definition face1 (S : msettings) (d : nat) (ix : list Z) : Prop :=
  length ix = length (n_bcs S) /\ forall j, (j < length (n_bcs S))%nat ->
  let n := nth j (map ncells (n_bcs S)) 0%Z in
  if Nat.eqb j d then (Z.of_nat (n_ng S) <= get j ix <= Z.of_nat (n_ng S) + n)%Z
  else (Z.of_nat (n_ng S) - 1 <= get j ix < Z.of_nat (n_ng S) + n + 1)%Z.
