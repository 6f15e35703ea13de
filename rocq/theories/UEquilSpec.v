(** Equilibria of two-dimensional problems with the unsplit classic solver (C170). *)
From Verif Require Import Base BCModel BCSpec LimiterModel Classic1DModel Classic1DSpec SweepModel SweepSpec UnsplitModel UnsplitSpec EquilSpec SEquilSpec.

(** Nothing to do at any face at which the solver solves a Riemann problem: as [split_equilibrium], with one layer of ghost cells across *)
Definition unsplit_equilibrium (S : msettings) (q aux : arr Q) : Prop :=
  forall d pos, (d < length (n_bcs S))%nat -> face1 S d (shift (Z.of_nat (n_ng S)) pos) ->
  balanced (n_neq S) (n_nw S)
    (n_rpn S d (q_cell S q (lower d pos)) (q_cell S q pos) (aux_cell S aux (lower d pos)) (aux_cell S aux pos)).
(** Steps of any sizes, one after the other *)
Inductive unsplit_steps (undef : Q -> Q -> Z -> Q) (S : msettings) (trans : Z) (aux : arr Q) : list Q -> arr Q -> arr Q -> Prop :=
| no_ustep q : unsplit_steps undef S trans aux [] q q
| one_more_ustep dt dts q q1 q2 cfl qbc0 auxbc0 :
    unsplit_step undef (with_dt S dt) trans q aux qbc0 auxbc0 = MStepped q1 cfl -> unsplit_steps undef S trans aux dts q1 q2 ->
    unsplit_steps undef S trans aux (dt :: dts) q q2.
