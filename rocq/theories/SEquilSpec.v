(** Equilibria of two- and three-dimensional problems with the dimensionally split classic solver (C169). *)
From Verif Require Import Base BCModel BCSpec LimiterModel Classic1DModel Classic1DSpec SweepModel SweepSpec SymProps EquilSpec.

(** The states of the cell at pos (counted from 0 in every dimension), which can be a ghost cell, filled as the boundary conditions document (C13) *)
Definition q_cell (S : msettings) (q : arr Q) (pos : list Z) : list Q :=
  map (fun m => q_ghost_value Q Qopp (n_bcs S) q (Z.of_nat m) pos) (seq 0 (n_neq S)).
Definition aux_cell (S : msettings) (aux : arr Q) (pos : list Z) : list Q :=
  map (fun m => aux_ghost_value Q (n_bcs S) aux (Z.of_nat m) pos) (seq 0 (n_naux S)).
(** Nothing to do at any face at which a sweep solves a Riemann problem, between cells or ghost cells ([face] counts from the first ghost cell) *)
Definition split_equilibrium (S : msettings) (q aux : arr Q) : Prop :=
  forall d pos, (d < length (n_bcs S))%nat -> face S d (shift (Z.of_nat (n_ng S)) pos) ->
  balanced (n_neq S) (n_nw S)
    (n_rpn S d (q_cell S q (lower d pos)) (q_cell S q pos) (aux_cell S aux (lower d pos)) (aux_cell S aux pos)).
(** Riemann solvers that give equal answers for equal states *)
Definition sregular (S : msettings) : Prop := forall d D, (d < length (n_bcs S))%nat -> regular (line_settings S d D).
(** Equal values in all cells *)
Definition equal_cells (S : msettings) (q0 q : arr Q) : Prop :=
  forall m ix, (0 <= m < Z.of_nat (n_neq S))%Z -> in_domain (n_bcs S) ix -> q m ix == q0 m ix.
(** The same problem with another time step *)
Definition with_dt (S : msettings) (dt : Q) : msettings :=
  mkMSet (n_neq S) (n_nw S) (n_naux S) (n_ng S) (n_fwave S) (n_order S) (n_mthlim S) (n_rpn S) (n_rpt S) (n_delta S) dt (n_capa S) (n_bcs S) (n_funs S).
(** Steps of any sizes, one after the other, each starting with whatever the ghosted arrays hold *)
Inductive split_steps (undef : Q -> Q -> Z -> Q) (S : msettings) (aux : arr Q) : list Q -> arr Q -> arr Q -> Prop :=
| no_step q : split_steps undef S aux [] q q
| one_more dt dts q q1 q2 cfl qbc0 auxbc0 :
    split_step undef (with_dt S dt) q aux qbc0 auxbc0 = MStepped q1 cfl -> split_steps undef S aux dts q1 q2 -> split_steps undef S aux (dt :: dts) q q2.
