(** Equilibria of two- and three-dimensional problems with SharpClaw (C168). *)
From Verif Require Import Base BCModel BCSpec LimiterModel Classic1DModel Classic1DSpec SharpModel SemiModel SemiSpec SweepModel SweepSpec MSemiModel MSemiSpec
  SymProps ReconModel EquilSpec.

(** Nothing to do at any interface of any line of cells, in any dimension, boundaries included *)
Definition mequilibrium (S : msettings) (q aux : arr Q) : Prop :=
  forall d D ix, In (d, D) (dims S) -> in_domain (n_bcs S) ix -> equilibrium (line_settings S d D) (line d ix q) (line d ix aux).
(** A reconstruction that returns the cell values on a slice without waves (cells 1 .. n and the ghost cells next to them) *)
Definition rests {W} (S : msettings) (recon : nat -> W -> (Z -> Z -> Q) -> (Z -> Z -> Q) -> W * edges) : Prop :=
  forall d D w q a, In (d, D) (dims S) ->
  (forall i, (0 <= i <= ncells D)%Z ->
     balanced (n_neq S) (n_nw S) (n_rpn S d (vec (n_neq S) q i) (vec (n_neq S) q (i + 1)) (vec (n_naux S) a i) (vec (n_naux S) a (i + 1)))) ->
  forall m, (0 <= m < Z.of_nat (n_neq S))%Z ->
  (forall i, (1 <= i <= ncells D + 1)%Z -> fst (snd (recon d w q a)) m i == q m i) /\
  (forall i, (0 <= i <= ncells D)%Z -> snd (snd (recon d w q a)) m i == q m i).
(** The Riemann solvers of all dimensions and the total fluctuation solver *)
Definition mregular (S : msettings) : Prop := forall d D, In (d, D) (dims S) -> regular (line_settings S d D).
Definition mat_rest (S : msettings) (tfluct : option (nat -> list Q -> list Q -> list Q -> list Q -> Z -> Q)) : Prop :=
  forall d D, In (d, D) (dims S) ->
  at_rest (line_settings S d D) /\ tfluct_at_rest (line_settings S d D) (option_map (fun tf => tf d) tfluct).
(** The same values in all cells *)
Definition same_mcells (S : msettings) (u0 u : Z * list Z -> Q) : Prop :=
  forall m ix, (0 <= m < Z.of_nat (n_neq S))%Z -> in_domain (n_bcs S) ix -> u (m, ix) == u0 (m, ix).

(** Wave-based TVD on a slice (flux1.f90:71-81, reconstruct.f90:745-822): the size is that of the slice, the workspace consists of ql and qr. *)
Definition slice_size (S : msettings) (d : nat) : Z := match nth_error (n_bcs S) d with Some D => ncells D | None => 0%Z end.
Definition mtvd (mthlim : Z -> Z) (undef : Q) (S : msettings) (d : nat) (w : edges) (q a : Z -> Z -> Q) : edges * edges :=
  let e := tvd_wave_recon mthlim undef (n_rpn S d) (n_neq S) (n_nw S) (n_naux S) (Z.of_nat (n_ng S)) (slice_size S d) (fst w) (snd w) q a in (e, e).
