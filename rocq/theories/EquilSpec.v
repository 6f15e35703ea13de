(** Equilibria of one-dimensional problems (C166): data at which the Riemann solver finds nothing to do. *)
From Verif Require Import Base BCModel BCSpec LimiterModel Classic1DModel Classic1DSpec TimeModel RunModel CapaSpec
  SharpModel SemiModel ReconModel.

(** no fluctuations and no waves *)
Definition balanced (neq nw : nat) (o : rpout) : Prop :=
  forall m, (0 <= m < Z.of_nat neq)%Z -> o_am o m == 0 /\ o_ap o m == 0 /\ forall p, (0 <= p < Z.of_nat nw)%Z -> o_wave o m p == 0.
(** the states of cell i, which can be a ghost cell, filled as the boundary conditions document (C13) *)
Definition q_at (C : settings) (q : arr Q) (i : Z) : list Q :=
  map (fun m => q_ghost_value Q Qopp [c_bc C] q (Z.of_nat m) [i]) (seq 0 (c_neq C)).
Definition aux_at (C : settings) (aux : arr Q) (i : Z) : list Q :=
  map (fun m => aux_ghost_value Q [c_bc C] aux (Z.of_nat m) [i]) (seq 0 (c_naux C)).
(** balanced at every interface, the two boundaries included *)
Definition equilibrium (C : settings) (q aux : arr Q) : Prop :=
  forall i, (-1 <= i < cells C)%Z -> balanced (c_neq C) (c_nw C) (c_rp C (q_at C q i) (q_at C q (i + 1)) (aux_at C aux i) (aux_at C aux (i + 1))).
(** the same values in all cells *)
Definition unchanged (C : settings) (q0 aux0 q aux : arr Q) : Prop := agree C (c_neq C) q0 q /\ agree C (c_naux C) aux0 aux.
(** functions of the user (source terms, before_step) that leave these data alone *)
Definition leaves (C : settings) (q0 aux0 : arr Q) (g : sol (arr Q) (arr Q) -> arr Q * arr Q) : Prop :=
  forall so, unchanged C q0 aux0 (sq so) (sx so) -> unchanged C q0 aux0 (fst (g so)) (snd (g so)).

(** ** SharpClaw (C167) *)
(** Equal states and equal auxiliary data in a cell: the fluctuations cancel. *)
Definition at_rest (C : settings) : Prop :=
  forall u a m, length u = c_neq C -> length a = c_naux C -> (0 <= m < Z.of_nat (c_neq C))%Z -> o_am (c_rp C u u a a) m + o_ap (c_rp C u u a a) m == 0.
(** The same of a total fluctuation solver *)
Definition tfluct_at_rest (C : settings) (tf : option (list Q -> list Q -> list Q -> list Q -> Z -> Q)) : Prop :=
  forall f, tf = Some f -> forall ul ur a m, (0 <= m < Z.of_nat (c_neq C))%Z ->
    (forall k, (0 <= k < Z.of_nat (c_neq C))%Z -> nth (Z.to_nat k) ul 0 == nth (Z.to_nat k) ur 0) -> f ul ur a a m == 0.
(** weno5_fwave (flux1.f90:100-101) with a Riemann solver whose speeds are not zero; otherwise the result would not be a number. *)
Definition fwave_recon (eps : Q) (rp : rpsolver) (neq nw naux : nat) (ng mx : Z) ql0 qr0 (q aux : Z -> Z -> Q) : edges :=
  let R := dummy_wave rp neq naux ng q aux in
  let (l, r) := f_weno5_fwave eps neq nw (mx + 2 * ng) (dummy ng ql0) (dummy ng qr0) (wave R) (spd R) (dummy ng q) in
  let get (a : Z -> Z -> option Q) := fun m i => match a m i with Some x => x | None => 0 end in
  undummy ng (get l, get r).
Definition nonzero_speeds (C : settings) : Prop := forall ul ur al ar p, (0 <= p < Z.of_nat (c_nw C))%Z -> ~ o_s (c_rp C ul ur al ar) p == 0.
(** The methods that reconstruct from the waves: first order (lim_type -1) and wave-based WENO in Python, wave-based TVD and, for f-waves,
    WENO in Fortran *)
Inductive wave_based (C : settings) : method -> Prop :=
| first_order eps cd : wave_based C (PyRecon eps (-1) cd)
| python_wave eps : wave_based C (PyRecon eps 2 1)
| fortran_tvd ml un ql0 qr0 tf : c_capa C = None -> tfluct_at_rest C tf ->
    wave_based C (FRecon (tvd_wave_recon ml un (c_rp C) (c_neq C) (c_nw C) (c_naux C) (Z.of_nat (c_ng C)) (cells C) ql0 qr0) tf)
| fortran_fwave eps ql0 qr0 tf : c_capa C = None -> tfluct_at_rest C tf -> nonzero_speeds C ->
    wave_based C (FRecon (fwave_recon eps (c_rp C) (c_neq C) (c_nw C) (c_naux C) (Z.of_nat (c_ng C)) (cells C) ql0 qr0) tf).
(** The same values in all cells, for the solutions of SharpClaw *)
Definition same_cells (C : settings) (u0 u : Z * Z -> Q) : Prop :=
  forall m i, (0 <= m < Z.of_nat (c_neq C))%Z -> (0 <= i < cells C)%Z -> u (m, i) == u0 (m, i).
