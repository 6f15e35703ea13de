(** Specification for the SharpClaw semi-discretisation (C32). *)
From Verif Require Import Base BCModel BCSpec Classic1DModel Classic1DSpec SharpModel SemiModel.

(** A Fortran reconstruction treats periodic ghosted data (cells 1-ng .. mx+ng) alike at both ends of the
    domain: the edge values next to interface 1 are those next to interface mx+1. *)
Definition keeps_period (neq naux : nat) (ng mx : Z) (r : (Z -> Z -> Q) -> (Z -> Z -> Q) -> edges) : Prop :=
  forall q aux,
  (forall m i, (0 <= m < Z.of_nat neq)%Z -> (1 - ng <= i <= ng)%Z -> q m i = q m (i + mx)%Z) ->
  (forall m i, (0 <= m < Z.of_nat naux)%Z -> (1 - ng <= i <= ng)%Z -> aux m i = aux m (i + mx)%Z) ->
  forall m, (0 <= m < Z.of_nat neq)%Z ->
  snd (r q aux) m 0%Z = snd (r q aux) m mx /\ fst (r q aux) m 1%Z = fst (r q aux) m (mx + 1)%Z.

(** The reconstruction is one of the above and a total fluctuation solver, if any, returns the flux difference. *)
Definition sound_method (C : settings) (flux : list Q -> list Q -> Z -> Q) (M : method) : Prop :=
  match M with
  | PyRecon _ _ _ => True
  | FRecon r tf =>
      keeps_period (c_neq C) (c_naux C) (Z.of_nat (c_ng C)) (ncells (c_bc C)) r /\
      forall tf', tf = Some tf' -> forall ql qr a m, (0 <= m < Z.of_nat (c_neq C))%Z ->
        tf' ql qr a a m == flux qr a m - flux ql a m
  end.

(** Total of component m of a solution u (component and cell), weighted with the capacity. *)
Definition mass (C : settings) (aux : arr Q) (m : Z) (u : Z * Z -> Q) : Q :=
  total C 0 (flat aux) (fun m i => u (m, i)) m.
(** A solution as an array. *)
Definition as_arr (u : Z * Z -> Q) : arr Q := fun m ix => u (m, hd 0%Z ix).
(** The same settings with time step 1. *)
Definition unit_dt (C : settings) : settings :=
  mkSet (c_neq C) (c_nw C) (c_naux C) (c_ng C) (c_fwave C) (c_order C) (c_mthlim C) (c_rp C)
    (c_dx C) 1 (c_capa C) (c_bc C) (c_funs C).
(** dq/dt as a function of the solution. *)
Definition rhs (M : method) (C : settings) (aux qbc0 auxbc0 : arr Q) (t : Q) (u : Z * Z -> Q) : Z * Z -> Q :=
  fun mi => match dq_hyperbolic M (unit_dt C) (as_arr u) aux qbc0 auxbc0 with
            | DQ d _ => d (fst mi) (snd mi)
            | _ => 0
            end.

(** Functions of a solution that are linear. *)
Definition linear {Idx} (L : (Idx -> Q) -> Q) : Prop :=
  (forall u v, L (vadd u v) == L u + L v) /\ (forall a u, L (vscale a u) == a * L u).
