(** Specification for the 1D classic solver (C17-C24). *)
From Verif Require Import Base BCModel BCSpec LimiterSpec LimiterModel Classic1DModel.

(** The fluctuations of the Riemann solver sum to the flux difference. *)
Definition conservative (neq : nat) (flux : list Q -> list Q -> Z -> Q) (rp : rpsolver) : Prop :=
  forall ql qr al ar m, (0 <= m < Z.of_nat neq)%Z ->
  o_am (rp ql qr al ar) m + o_ap (rp ql qr al ar) m == flux qr ar m - flux ql al m.

(** The Riemann solver produces no waves and no fluctuations between two copies of the state [u]. *)
Definition at_rest (neq nw : nat) (rp : rpsolver) (u : list Q) : Prop :=
  forall al ar m, (0 <= m < Z.of_nat neq)%Z ->
  o_am (rp u u al ar) m == 0 /\ o_ap (rp u u al ar) m == 0 /\
  forall mw, (0 <= mw < Z.of_nat nw)%Z -> o_wave (rp u u al ar) m mw == 0.

(** Cells, without ghost cells, are numbered 0 .. cells C - 1. *)
Definition cells (C : settings) : Z := ncells (c_bc C).
(** Capacity of a cell: the aux component index_capa, 1 if there is none. *)
Definition capacity (C : settings) (aux : Z -> Z -> Q) (i : Z) : Q :=
  match c_capa C with Some k => aux k i | None => 1 end.
Definition capa_in_aux (C : settings) : Prop :=
  forall k, c_capa C = Some k -> (0 <= k < Z.of_nat (c_naux C))%Z.
(** Capacity-weighted total of component m over the cells lo .. lo+cells-1 *)
Definition total (C : settings) (lo : Z) (aux q : Z -> Z -> Q) (m : Z) : Q :=
  zsum lo (Z.to_nat (cells C)) (fun i => capacity C aux i * q m i).

(** Array without ghost cells as a function of component and cell. *)
Definition flat (a : arr Q) : Z -> Z -> Q := fun m i => a m [i].

(** Periodic boundaries for q and aux, on one process. *)
Definition periodic_bc (D : dimbc) : Prop :=
  q_lo D = Periodic /\ q_hi D = Periodic /\ a_lo D = Periodic /\ a_hi D = Periodic /\
  on_lo D = true /\ on_hi D = true.

(** Every limiter the Python kernel uses works cell by cell (see C26). *)
Definition local_limiters_only (pow : Q -> Q -> Q) (L : lang) (C : settings) : Prop :=
  L = Python -> forall mw f, (0 <= mw < Z.of_nat (c_nw C))%Z ->
  limiter_functions pow (c_mthlim C mw) = Some f -> cell_by_cell f.

(** States in the four cells around the left edge of cell e. *)
Definition around (n : nat) (a : Z -> Z -> Q) (e : Z) : list (list Q) :=
  map (vec n a) [(e - 2)%Z; (e - 1)%Z; e; (e + 1)%Z].

(** Scalar advection with speed u: one wave, the jump. *)
Definition advection (u : Q) : rpsolver := fun ql qr _ _ =>
  let w := hd 0 qr - hd 0 ql in
  mkOut (fun _ _ => w) (fun _ => u) (fun _ => pymin u 0 * w) (fun _ => pymax u 0 * w).
Definition advection_settings (u : Q) (C : settings) : Prop :=
  c_neq C = 1%nat /\ c_nw C = 1%nat /\ c_naux C = 0%nat /\ c_fwave C = false /\
  c_rp C = advection u /\ c_capa C = None.

(** Total variation of a periodic grid function. *)
Definition tv (n : Z) (f : Z -> Q) : Q :=
  zsum 0 (Z.to_nat n) (fun i => Qabs (f ((i + 1) mod n)%Z - f i)).

(** The limiter in use stays in the TVD region for Courant number nu. *)
Definition tvd_limiter (pow : Q -> Q -> Q) (L : lang) (n : Z) (nu : Q) : Prop :=
  match L with
  | Python => exists phi, limiter_functions pow n = Some (map2 phi) /\
                forall c, c == nu -> in_cfl_region nu (fun r => phi r c)
  | Fortran => exists phi, in_cfl_region nu phi /\ forall a b, philim a b n = Some (phi (b / a))
  end.
