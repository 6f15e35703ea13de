(** Specification for the classic solvers in two and three dimensions (C33-C35, C61-C63). *)
From Verif Require Import Base BCModel BCSpec LimiterModel Classic1DModel Classic1DSpec SweepModel.

(** Sum of f over all index lists ix with 0 <= entry k of ix < entry k of ns. *)
Fixpoint boxsum (ns : list Z) (f : list Z -> Q) : Q :=
  match ns with
  | [] => f []
  | n :: ns => zsum 0 (Z.to_nat n) (fun i => boxsum ns (fun ix => f (i :: ix)))
  end.

(** Capacity of a cell: the aux component index_capa, 1 if there is none. *)
Definition mcapacity (S : msettings) (aux : arr Q) (ix : list Z) : Q :=
  match n_capa S with Some k => aux k ix | None => 1 end.
Definition mcapa_in_aux (S : msettings) : Prop :=
  forall k, n_capa S = Some k -> (0 <= k < Z.of_nat (n_naux S))%Z.
(** Capacity-weighted total of component m over the grid *)
Definition mtotal (S : msettings) (aux q : arr Q) (m : Z) : Q :=
  boxsum (map ncells (n_bcs S)) (fun ix => mcapacity S aux ix * q m ix).

(** A dimension that is periodic for q and aux, on one process, at least as wide as the ghost cells. *)
Definition periodic_dim (ng : nat) (D : dimbc) : Prop := periodic_bc D /\ (Z.of_nat ng <= ncells D)%Z.

(** Does the method look at neighbouring waves?  It does if it is of second order and limits some wave. *)
Definition limits (S : msettings) : Prop :=
  n_order S <> 1%Z /\ exists mw, (0 <= mw < Z.of_nat (n_nw S))%Z /\ (0 < n_mthlim S mw)%Z.

(** The Riemann solver of each dimension is conservative with that dimension's flux function. *)
Definition all_conservative (S : msettings) (flux : nat -> list Q -> list Q -> Z -> Q) : Prop :=
  forall d, (d < length (n_bcs S))%nat -> conservative (n_neq S) (flux d) (n_rpn S d).

(** The split step with a fresh output array for every sweep. *)
Fixpoint separate_sweeps (undef : Q -> Q -> Z -> Q) (S : msettings) (k d : nat) (auxbc : arr Q) (st : arr Q * Q) : arr Q * Q :=
  match k with
  | O => st
  | Datatypes.S k =>
      let r := sweep undef S (layers S) false d auxbc (fst st) (fst st) in
      separate_sweeps undef S k (Datatypes.S d) auxbc (fst r, pymax (snd st) (snd r))
  end.

(** The one-dimensional problem along dimension d of a multi-dimensional one. *)
Definition line_settings (S : msettings) (d : nat) (D : dimbc) : settings :=
  mkSet (n_neq S) (n_nw S) (n_naux S) (n_ng S) (n_fwave S) (n_order S) (n_mthlim S) (n_rpn S d) (n_delta S d) (n_dt S)
        (n_capa S) D (n_funs S).

(** A sweep along dimension d visits the slice through the cell, with [layers S] layers of ghost cells in the other
    dimensions, and changes the cells that lie inside the grid in dimension d. *)
Definition visited (S : msettings) (d : nat) (ix : list Z) : Prop :=
  length ix = length (n_bcs S) /\ forall j, (j < length (n_bcs S))%nat ->
  let e := if Nat.eqb j d then 0%Z else layers S in
  (Z.of_nat (n_ng S) - e <= get j ix < Z.of_nat (n_ng S) + nth j (map ncells (n_bcs S)) 0 + e)%Z.

(** A Riemann solver that produces nothing between two equal states with equal aux values. *)
Definition still (neq nw : nat) (rp : rpsolver) : Prop :=
  forall u a m, (0 <= m < Z.of_nat neq)%Z ->
  o_am (rp u u a a) m == 0 /\ o_ap (rp u u a a) m == 0 /\
  forall mw, (0 <= mw < Z.of_nat nw)%Z -> o_wave (rp u u a a) m mw == 0.

(** Boundary conditions under which data that does not vary across the dimension stays so in the ghost cells. *)
Definition flat_bc (ng : nat) (D : dimbc) : Prop :=
  on_lo D = true /\ on_hi D = true /\ (1 <= ncells D)%Z /\
  (forall t, In t [q_lo D; q_hi D; a_lo D; a_hi D] -> t = Extrap \/ t = Periodic /\ (Z.of_nat ng <= ncells D)%Z).

(** The ghosted array that the sweep along dimension d starts from. *)
Fixpoint before (undef : Q -> Q -> Z -> Q) (S : msettings) (auxbc qbc : arr Q) (d : nat) : arr Q :=
  match d with
  | O => qbc
  | Datatypes.S d => let x := before undef S auxbc qbc d in fst (sweep undef S (layers S) (Nat.ltb 0 d) d auxbc x x)
  end.

(** The cell [ix] and its lower neighbour along d have a common face at which a sweep solves a Riemann problem that
    changes a cell inside the grid. *)
Definition face (S : msettings) (d : nat) (ix : list Z) : Prop :=
  length ix = length (n_bcs S) /\ forall j, (j < length (n_bcs S))%nat ->
  let n := nth j (map ncells (n_bcs S)) 0%Z in
  if Nat.eqb j d then (Z.of_nat (n_ng S) <= get j ix <= Z.of_nat (n_ng S) + n)%Z
  else (Z.of_nat (n_ng S) - layers S <= get j ix < Z.of_nat (n_ng S) + n + layers S)%Z.
Definition lower (d : nat) (ix : list Z) : list Z := put d (get d ix - 1)%Z ix.
Definition cell_vec (n : nat) (a : arr Q) (ix : list Z) : list Q := vec n (fun m _ => a m ix) 0.
(** The speed of wave p at that face. *)
Definition face_speed (S : msettings) (d : nat) (auxbc x : arr Q) (ix : list Z) (p : Z) : Q :=
  o_s (n_rpn S d (cell_vec (n_neq S) x (lower d ix)) (cell_vec (n_neq S) x ix)
                 (cell_vec (n_naux S) auxbc (lower d ix)) (cell_vec (n_naux S) auxbc ix)) p.
(** Time step over the size of the cell. *)
Definition cell_ratio (S : msettings) (d : nat) (auxbc : arr Q) (ix : list Z) : Q :=
  match n_capa S with None => n_dt S / n_delta S d | Some k => n_dt S / n_delta S d / auxbc k ix end.
(** How many of the cells it enters a wave crosses in one step. *)
Definition crossed (S : msettings) (d : nat) (auxbc x : arr Q) (ix : list Z) (p : Z) (v : Q) : Prop :=
  v = cell_ratio S d auxbc ix * face_speed S d auxbc x ix p \/
  v = - cell_ratio S d auxbc (lower d ix) * face_speed S d auxbc x ix p.
