(** Specification for the SharpClaw semi-discretisation in two and three dimensions (C87-C89). *)
From Verif Require Import Base BCModel BCSpec Classic1DModel Classic1DSpec SharpModel SemiModel SemiSpec SweepModel SweepSpec MSemiModel.

(** The dimensions of a problem with their numbers. *)
Definition dims (S : msettings) : list (nat * dimbc) := combine (seq 0 (length (n_bcs S))) (n_bcs S).

(** A one-dimensional problem is a line of cells: the values of a along dimension d on the line through the cell ix. *)
Definition line (d : nat) (ix : list Z) (a : arr Q) : arr Q := fun m l => a m (put d (hd 0%Z l) (put d 0%Z ix)).

(** The edge values of the cells of a line depend on the values of q and aux on that line and its ghost cells and on
    nothing else: not on what the workspace contained before. *)
Definition determined {W} (S : msettings) (recon : nat -> W -> (Z -> Z -> Q) -> (Z -> Z -> Q) -> W * edges) : Prop :=
  forall d D, In (d, D) (dims S) -> forall w w' q q' a a',
  let g := Z.of_nat (n_ng S) in
  (forall m i, (0 <= m < Z.of_nat (n_neq S))%Z -> (1 - g <= i <= ncells D + g)%Z -> q m i = q' m i) ->
  (forall m i, (0 <= m < Z.of_nat (n_naux S))%Z -> (1 - g <= i <= ncells D + g)%Z -> a m i = a' m i) ->
  let e := snd (recon d w q a) in
  let e' := snd (recon d w' q' a') in
  forall m, (0 <= m < Z.of_nat (n_neq S))%Z ->
  (forall i, (1 <= i <= ncells D + 1)%Z -> fst e m i = fst e' m i) /\
  (forall i, (0 <= i <= ncells D)%Z -> snd e m i = snd e' m i).

(** What the one-dimensional solver computes for the line through the cell ix along dimension d, with the
    reconstruction, the Riemann solver, the boundary conditions and the cell size of that dimension. *)
Definition along {W} (recon : nat -> W -> (Z -> Z -> Q) -> (Z -> Z -> Q) -> W * edges)
    (tfluct : option (nat -> list Q -> list Q -> list Q -> list Q -> Z -> Q)) (S : msettings)
    (w : W) (q aux qbc0 auxbc0 : arr Q) (dD : nat * dimbc) (ix : list Z) : semiresult :=
  let (d, D) := dD in
  dq_hyperbolic (FRecon (fun q a => snd (recon d w q a)) (option_map (fun tf => tf d) tfluct)) (line_settings S d D)
    (line d ix q) (line d ix aux) qbc0 auxbc0.
Definition dq_of (r : semiresult) (m i : Z) : Q := match r with DQ d _ => d m i | _ => 0 end.

(** The cell lies in the grid or in the first layer of ghost cells in all dimensions but d. *)
Definition next_to_grid (S : msettings) (d : nat) (ix : list Z) : Prop :=
  length ix = length (n_bcs S) /\
  forall j D, In (j, D) (dims S) -> j <> d -> (-1 <= get j ix <= ncells D)%Z.

(** Total of component m over the grid (no capacity function). *)
Definition mtotal1 (S : msettings) (m : Z) (u : Z * list Z -> Q) : Q :=
  boxsum (map ncells (n_bcs S)) (fun ix => u (m, ix)).
Definition as_marr (u : Z * list Z -> Q) : arr Q := fun m ix => u (m, ix).
(** The same problem with time step 1. *)
Definition munit_dt (S : msettings) : msettings :=
  mkMSet (n_neq S) (n_nw S) (n_naux S) (n_ng S) (n_fwave S) (n_order S) (n_mthlim S) (n_rpn S) (n_rpt S) (n_delta S)
    1 (n_capa S) (n_bcs S) (n_funs S).
(** dq/dt as a function of time and solution; w t u: what the workspace contains then. *)
Definition mrhs {W} (recon : nat -> W -> (Z -> Z -> Q) -> (Z -> Z -> Q) -> W * edges)
    (tfluct : option (nat -> list Q -> list Q -> list Q -> list Q -> Z -> Q)) (S : msettings)
    (w : Q -> (Z * list Z -> Q) -> W) (aux qbc0 auxbc0 : arr Q) (t : Q) (u : Z * list Z -> Q) : Z * list Z -> Q :=
  fun mi => match mdq_hyperbolic recon tfluct Fortran (munit_dt S) (w t u) (as_marr u) aux qbc0 auxbc0 with
            | MDQ d _ => d (fst mi) (snd mi)
            | _ => 0
            end.

(** The reconstruction treats both ends of a periodic line alike, and a total fluctuation solver returns the
    flux difference. *)
Definition msound {W} (S : msettings) (flux : nat -> list Q -> list Q -> Z -> Q)
    (recon : nat -> W -> (Z -> Z -> Q) -> (Z -> Z -> Q) -> W * edges)
    (tfluct : option (nat -> list Q -> list Q -> list Q -> list Q -> Z -> Q)) : Prop :=
  forall d D w, In (d, D) (dims S) ->
  sound_method (line_settings S d D) (flux d) (FRecon (fun q a => snd (recon d w q a)) (option_map (fun tf => tf d) tfluct)).

(** The Fortran reconstruction weno_comp of order 5 on a slice: it is told the size of the longest dimension
    (sharpclaw/solver.py:884, 969; flux1.f90:90), the workspace consists of ql and qr. *)
Definition longest (S : msettings) : Z := fold_right Z.max 0%Z (map ncells (n_bcs S)).
Definition mweno5 (eps : Q) (S : msettings) (d : nat) (w : edges) (q a : Z -> Z -> Q) : edges * edges :=
  let e := fortran_weno5 eps (Z.of_nat (n_ng S)) (longest S) (fst w) (snd w) q a in (e, e).

(** A Riemann solver that produces no fluctuations between two states that are equal as numbers, with equal aux
    values; likewise a total fluctuation solver. *)
Definition quiet (neq : nat) (rp : rpsolver) : Prop :=
  forall ul ur al ar m, (0 <= m < Z.of_nat neq)%Z -> Forall2 Qeq ul ur -> Forall2 Qeq al ar ->
  o_am (rp ul ur al ar) m == 0 /\ o_ap (rp ul ur al ar) m == 0.
Definition quiet_tfluct (neq : nat) (tf : list Q -> list Q -> list Q -> list Q -> Z -> Q) : Prop :=
  forall ul ur al ar m, (0 <= m < Z.of_nat neq)%Z -> Forall2 Qeq ul ur -> Forall2 Qeq al ar -> tf ul ur al ar m == 0.
(** The reconstruction of a constant is that constant. *)
Definition keeps_constants {W} (S : msettings) (recon : nat -> W -> (Z -> Z -> Q) -> (Z -> Z -> Q) -> W * edges) : Prop :=
  forall d D w q a u, In (d, D) (dims S) ->
  (forall m i, (0 <= m < Z.of_nat (n_neq S))%Z -> (1 - Z.of_nat (n_ng S) <= i <= ncells D + Z.of_nat (n_ng S))%Z -> q m i == u m) ->
  forall m, (0 <= m < Z.of_nat (n_neq S))%Z ->
  (forall i, (1 <= i <= ncells D + 1)%Z -> fst (snd (recon d w q a)) m i == u m) /\
  (forall i, (0 <= i <= ncells D)%Z -> snd (snd (recon d w q a)) m i == u m).
(** The solution u is uniform: component m is c m in all cells of the grid. *)
Definition uniform (S : msettings) (n : nat) (a : arr Q) (c : Z -> Q) : Prop :=
  forall m ix, (0 <= m < Z.of_nat n)%Z -> in_domain (n_bcs S) ix -> a m ix == c m.
