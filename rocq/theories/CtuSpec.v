(** The unsplit method in two dimensions, cell by cell and face by face (C130), and exchanged axes (C131, C132). *)
From Verif Require Import Base BCModel LimiterModel Classic1DModel SweepModel SweepSpec.

Definition upper (d : nat) (ix : list Z) : list Z := put d (get d ix + 1)%Z ix.

Section Method.
Variable undef : Q -> Q -> Z -> Q.
Variable S : msettings.
Variable trans : Z.                 (* solver.transverse_waves *)
Variable aux x : arr Q.             (* with ghost cells *)
Notation neq := (n_neq S).

(** The Riemann problem between a cell and its lower neighbour along d *)
Definition at_face (d : nat) (ix : list Z) : rpout :=
  n_rpn S d (cell_vec neq x (lower d ix)) (cell_vec neq x ix) (cell_vec (n_naux S) aux (lower d ix)) (cell_vec (n_naux S) aux ix).
Definition face_wave (d : nat) (ix : list Z) (m p : Z) : Q := o_wave (at_face d ix) m p.
(** Wave p, limited by comparison with wave p at the next face upwind *)
Definition dot (d : nat) (ix ix' : list Z) (p : Z) : Q := zsum 0 neq (fun m => face_wave d ix m p * face_wave d ix' m p).
Definition limited_wave (d : nat) (ix : list Z) (m p : Z) : Q :=
  let w := face_wave d ix m p in
  let lim := n_mthlim S p in
  if negb (any_limiter (n_nw S) (n_mthlim S)) || Z.eqb lim 0 || qeqb (dot d ix ix p) 0 then w
  else
    let n2 := dot d ix ix p in
    let b := if qltb 0 (o_s (at_face d ix) p) then dot d (lower d ix) ix p else dot d ix (upper d ix) p in
    match philim n2 b lim with Some v => v | None => undef n2 b lim end * w.
(** Twice the second-order correction flux *)
Definition correction (d : nat) (ix : list Z) (m : Z) : Q :=
  let r := (1 # 2) * (cell_ratio S d aux (lower d ix) + cell_ratio S d aux ix) in
  zsum 0 (n_nw S) (fun p =>
    let s := o_s (at_face d ix) p in
    if n_fwave S then dsign1 s * (1 - Qabs s * r) * limited_wave d ix m p
    else Qabs s * (1 - Qabs s * r) * limited_wave d ix m p).
(** The parts of the fluctuation that go down and up along d; with transverse_waves = 2 (trans_cor) and a second-order method they
    include the correction. *)
Definition with_correction : bool := (Z.ltb 1 (n_order S) && Z.eqb trans 2)%bool.
Definition down_part (d : nat) (ix : list Z) (m : Z) : Q :=
  if with_correction then o_am (at_face d ix) m + correction d ix m else o_am (at_face d ix) m.
Definition up_part (d : nat) (ix : list Z) (m : Z) : Q :=
  if with_correction then o_ap (at_face d ix) m - correction d ix m else o_ap (at_face d ix) m.
(** The transverse solver at this face: it gets the auxiliary values of the cells on both sides of the face and of
    their neighbours across, in the order below, here, above. *)
Definition column (d : nat) (ix : list Z) : list (list Q) :=
  [cell_vec (n_naux S) aux (lower (1 - d) ix); cell_vec (n_naux S) aux ix; cell_vec (n_naux S) aux (upper (1 - d) ix)].
Definition transverse (d : nat) (ix : list Z) (imp : Z) (part : list Z -> Z -> Q) : (Z -> Q) * (Z -> Q) :=
  n_rpt S d imp (cell_vec neq x (lower d ix)) (cell_vec neq x ix) (column d (lower d ix)) (column d ix) (cell_vec neq (fun m ix => part ix m) ix).
(** What enters a cell from its two faces along d and goes down (up) across: half of what happens in a time step *)
Definition leaves_down (d : nat) (ix : list Z) (m : Z) : Q :=
  cell_ratio S d aux ix * (fst (transverse d (upper d ix) 1 (down_part d)) m + fst (transverse d ix 2 (up_part d)) m).
Definition leaves_up (d : nat) (ix : list Z) (m : Z) : Q :=
  cell_ratio S d aux ix * (snd (transverse d (upper d ix) 1 (down_part d)) m + snd (transverse d ix 2 (up_part d)) m).
(** Flux through the face between a cell and its lower neighbour across d *)
Definition transverse_flux (d : nat) (ix : list Z) (m : Z) : Q :=
  - (1 # 2) * (leaves_down d ix m + leaves_up d (lower (1 - d) ix) m).
Definition transverse_change (d : nat) (ix : list Z) (m : Z) : Q :=
  if Z.leb trans 0 then 0
  else - (n_dt S / n_delta S (1 - d) / mcapacity S aux ix) * (transverse_flux d (upper (1 - d) ix) m - transverse_flux d ix m).
End Method.

(** The same problem with the axes exchanged *)
Definition exchanged (S : msettings) : msettings :=
  mkMSet (n_neq S) (n_nw S) (n_naux S) (n_ng S) (n_fwave S) (n_order S) (n_mthlim S)
    (fun d => n_rpn S (1 - d)) (fun d => n_rpt S (1 - d)) (fun d => n_delta S (1 - d)) (n_dt S) (n_capa S) (rev (n_bcs S)) (n_funs S).
Definition transposed (a : arr Q) : arr Q := fun m ix => a m (rev ix).
