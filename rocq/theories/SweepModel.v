(** Model of the classic solvers in two and three dimensions: src/pyclaw/classic/solver.py
    ClawSolver2D and ClawSolver3D (step_hyperbolic, _allocate_workspace, _set_method),
    src/pyclaw/classic/flux2.f90, step2ds.f90, step3ds.f90 and step2.f90.

    Ghosted arrays are functions of the component and of the list of 0-based ghosted indices, as in BCModel.v.
    The one-dimensional slices use the Fortran index 1-num_ghost .. mx+num_ghost (Fortran index i is ghosted
    index i+num_ghost-1).  Riemann solvers work interface by interface and do not use the common block
    comxyt. *)
From Verif Require Import Base BCModel LimiterModel Classic1DModel.

(** What flux2 returns for one slice: the arrays qadd, fadd, gadd(:,1,:), gadd(:,2,:) and cfl1d. *)
Record slice_out := mkSlice {
  qadd : Z -> Z -> Q; fadd : Z -> Z -> Q; gadd1 : Z -> Z -> Q; gadd2 : Z -> Z -> Q; cfl1d : Q }.

(** A transverse Riemann solver rpt2 at one interface: imp (1 or 2), the states on the two sides, the aux
    values left and right of the interface in the slices below, at and above this one, and the fluctuation to be
    split; the result is (bmasdq, bpasdq). *)
Definition rptsolver := Z -> list Q -> list Q -> list (list Q) -> list (list Q) -> list Q -> (Z -> Q) * (Z -> Q).

Section Flux2.
Variables (neq nw naux : nat) (ng mx : Z).
Variable fwave : bool.
Variable order : Z.                  (* method(2) *)
Variable trans : Z.                  (* method(3) *)
Variable mthlim : Z -> Z.
Variable undef : Q -> Q -> Z -> Q.   (* value of philim for a method number it does not handle *)
Variable rpn : rpsolver.
Variable rpt : rptsolver.

(** flux2.f90:133-160 cqxx (flux3.f90:231-259 has the factor 1/2 of fadd in cqxx) *)
Definition f_cqxx (dtdx : Z -> Q) (s : Z -> Z -> Q) (w : Z -> Z -> Z -> Q) (m i : Z) : Q :=
  let dtdxave := (1 # 2) * (dtdx (i - 1)%Z + dtdx i) in
  zsum 0 nw (fun mw =>
    if fwave then dsign1 (s mw i) * (1 - Qabs (s mw i) * dtdxave) * w m mw i
    else Qabs (s mw i) * (1 - Qabs (s mw i) * dtdxave) * w m mw i).

(** flux2.f90:82-206.  [aux1], [aux2], [aux3] are the slices below, at and above.  The statements for qadd
    are those of step1.f90 started from 0; limiter.f90 and the Courant number are those of the 1D solver. *)
Definition flux2 (q1d : Z -> Z -> Q) (dtdx : Z -> Q) (aux1 aux2 aux3 : Z -> Z -> Q) : slice_out :=
  let R := solve_rps rpn neq naux (-1) q1d aux2 in
  let qa := f_godunov mx dtdx R (fun _ _ => 0) in
  let c := f_cfl nw mx dtdx (spd R) in
  let w := if any_limiter nw mthlim then f_limiter neq mx mthlim undef (wave R) (spd R) else wave R in
  let cqxx := f_cqxx dtdx (spd R) w in
  let fa := fun m i => if (negb (Z.eqb order 1) && in_slice (2 - ng) (mx + ng + 1) i)%bool
                       then (1 # 2) * cqxx m i else 0 in
  if Z.leb trans 0 then mkSlice qa fa (fun _ _ => 0) (fun _ _ => 0) c
  else
    let cor := (Z.ltb 1 order && Z.eqb trans 2)%bool in
    let am := fun m i => if (cor && in_slice 1 (mx + 2) i)%bool then amdq R m i + cqxx m i else amdq R m i in
    let ap := fun m i => if (cor && in_slice 1 (mx + 2) i)%bool then apdq R m i - cqxx m i else apdq R m i in
    let split imp asdq i :=
      rpt imp (vec neq q1d (i - 1)) (vec neq q1d i)
        [vec naux aux1 (i - 1); vec naux aux2 (i - 1); vec naux aux3 (i - 1)]
        [vec naux aux1 i; vec naux aux2 i; vec naux aux3 i] (vec neq asdq i) in
    let g (side : (Z -> Q) * (Z -> Q) -> Z -> Q) m i :=
      let g1 := if in_slice 0 (mx + 1) i then 0 - (1 # 2) * dtdx i * side (split 1%Z am (i + 1)%Z) m else 0 in
      if in_slice 1 (mx + 2) i then g1 - (1 # 2) * dtdx i * side (split 2%Z ap i) m else g1 in
    mkSlice qa fa (g fst) (g snd) c.
End Flux2.

(** Settings of a two- or three-dimensional solver and problem; entry d of the functions belongs to dimension d. *)
Record msettings := mkMSet {
  n_neq : nat; n_nw : nat; n_naux : nat; n_ng : nat; n_fwave : bool; n_order : Z; n_mthlim : Z -> Z;
  n_rpn : nat -> rpsolver; n_rpt : nat -> rptsolver; n_delta : nat -> Q; n_dt : Q;
  n_capa : option Z;                 (* state.index_capa, None for -1 *)
  n_bcs : list dimbc; n_funs : userfuns Q }.

Notation no_rpt := (fun _ _ _ _ _ _ => (fun _ : Z => 0, fun _ : Z => 0)) (only parsing).

(** step2ds.f90:78-84, 103-107, 187-191: dtdx1d *)
Definition line_dtdx (S : msettings) (d : nat) (auxrow : Z -> Z -> Q) : Z -> Q :=
  match n_capa S with
  | None => fun _ => n_dt S / n_delta S d
  | Some k => fun i => n_dt S / n_delta S d / auxrow k i
  end.

(** ** Dimensional splitting *)
(** The slice along dimension d through the ghosted index [base], in Fortran indices. *)
Definition slice (ng : nat) (d : nat) (base : list Z) (a : arr Q) : Z -> Z -> Q :=
  fun m i => a m (put d (i + Z.of_nat ng - 1)%Z base).

(** All lists with entry k from list k; the loops over the last dimensions are outermost. *)
Fixpoint cart (rs : list (list Z)) : list (list Z) :=
  match rs with
  | [] => [[]]
  | r :: rs => flat_map (fun l => map (fun x => x :: l) r) (cart rs)
  end.
(** Slices along dimension d that a sweep visits: all cells of the other dimensions and [ext] layers of ghost
    cells on each side; entry d of such an index list is 0. *)
Fixpoint lines_from (k d : nat) (ng : nat) (ext : Z) (ns : list Z) : list (list Z) :=
  match ns with
  | [] => []
  | n :: ns => (if Nat.eqb k d then [0%Z] else zrange (Z.of_nat ng - ext) (Z.to_nat (n + 2 * ext)))
               :: lines_from (S k) d ng ext ns
  end.
Definition lines (d : nat) (ng : nat) (ext : Z) (ns : list Z) : list (list Z) := cart (lines_from 0 d ng ext ns).

Fixpoint zlist_eqb (a b : list Z) : bool :=
  match a, b with
  | [], [] => true
  | x :: a, y :: b => (Z.eqb x y && zlist_eqb a b)%bool
  | _, _ => false
  end.

(** The change of component m in cell i (Fortran index) of a slice: step2ds.f90:153-169 and 239-257,
    step3ds.f90:193-206, 275-288, 358-371 *)
Definition line_change (S : msettings) (d : nat) (F : slice_out) (auxrow : Z -> Z -> Q) (v : Q) (m i : Z) : Q :=
  let dtdx := n_dt S / n_delta S d in
  match n_capa S with
  | None => v + qadd F m i - dtdx * (fadd F m (i + 1)%Z - fadd F m i)
  | Some k => v + qadd F m i - dtdx * (fadd F m (i + 1)%Z - fadd F m i) / auxrow k i
  end.

(** flux2 (flux3) with method(3) = -1 on the slice of [src] along dimension d through [base].  The slices aux1
    and aux3 are not used then. *)
Definition line_flux (undef : Q -> Q -> Z -> Q) (S : msettings) (d : nat) (base : list Z) (auxbc src : arr Q) : slice_out :=
  let auxrow := slice (n_ng S) d base auxbc in
  flux2 (n_neq S) (n_nw S) (n_naux S) (Z.of_nat (n_ng S)) (nth d (map ncells (n_bcs S)) 0%Z) (n_fwave S) (n_order S)
    (-1) (n_mthlim S) undef (n_rpn S d) no_rpt (slice (n_ng S) d base src) (line_dtdx S d auxrow) auxrow auxrow auxrow.

(** step2ds.f90:72-264 with ids = d+1, step3ds.f90:112-378 with idir = d+1.  [alias]: qold and qnew are the
    same array.  [ext]: layers of ghost cells swept in the other dimensions. *)
Definition sweep_body (undef : Q -> Q -> Z -> Q) (S : msettings) (alias : bool) (d : nat) (auxbc qold : arr Q)
    (st : arr Q * Q) (base : list Z) : arr Q * Q :=
  let F := line_flux undef S d base auxbc (if alias then fst st else qold) in
  let mx := nth d (map ncells (n_bcs S)) 0%Z in
  (fun m ix =>
     let i := (get d ix - Z.of_nat (n_ng S) + 1)%Z in
     if (zlist_eqb (put d 0 ix) base && in_slice 1 (mx + 1) i)%bool
     then line_change S d F (slice (n_ng S) d base auxbc) (fst st m ix) m i
     else fst st m ix,
   pymax (snd st) (cfl1d F)).
Definition sweep (undef : Q -> Q -> Z -> Q) (S : msettings) (ext : Z) (alias : bool) (d : nat)
    (auxbc qold qnew : arr Q) : arr Q * Q :=
  fold_left (sweep_body undef S alias d auxbc qold) (lines d (n_ng S) ext (map ncells (n_bcs S))) (qnew, 0).

(** step2ds.f90:96,180 sweeps all ghost layers; step3ds.f90:134-135, 215-216, 298-299 one layer on each side. *)
Definition layers (S : msettings) : Z :=
  match n_bcs S with
  | [_; _; _] => 1
  | _ => Z.of_nat (n_ng S)
  end.

(** The sweeps in dimensions d, d+1, ..., d+k-1, in place. *)
Fixpoint more_sweeps (undef : Q -> Q -> Z -> Q) (S : msettings) (k d : nat) (auxbc : arr Q) (st : arr Q * Q) : arr Q * Q :=
  match k with
  | O => st
  | Datatypes.S k =>
      let r := sweep undef S (layers S) true d auxbc (fst st) (fst st) in
      more_sweeps undef S k (Datatypes.S d) auxbc (fst r, pymax (snd st) (snd r))
  end.
(** classic/solver.py:522-536 and 676-694: the first sweep reads a copy of the ghosted array, the others read
    and write the same array. *)
Definition split_sweeps (undef : Q -> Q -> Z -> Q) (S : msettings) (auxbc qbc : arr Q) : arr Q * Q :=
  more_sweeps undef S (length (n_bcs S) - 1) 1 auxbc (sweep undef S (layers S) false 0 auxbc qbc qbc).

Inductive mresult := MStepped (q : arr Q) (cfl : Q) | MBCError (e : bcerr).

(** classic/solver.py:497-549 and 648-706 step_hyperbolic with dimensional_split = True *)
Definition split_step (undef : Q -> Q -> Z -> Q) (S : msettings) (q aux qbc0 auxbc0 : arr Q) : mresult :=
  match apply_bcs Q Qopp (n_ng S) (Nat.ltb 0 (n_naux S)) (n_funs S) (Z.of_nat (n_neq S)) (n_bcs S) q aux qbc0 auxbc0 with
  | Raised e => MBCError e
  | Ok (qbc, auxbc) =>
      let r := split_sweeps undef S auxbc qbc in
      MStepped (set_q_from_qbc Q (n_ng S) (fst r)) (snd r)
  end.
