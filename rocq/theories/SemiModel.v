(** Model of the 1D SharpClaw semi-discretisation: src/pyclaw/sharpclaw/solver.py
    SharpClawSolver1D.dq_hyperbolic, src/pyclaw/sharpclaw/flux1.f90 and
    src/pyclaw/limiters/recon.py weno5_wave.

    Conventions as in Classic1DModel.v: Python arrays use the 0-based ghosted index, interface j lies between
    cells j and j+1; flux1's arrays use the Fortran index 1-num_ghost .. mx+num_ghost, interface i lies between
    cells i-1 and i. *)
From Verif Require Import Base BCModel Classic1DModel WenoModel.

(** Edge values of all cells: ql at the left edge, qr at the right edge. *)
Definition edges := ((Z -> Z -> Q) * (Z -> Z -> Q))%type.

(** ** Reconstruction *)
Section Recon.
Variable eps : Q.
Variables (neq nw : nat).
Variable N : Z.

(** recon.py:77-113 for one wave family mw at interface i: u / wnorm2, the factor of the wave.
    k = 1 for m1 = 1 and -1 for m1 = 2. *)
Definition wave_factor (w : Z -> Z -> Z -> Q) (k mw i : Z) : Q :=
  let im := inject_Z k in
  let dot j := zsum 0 neq (fun m => w m mw j * w m mw i) in
  let wnorm2 := dot i in
  let theta1 := dot (i - 2 * k)%Z in
  let theta2 := dot (i - k)%Z in
  let theta3 := dot (i + k)%Z in
  let t1 := im * (theta1 - theta2) in
  let t2 := im * (theta2 - wnorm2) in
  let t3 := im * (wnorm2 - theta3) in
  let tt1 := 13 * (t1 * t1) + 3 * ((theta1 - 3 * theta2) * (theta1 - 3 * theta2)) in
  let tt2 := 13 * (t2 * t2) + 3 * ((theta2 + wnorm2) * (theta2 + wnorm2)) in
  let tt3 := 13 * (t3 * t3) + 3 * ((3 * wnorm2 - theta3) * (3 * wnorm2 - theta3)) in
  let tt1 := (eps + tt1) * (eps + tt1) in
  let tt2 := (eps + tt2) * (eps + tt2) in
  let tt3 := (eps + tt3) * (eps + tt3) in
  let s1 := tt2 * tt3 in
  let s2 := 6 * tt1 * tt3 in
  let s3 := 3 * tt1 * tt2 in
  let t0 := 1 / (s1 + s2 + s3) in
  let s1 := s1 * t0 in
  let s3 := s3 * t0 in
  let z := (s1 * (t2 - t1) + ((1 # 2) * s3 - (1 # 4)) * (t3 - t2)) / 3
           + im * (theta2 + 6 * wnorm2 - theta3) / 12 in
  if qltb (1 # 100000000000000) wnorm2 then z * (1 / wnorm2) else 0 * 1.

(** recon.py:57-115 weno5_wave *)
Definition weno5_wave (q : Z -> Z -> Q) (w : Z -> Z -> Z -> Q) : edges :=
  let LL := 2%Z in let UL := (N - 3)%Z in
  (fun m i => if in_slice (LL + 1) (UL + 1) i
              then q m i + zsum 0 nw (fun mw => wave_factor w (-1) mw (i - 1)%Z * w m mw (i - 1)%Z) else q m i,
   fun m i => if in_slice LL UL i
              then q m i + zsum 0 nw (fun mw => wave_factor w 1 mw i * w m mw i) else q m i).

Inductive recon := Edges (e : edges) | NotImplemented | Unassigned.

(** sharpclaw/solver.py:778-794 (Python kernel).  [Unassigned]: ql and qr are used without a value. *)
Definition py_reconstruct (lim_type char_decomp : Z) (q : Z -> Z -> Q) (w : Z -> Z -> Z -> Q) : recon :=
  if Z.eqb lim_type (-1) then Edges (q, q)
  else if Z.eqb lim_type 0 then NotImplemented
  else if Z.eqb lim_type 1 then NotImplemented
  else if Z.eqb lim_type 2 then
    if Z.eqb char_decomp 0 then Edges (fun m => fst (py_weno eps N (q m)), fun m => snd (py_weno eps N (q m)))
    else if Z.eqb char_decomp 1 then Edges (weno5_wave q w)
    else if Z.eqb char_decomp 2 then NotImplemented
    else Unassigned
  else Unassigned.
End Recon.

(** ** The kernels *)
(** sharpclaw/solver.py:796-799, flux1.f90:125-133: Riemann problems at the interfaces between the right edge
    value of one cell and the left edge value of the next. *)
Definition edge_rps (rp : rpsolver) (neq naux : nat) (left : Z) (e : edges) (aux : Z -> Z -> Q) : rpdata :=
  let at_ j := rp (vec neq (snd e) (j + left)%Z) (vec neq (fst e) (j + left + 1)%Z)
                  (vec naux aux (j + left)%Z) (vec naux aux (j + left + 1)%Z) in
  mkRP (fun m mw j => o_wave (at_ j) m mw) (fun mw j => o_s (at_ j) mw)
       (fun m j => o_am (at_ j) m) (fun m j => o_ap (at_ j) m).
(** sharpclaw/solver.py:813-814, flux1.f90:170-186: Riemann problems inside the cells, from the left to the right
    edge value (the Fortran code obtains them by shifting the arrays by one). *)
Definition cell_rps (rp : rpsolver) (neq naux : nat) (e : edges) (aux : Z -> Z -> Q) : rpdata :=
  let at_ i := rp (vec neq (fst e) i) (vec neq (snd e) i) (vec naux aux i) (vec naux aux i) in
  mkRP (fun m mw j => o_wave (at_ j) m mw) (fun mw j => o_s (at_ j) mw)
       (fun m j => o_am (at_ j) m) (fun m j => o_ap (at_ j) m).

(** sharpclaw/solver.py:760-819 after the reconstruction: dq over the ghosted array and the Courant number.
    The Courant number is computed over the same slices as in the classic solver. *)
Definition py_semi (C : settings) (e : edges) (auxbc : Z -> Z -> Q) : (Z -> Z -> Q) * Q :=
  let ng := Z.of_nat (c_ng C) in
  let mx := ncells (c_bc C) in
  let dtdx := py_dtdx (c_dt C) (c_dx C) (option_map (fun k => auxbc k) (c_capa C)) in
  let R := edge_rps (c_rp C) (c_neq C) (c_naux C) 0 e auxbc in
  let R2 := cell_rps (c_rp C) (c_neq C) (c_naux C) e auxbc in
  let LL := (ng - 1)%Z in
  let UL := (mx + ng + 1)%Z in
  (fun m i => if in_slice LL UL i
              then - dtdx i * (amdq R m i + apdq R m (i - 1)%Z + apdq R2 m i + amdq R2 m i) else 0,
   py_cfl (c_nw C) ng mx dtdx (spd R)).

(** flux1.f90:59-63: the array dtdx.  It is allocated (workspace.f90:27) for indices 1-num_ghost .. maxnx+num_ghost
    with maxnx = mx+2*num_ghost (sharpclaw/solver.py:585), so the value assigned in line 60, an expression of
    mx+2*num_ghost elements, has another shape: by the rules of Fortran 2003 dtdx is then allocated anew, with
    indices 1 .. mx+2*num_ghost, and dtdx(i) belongs to cell i-num_ghost.  dtdx(0), used in line 141, is outside
    the array; here it is whatever aux has at -num_ghost, which is outside too.  The scalar assigned in line 62
    leaves the shape alone. *)
Definition sharp_dtdx (C : settings) (aux : Z -> Z -> Q) : Z -> Q :=
  match c_capa C with
  | None => fun _ => c_dt C / c_dx C
  | Some k => fun i => c_dt C / (c_dx C * aux k (i - Z.of_nat (c_ng C))%Z)
  end.

(** flux1.f90:57-63 and 124-192 after the reconstruction.  [tfluct]: the user's total fluctuation solver, if
    tfluct_solver is set. *)
Definition f_semi (tfluct : option (list Q -> list Q -> list Q -> list Q -> Z -> Q)) (C : settings)
    (e : edges) (aux : Z -> Z -> Q) : (Z -> Z -> Q) * Q :=
  let neq := c_neq C in let naux := c_naux C in
  let mx := ncells (c_bc C) in
  let dtdx := sharp_dtdx C aux in
  let R := edge_rps (c_rp C) neq naux (-1) e aux in
  let cfl := f_cfl (c_nw C) mx dtdx (spd R) in
  match tfluct with
  | Some tf =>
      let adq m i := tf (vec neq (fst e) i) (vec neq (snd e) i) (vec naux aux i) (vec naux aux i) m in
      (fun m i => if in_slice 1 (mx + 1) i
                  then 0 - dtdx i * (apdq R m i + adq m i + amdq R m (i + 1)%Z) else 0, cfl)
  | None =>
      let R2 := cell_rps (c_rp C) neq naux e aux in
      (fun m i => if in_slice 1 (mx + 1) i
                  then 0 - dtdx i * (amdq R m (i + 1)%Z + apdq R m i + amdq R2 m i + apdq R2 m i) else 0, cfl)
  end.

Inductive semiresult := DQ (dq : Z -> Z -> Q) (cfl : Q) | SemiBC (e : bcerr) | SemiNotImplemented | SemiUnassigned.

(** How the solver reconstructs: by the Python code, or by a Fortran reconstruction routine (given as a function
    of the arrays q1d and aux of flux1; flux1.f90:65-122 chooses it by lim_type and char_decomp). *)
Inductive method :=
| PyRecon (eps : Q) (lim_type char_decomp : Z)
| FRecon (r : (Z -> Z -> Q) -> (Z -> Z -> Q) -> edges) (tfluct : option (list Q -> list Q -> list Q -> list Q -> Z -> Q)).

(** weno_comp with weno_order 5 (weno.f90:5-82) as a method: the dummy arrays of weno5 start at 1. *)
Definition fortran_weno5 (eps : Q) (ng mx : Z) (ql0 qr0 : Z -> Z -> Q) (q aux : Z -> Z -> Q) : edges :=
  let dummy (a : Z -> Z -> Q) := fun m i => a m (i - ng)%Z in
  let r m := f_weno5 eps ng mx (dummy ql0 m) (dummy qr0 m) (dummy q m) in
  (fun m i => fst (r m) (i + ng)%Z, fun m i => snd (r m) (i + ng)%Z).

(** sharpclaw/solver.py:710-825 dq_hyperbolic: boundary conditions, kernel, interior part. *)
Definition dq_hyperbolic (M : method) (C : settings) (q aux qbc0 auxbc0 : arr Q) : semiresult :=
  let ng := Z.of_nat (c_ng C) in
  let mx := ncells (c_bc C) in
  match apply_bcs Q Qopp (c_ng C) (Nat.ltb 0 (c_naux C)) (c_funs C) (Z.of_nat (c_neq C)) [c_bc C] q aux qbc0 auxbc0 with
  | Raised e => SemiBC e
  | Ok (qbc, auxbc) =>
      let qb := fun m i => qbc m [i] in
      let ab := fun m i => auxbc m [i] in
      match M with
      | PyRecon eps lim cd =>
          let w := wave (solve_rps (c_rp C) (c_neq C) (c_naux C) 0 qb ab) in
          match py_reconstruct eps (c_neq C) (c_nw C) (mx + 2 * ng) lim cd qb w with
          | NotImplemented => SemiNotImplemented
          | Unassigned => SemiUnassigned
          | Edges e => let (d, cfl) := py_semi C e ab in DQ (fun m i => d m (i + ng)%Z) cfl
          end
      | FRecon r tf =>
          let fq := fun m i => qb m (i + ng - 1)%Z in
          let fa := fun m i => ab m (i + ng - 1)%Z in
          let (d, cfl) := f_semi tf C (r fq fa) fa in DQ (fun m i => d m (i + 1)%Z) cfl
      end
  end.

(** state.py:310-324 State.__deepcopy__ as used for the registers (sharpclaw/solver.py:619): the copy has
    index_capa = -1, so the Python kernel applied to a register has no capacity function.  The Fortran kernel
    takes index_capa from the module clawparams (sharpclaw/solver.py:575). *)
Definition register_settings (M : method) (C : settings) : settings :=
  match M with
  | PyRecon _ _ _ => mkSet (c_neq C) (c_nw C) (c_naux C) (c_ng C) (c_fwave C) (c_order C) (c_mthlim C) (c_rp C)
                       (c_dx C) (c_dt C) None (c_bc C) (c_funs C)
  | FRecon _ _ => C
  end.
