(** Model of the SharpClaw semi-discretisation in two and three dimensions: src/pyclaw/sharpclaw/solver.py
    SharpClawSolver2D and SharpClawSolver3D dq_hyperbolic, src/pyclaw/sharpclaw/flux2.f90 and flux3.f90.

    The routine flux1 is modelled in SemiModel.v ([f_semi]); here it is applied to every slice of the grid.
    The reconstruction of a slice may depend on what earlier slices left in the module arrays of workspace.f90
    and reconstruct.f90 (the content [W] of the workspace), because the reconstruction routines do not set all
    their entries.  The arrays are total functions: a routine that reads behind the end of a slice (weno5 is
    told the size maxnx of the longest dimension) reads whatever the function has there. *)
From Verif Require Import Base BCModel LimiterModel Classic1DModel SemiModel SweepModel.

(** All lists with entry k from list k; the loops over the first dimensions are outermost
    (flux3.f90:45-46, 65-66, 83-84). *)
Fixpoint cart_first (rs : list (list Z)) : list (list Z) :=
  match rs with
  | [] => [[]]
  | r :: rs => flat_map (fun x => map (cons x) (cart_first rs)) r
  end.
(** The slices along dimension d: indices 0 .. n+1 of the other dimensions, that is, one layer of ghost cells on each
    side (flux2.f90:43, 61; flux3.f90:45-46, 65-66, 83-84). *)
Definition semi_lines (d ng : nat) (ns : list Z) : list (list Z) := cart_first (lines_from 0 d ng 1 ns).

(** The problem flux1 sees for a slice along dimension d: mx is the number of cells of that dimension, dx(ixyz) its cell
    size, and rpn2 (rpn3) solves the Riemann problems normal to it (flux2.f90:49, 66; flux3.f90:52, 71, 89). *)
Definition slice_settings (S : msettings) (d : nat) (D : dimbc) : settings :=
  mkSet (n_neq S) (n_nw S) (n_naux S) (n_ng S) (n_fwave S) (n_order S) (n_mthlim S) (n_rpn S d) (n_delta S d) (n_dt S)
        (n_capa S) D (n_funs S).

Section MSemi.
Context {W : Type}.
(** The reconstruction along dimension d: the workspace before, q1d and aux1d; the workspace after and the edge values. *)
Variable recon : nat -> W -> (Z -> Z -> Q) -> (Z -> Z -> Q) -> W * edges.
(** The total fluctuation solver tfluct2 (tfluct3) for dimension d, if there is one. *)
Variable tfluct : option (nat -> list Q -> list Q -> list Q -> list Q -> Z -> Q).

(** One slice: flux2.f90:43-55, 61-72; flux3.f90:47-58, 67-77, 85-95.  The state: workspace, dq and cfl. *)
Definition semi_body (S : msettings) (d : nat) (D : dimbc) (auxbc qbc : arr Q) (st : W * (Z -> list Z -> Q) * Q) (base : list Z)
    : W * (Z -> list Z -> Q) * Q :=
  let '(w, dq, cfl) := st in
  let q1d := slice (n_ng S) d base qbc in
  let aux1d := slice (n_ng S) d base auxbc in
  let (w', e) := recon d w q1d aux1d in
  let (dq1d, cfl1d) := f_semi (option_map (fun tf => tf d) tfluct) (slice_settings S d D) e aux1d in
  (w',
   fun m ix => let i := (get d ix - Z.of_nat (n_ng S) + 1)%Z in
               if (zlist_eqb (put d 0 ix) base && in_slice 1 (ncells D + 1) i)%bool then dq m ix + dq1d m i else dq m ix,
   pymax cfl cfl1d).
Definition semi_sweep (S : msettings) (auxbc qbc : arr Q) (st : W * (Z -> list Z -> Q) * Q) (dD : nat * dimbc) :=
  fold_left (semi_body S (fst dD) (snd dD) auxbc qbc) (semi_lines (fst dD) (n_ng S) (map ncells (n_bcs S))) st.
(** flux2.f90:38-72, flux3.f90:39-96.  f2py passes dq = 0, because it is an optional argument of intent(in,out). *)
Definition semi_sweeps (S : msettings) (w0 : W) (auxbc qbc : arr Q) : W * (Z -> list Z -> Q) * Q :=
  fold_left (semi_sweep S auxbc qbc) (combine (seq 0 (length (n_bcs S))) (n_bcs S)) (w0, fun _ _ => 0, 0).

Inductive msemiresult := MDQ (dq : Z -> list Z -> Q) (cfl : Q) | MSemiBC (e : bcerr) | MOnlyFortran.

(** sharpclaw/solver.py:876-898 and 960-983 dq_hyperbolic: boundary conditions, kernel, interior part. *)
Definition mdq_hyperbolic (L : lang) (S : msettings) (w0 : W) (q aux qbc0 auxbc0 : arr Q) : msemiresult :=
  match apply_bcs Q Qopp (n_ng S) (Nat.ltb 0 (n_naux S)) (n_funs S) (Z.of_nat (n_neq S)) (n_bcs S) q aux qbc0 auxbc0 with
  | Raised e => MSemiBC e
  | Ok (qbc, auxbc) =>
      match L with
      | Python => MOnlyFortran
      | Fortran => let '(_, dq, cfl) := semi_sweeps S w0 auxbc qbc in MDQ (fun m ix => dq m (shift (Z.of_nat (n_ng S)) ix)) cfl
      end
  end.
End MSemi.
