(** Model of the unsplit two-dimensional classic solver: src/pyclaw/classic/step2.f90 and the branch of
    src/pyclaw/classic/solver.py ClawSolver2D.step_hyperbolic with dimensional_split = False.  flux2.f90 is
    in SweepModel.v. *)
From Verif Require Import Base BCModel LimiterModel Classic1DModel SweepModel.

(** step2.f90: the call of flux2 for the slice along dimension d with Fortran index j in the other dimension
    (92-128 and 172-208).  aux1, aux2, aux3 are the slices j-1, j, j+1; q1d always comes from qold. *)
Definition t_row (S : msettings) (d : nat) (j : Z) (a : arr Q) : Z -> Z -> Q :=
  slice (n_ng S) d (put (1 - d) (j + Z.of_nat (n_ng S) - 1)%Z [0; 0]%Z) a.
Definition t_flux (undef : Q -> Q -> Z -> Q) (S : msettings) (trans : Z) (d : nat) (auxbc qold : arr Q) (j : Z) : slice_out :=
  flux2 (n_neq S) (n_nw S) (n_naux S) (Z.of_nat (n_ng S)) (nth d (map ncells (n_bcs S)) 0%Z) (n_fwave S) (n_order S)
    trans (n_mthlim S) undef (n_rpn S d) (n_rpt S d) (t_row S d j qold) (line_dtdx S d (t_row S d j auxbc))
    (t_row S d (j - 1) auxbc) (t_row S d j auxbc) (t_row S d (j + 1) auxbc).

(** step2.f90:136-164 and 218-246: qnew(i,j), qnew(i,j-1) and qnew(i,j+1) are updated for i = 1..mx.  With a
    capacity function each update is divided by the capacity of the cell it goes to. *)
Definition t_change (S : msettings) (d : nat) (F : slice_out) (auxbc : arr Q) (j : Z) (v : Q) (m : Z) (ix : list Z) : Q :=
  let ng := Z.of_nat (n_ng S) in
  let i := (get d ix - ng + 1)%Z in
  let r := (get (1 - d) ix - ng + 1)%Z in
  let along := n_dt S / n_delta S d in
  let across := n_dt S / n_delta S (1 - d) in
  let cap x := match n_capa S with None => x | Some k => x / auxbc k ix end in
  if in_slice 1 (nth d (map ncells (n_bcs S)) 0%Z + 1) i then
    if Z.eqb r j then v + qadd F m i - cap (along * (fadd F m (i + 1)%Z - fadd F m i) + across * (gadd2 F m i - gadd1 F m i))
    else if Z.eqb r (j - 1) then v - cap (across * gadd1 F m i)
    else if Z.eqb r (j + 1) then v + cap (across * gadd2 F m i)
    else v
  else v.

Definition t_body (undef : Q -> Q -> Z -> Q) (S : msettings) (trans : Z) (d : nat) (auxbc qold : arr Q)
    (st : arr Q * Q) (j : Z) : arr Q * Q :=
  let F := t_flux undef S trans d auxbc qold j in
  (fun m ix => t_change S d F auxbc j (fst st m ix) m ix, pymax (snd st) (cfl1d F)).

(** The slices j = 0 .. my+1 (step2.f90:92 and 172) *)
Definition t_sweep (undef : Q -> Q -> Z -> Q) (S : msettings) (trans : Z) (d : nat) (auxbc qold : arr Q) (st : arr Q * Q) : arr Q * Q :=
  fold_left (t_body undef S trans d auxbc qold) (zrange 0 (Z.to_nat (nth (1 - d) (map ncells (n_bcs S)) 0%Z + 2))) st.

(** step2.f90: x-sweeps, then y-sweeps, both from qold *)
Definition step2 (undef : Q -> Q -> Z -> Q) (S : msettings) (trans : Z) (auxbc qold qnew : arr Q) : arr Q * Q :=
  t_sweep undef S trans 1 auxbc qold (t_sweep undef S trans 0 auxbc qold (qnew, 0)).

(** classic/solver.py:506-549 step_hyperbolic with dimensional_split = False; method(3) = transverse_waves.
    Python checks nothing about the number of dimensions here; [n_bcs] has two entries. *)
Definition unsplit_step (undef : Q -> Q -> Z -> Q) (S : msettings) (trans : Z) (q aux qbc0 auxbc0 : arr Q) : mresult :=
  match apply_bcs Q Qopp (n_ng S) (Nat.ltb 0 (n_naux S)) (n_funs S) (Z.of_nat (n_neq S)) (n_bcs S) q aux qbc0 auxbc0 with
  | Raised e => MBCError e
  | Ok (qbc, auxbc) =>
      let r := step2 undef S trans auxbc qbc qbc in
      MStepped (set_q_from_qbc Q (n_ng S) (fst r)) (snd r)
  end.
