(** Model of the component-wise WENO reconstructions of orders 5 to 17 used by the Fortran SharpClaw kernels (lim_type 2,
    char_decomp 0): src/pyclaw/sharpclaw/weno.f90 and the choice in reconstruct.f90 weno_comp.

    A ghosted array of one component is a function of the Fortran index. [eps] is 1.0e-36. Sums are taken in the order of
    the stencils (weno11 and later list some of them in another order, which exact numbers do not see). *)
From Verif Require Import Base Classic1DModel SemiModel.
From Verif Require Export HiWenoTables.
Open Scope Q_scope.

(** The statements sigma... = ... and fr... = ... (weno5: weno.f90:34-51 and 58-75) *)
Definition sigma (s : stencil) (q : Z -> Q) (i : Z) : Q :=
  fold_right (fun t v => snd t * q (i + fst (fst t))%Z * q (i + snd (fst t))%Z + v) 0 (st_sigma s).
Definition fr (c : list (Z * Q)) (q : Z -> Q) (i : Z) : Q :=
  fold_right (fun t v => snd t * q (i + fst t)%Z + v) 0 c.

Section cell.
Variable eps : Q.
(** omega... = .../(1.0e-36 + sigma...)**2 (weno5: weno.f90:52-57) *)
Definition omega (w : Q) (s : stencil) (q : Z -> Q) (i : Z) : Q :=
  w / ((eps + sigma s q i) * (eps + sigma s q i)).
(** fs... = (fr...*omega... + ...)/(omega... + ...), ql(m,i) = fs0, qr(m,i) = fs1 (weno5: weno.f90:76-79) *)
Definition edge (weight : stencil -> Q) (coef : stencil -> list (Z * Q)) (table : list stencil) (q : Z -> Q) (i : Z) : Q :=
  fold_right (fun s v => fr (coef s) q i * omega (weight s) s q i + v) 0 table
  / fold_right (fun s v => omega (weight s) s q i + v) 0 table.
Definition weno_cell (table : list stencil) (q : Z -> Q) (i : Z) : Q * Q :=
  (edge st_wl st_fl table q i, edge st_wr st_fr table q i).

(** The loop over the cells (weno5: weno.f90:32-81), for one component; cells outside the loop keep what the arrays contained *)
Definition weno_loop (table : list stencil) (ng maxnx : Z) (ql0 qr0 q : Z -> Q) : (Z -> Q) * (Z -> Q) :=
  (fun i => if in_slice ng (maxnx + ng + 2) i then fst (weno_cell table q i) else ql0 i,
   fun i => if in_slice ng (maxnx + ng + 2) i then snd (weno_cell table q i) else qr0 i).
(** reconstruct.f90:106-125: None stands for the message followed by stop *)
Definition weno_table (order : Z) : option (list stencil) :=
  if (order =? 5)%Z then Some weno5_table
  else if (order =? 7)%Z then Some weno7_table
  else if (order =? 9)%Z then Some weno9_table
  else if (order =? 11)%Z then Some weno11_table
  else if (order =? 13)%Z then Some weno13_table
  else if (order =? 15)%Z then Some weno15_table
  else if (order =? 17)%Z then Some weno17_table
  else None.
Definition weno_comp (order ng maxnx : Z) (ql0 qr0 q : Z -> Q) : option ((Z -> Q) * (Z -> Q)) :=
  option_map (fun table => weno_loop table ng maxnx ql0 qr0 q) (weno_table order).
(** sharpclaw/solver.py:205-206: num_ghost for lim_type 2 *)
Definition ghost_cells (order : Z) : Z := ((order + 1) / 2)%Z.

(** weno_comp (reconstruct.f90:106-125) as a reconstruction method of SemiModel: its dummy arrays start at 1 *)
Definition fortran_weno (table : list stencil) (ng mx : Z) (ql0 qr0 : Z -> Z -> Q) (q aux : Z -> Z -> Q) : edges :=
  let dummy (a : Z -> Z -> Q) := fun m i => a m (i - ng)%Z in
  let r m := weno_loop table ng mx (dummy ql0 m) (dummy qr0 m) (dummy q m) in
  (fun m i => fst (r m) (i + ng)%Z, fun m i => snd (r m) (i + ng)%Z).
End cell.
