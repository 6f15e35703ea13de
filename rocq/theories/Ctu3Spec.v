(** The unsplit method in three dimensions, cell by cell and face by face (C145). The Riemann problems at the faces, the
    limited waves and the second-order correction are those of CtuSpec. *)
From Verif Require Import Base BCModel LimiterModel Classic1DModel SweepModel SweepSpec CtuSpec Unsplit3Model.

(** The other two directions, in cyclic order *)
Definition next (d : nat) : nat := match d with 0%nat => 1%nat | 1%nat => 2%nat | _ => 0%nat end.
Definition across (d : nat) (icoor : Z) : nat := if Z.eqb icoor 2 then next d else next (next d).
Definition shifted (e : nat) (k : Z) (ix : list Z) : list Z := put e (get e ix + k)%Z ix.

Section Method.
Variable undef : Q -> Q -> Z -> Q.
Variable S : msettings.
Variable rpt : nat -> rpt3solver.
Variable rptt : nat -> rptt3solver.
Variable trans : Z.                 (* solver.transverse_waves: 0, 10, 11, 20, 21 or 22 *)
Variable aux x : arr Q.             (* with ghost cells *)
Notation neq := (n_neq S).

(** Auxiliary values of the nine cells around a cell in the plane across d *)
Definition around (d : nat) (ix : list Z) : list (list Q) :=
  map (fun o => cell_vec (n_naux S) aux (shifted (next (next d)) (snd o) (shifted (next d) (fst o) ix)))
    [(-1, -1); (-1, 0); (-1, 1); (0, -1); (0, 0); (0, 1); (1, -1); (1, 0); (1, 1)]%Z.
(** What goes down and up in direction icoor (2 or 3) of the fluctuation to the left (imp = 1) or right (2) of a face *)
Definition increment (d : nat) (ix : list Z) (icoor imp : Z) : (Z -> Q) * (Z -> Q) :=
  rpt d icoor imp (cell_vec neq x (lower d ix)) (cell_vec neq x ix) (around d (lower d ix)) (around d ix)
    (vec neq (fun m _ => if Z.eqb imp 1 then o_am (at_face S aux x d ix) m else o_ap (at_face S aux x d ix) m) 0).
(** The same for the correction; without auxiliary values it is split once for both sides *)
Definition split_correction (d : nat) (ix : list Z) (icoor imp : Z) : (Z -> Q) * (Z -> Q) :=
  rpt d icoor (if Nat.ltb 0 (n_naux S) then imp else 0%Z) (cell_vec neq x (lower d ix)) (cell_vec neq x ix) (around d (lower d ix)) (around d ix)
    (vec neq (fun m _ => (1 # 2) * correction undef S aux x d ix m) 0).
(** What is split a second time to reach cells that share only an edge: the part that went down or up ([top]) in the
    other direction, with transverse_waves = 22 including three times its correction *)
Definition to_edge (d : nat) (ix : list Z) (icoor imp : Z) (top : bool) (m : Z) : Q :=
  let oth := (5 - icoor)%Z in
  if negb (Z.eqb trans 22) then side top (increment d ix oth imp) m
  else if Z.eqb imp 1 then side top (increment d ix oth imp) m + 3 * side top (split_correction d ix oth imp) m
  else side top (increment d ix oth imp) m - 3 * side top (split_correction d ix oth imp) m.
Definition twice (d : nat) (ix : list Z) (icoor imp : Z) (top : bool) : (Z -> Q) * (Z -> Q) :=
  rptt d icoor imp (if top then 2 else 1)%Z (cell_vec neq x (lower d ix)) (cell_vec neq x ix) (around d (lower d ix)) (around d ix)
    (vec neq (fun m _ => to_edge d ix icoor imp top m) 0).

Definition edges : bool := existsb (Z.eqb trans) [11; 21; 22]%Z.
Definition corrections : bool := existsb (Z.eqb trans) [20; 21; 22]%Z.
(** The part of the waves at a face that crosses the lower ([up] = false) or upper face in direction icoor of the cell it
    enters, in the same layer (0) or in the layers above and below it in the third direction *)
Definition piece (d : nat) (ix : list Z) (icoor imp : Z) (up : bool) (layer m : Z) : Q :=
  let sixth := (1 # 6) * (n_dt S / n_delta S (across d (5 - icoor))) in
  let above := if edges then sixth * side up (twice d ix icoor imp true) m else 0 in
  let below := if edges then sixth * side up (twice d ix icoor imp false) m else 0 in
  match layer with
  | 0%Z => - (1 # 2) * side up (increment d ix icoor imp) m
           + (if corrections then (if Z.eqb imp 1 then -(1) else 1) * side up (split_correction d ix icoor imp) m else 0)
           + (above - below)
  | 1%Z => - above
  | _ => below
  end.
(** From both faces of a cell along d *)
Definition leaves (d : nat) (ix : list Z) (icoor : Z) (up : bool) (layer m : Z) : Q :=
  cell_ratio S d aux ix * (piece d (upper d ix) icoor 1 up layer m + piece d ix icoor 2 up layer m).
(** The flux through the lower face of a cell in direction icoor: from the cells on both sides of it in the same layer, and
    in the layers below and above *)
Definition through (d : nat) (icoor : Z) (ix : list Z) (m : Z) : Q :=
  let layer k := shifted (across d (5 - icoor)) k ix in
  let both k := leaves d (layer (- k)%Z) icoor false k m + leaves d (lower (across d icoor) (layer (- k)%Z)) icoor true k m in
  both (-1)%Z + both 0%Z + both 1%Z.
Definition across_change (d : nat) (icoor : Z) (ix : list Z) (m : Z) : Q :=
  if Z.eqb trans 0 then 0
  else - (n_dt S / n_delta S (across d icoor) / mcapacity S aux ix) * (through d icoor (upper (across d icoor) ix) m - through d icoor ix m).
End Method.

(** ** The same problem with the axes in another order (C146): axis e of the new problem is axis [nth e p] of the old one *)
Definition orders : list (list nat) := [[0; 1; 2]; [1; 2; 0]; [2; 0; 1]; [1; 0; 2]; [0; 2; 1]; [2; 1; 0]]%nat.
Definition axis (p : list nat) (e : nat) : nat := nth e p 0%nat.
Definition cyclic (p : list nat) : bool := Nat.eqb (axis p 1) (next (axis p 0)).
(** The cell with the indices in the new order *)
Definition reordered (p : list nat) (ix : list Z) : list Z := map (fun d => get d ix) p.
(** The array in the new order, as numpy.transpose gives it *)
Fixpoint place (d : nat) (p : list nat) : nat := match p with [] => 0%nat | d' :: p' => if Nat.eqb d d' then 0%nat else Datatypes.S (place d p') end.
Definition rearranged (p : list nat) (a : arr Q) : arr Q := fun m ix => a m (map (fun d => get (place d p) ix) [0; 1; 2]%nat).
Definition reordered_problem (p : list nat) (S : msettings) : msettings :=
  mkMSet (n_neq S) (n_nw S) (n_naux S) (n_ng S) (n_fwave S) (n_order S) (n_mthlim S)
    (fun e => n_rpn S (axis p e)) (n_rpt S) (fun e => n_delta S (axis p e)) (n_dt S) (n_capa S)
    (match n_bcs S with [] => [] | D :: _ => map (fun d => nth d (n_bcs S) D) p end) (n_funs S).
(** The transverse solvers: if the new order is not cyclic, first and second direction across exchange their roles, and
    with them rows and columns of the nine cells. *)
Definition turned_coor (p : list nat) (icoor : Z) : Z := if cyclic p then icoor else (5 - icoor)%Z.
Definition turned (p : list nat) (l : list (list Q)) : list (list Q) :=
  if cyclic p then l else map (fun k => nth k l []) [0; 3; 6; 1; 4; 7; 2; 5; 8]%nat.
Definition reordered_rpt (p : list nat) (rpt : nat -> rpt3solver) : nat -> rpt3solver :=
  fun e icoor imp ql qr al ar dq => rpt (axis p e) (turned_coor p icoor) imp ql qr (turned p al) (turned p ar) dq.
Definition reordered_rptt (p : list nat) (rptt : nat -> rptt3solver) : nat -> rptt3solver :=
  fun e icoor imp impt ql qr al ar dq => rptt (axis p e) (turned_coor p icoor) imp impt ql qr (turned p al) (turned p ar) dq.
