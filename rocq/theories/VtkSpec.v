(** What VTK output should contain. *)
From Coq Require Import Ascii String.
From Verif Require Import Base FormatModel VtkModel.
Open Scope Q_scope.

Definition valid_patch (p : patch) : Prop := (0 < p_nx p)%Z /\ (0 < p_ny p)%Z /\ p_xlo p < p_xhi p /\ p_ylo p < p_yhi p.
Definition in_patch (p : patch) (i j : Z) : Prop := (0 <= i < p_nx p)%Z /\ (0 <= j < p_ny p)%Z.

(** A cell of the coarse patch is covered by a patch of the next level if its centre lies in it *)
Definition x_center (p : patch) (i : Z) : Q := p_xlo p + (inject_Z i + (1 # 2)) * p_dx p.
Definition y_center (p : patch) (j : Z) : Q := p_ylo p + (inject_Z j + (1 # 2)) * p_dy p.
Definition covers (f c : patch) (i j : Z) : Prop :=
  p_level f = (p_level c + 1)%Z
  /\ (p_xlo f < x_center c i /\ x_center c i < p_xhi f)
  /\ (p_ylo f < y_center c j /\ y_center c j < p_yhi f).

(** The edges of a fine patch lie on edges of coarse cells (extended beyond the coarse patch), as in every refined grid *)
Definition on_grid (lo d x : Q) : Prop := exists n : Z, x == lo + inject_Z n * d.
Definition aligned (f c : patch) : Prop :=
  on_grid (p_xlo c) (p_dx c) (p_xlo f) /\ on_grid (p_xlo c) (p_dx c) (p_xhi f)
  /\ on_grid (p_ylo c) (p_dy c) (p_ylo f) /\ on_grid (p_ylo c) (p_dy c) (p_yhi f).
(** In neither direction does the fine patch begin before the coarse one and end before its end *)
Definition not_before (f c : patch) : Prop :=
  (p_xlo c <= p_xlo f \/ p_xhi c <= p_xhi f) /\ (p_ylo c <= p_ylo f \/ p_yhi c <= p_yhi f).

(** All patches of the next level are aligned with, or also do not begin before, the patches of a level *)
Definition all_aligned (l : list state) : Prop :=
  forall f s, In f l -> In s l -> p_level (s_patch f) = (p_level (s_patch s) + 1)%Z -> aligned (s_patch f) (s_patch s).
Definition none_before (l : list state) : Prop :=
  forall f s, In f l -> In s l -> p_level (s_patch f) = (p_level (s_patch s) + 1)%Z -> not_before (s_patch f) (s_patch s).
Definition covered (l : list state) (s : state) (i j : Z) : Prop := exists f, In f l /\ covers (s_patch f) (s_patch s) i j.

Definition level_of (s : state) : Z := p_level (s_patch s).
(** The states of a level, in the order of the solution *)
Definition on_level (k : Z) (l : list state) : list state := filter (fun s => (level_of s =? k)%Z) l.
(** The levels 1 .. n first occur in this order *)
Fixpoint firsts (seen : list Z) (l : list state) : list Z :=
  match l with
  | [] => []
  | s :: r => if existsb (Z.eqb (level_of s)) seen then firsts seen r else level_of s :: firsts (level_of s :: seen) r
  end.
Definition levels_in_order (l : list state) : Prop :=
  exists n, firsts [] l = map (fun k => Z.of_nat (S k)) (seq 0 n).
(** The same cell widths on each level *)
Definition same_spacing (l : list state) : Prop :=
  forall a b, In a l -> In b l -> level_of a = level_of b ->
    p_dx (s_patch a) == p_dx (s_patch b) /\ p_dy (s_patch a) == p_dy (s_patch b).

(** A list with the value of every cell, the first direction fastest *)
Definition values (conv : Q -> Q) (p : patch) (f : Z -> Z -> Q) (v : list Q) : Prop :=
  length v = Z.to_nat (p_nx p * p_ny p)
  /\ forall i j, in_patch p i j -> nth_error v (Z.to_nat (i + p_nx p * j)) = Some (conv (f i j)).
(** The grid of a patch with its components, in single precision, and the marks of covered cells *)
Definition grid_for (single : Q -> Q) (s : state) (marks : Z -> Z -> Q) (g : grid) : Prop :=
  let p := s_patch s in
  g_origin g = [p_xlo p; p_ylo p; 0] /\ Forall2 Qeq (g_spacing g) [p_dx p; p_dy p; p_dx p]
  /\ g_nodes g = [p_nx p + 1; p_ny p + 1; 1]%Z
  /\ length (g_data g) = S (length (s_q s))
  /\ (forall c f, nth_error (s_q s) c = Some f ->
        exists v, nth_error (g_data g) c = Some (lit "q_" ++ str_nat (Z.of_nat c), v) /\ values single p f v)
  /\ exists v, nth_error (g_data g) (length (s_q s)) = Some (lit "vtkGhostType", v) /\ values (fun x => x) p marks v.
