(** Model of src/pyclaw/geometry.py (Dimension, Grid: coordinates, caches, gauges) and of the local
    grids of src/petclaw/geometry.py.  Coordinates are exact rationals. *)
From Verif Require Import Base.

(** ** Dimension *)
(** geometry.py:599-623 Dimension.__init__: the fields read by the modelled methods.  [x_centers] and
    [x_nodes] are the cached arrays _centers and _nodes ([None] before the first use). *)
Record dim := mkDimension {
  x_lower : Q; x_upper : Q; x_n : Z;
  x_centers : option (list Q); x_nodes : option (list Q) }.

(** geometry.py:520-523 Dimension.delta *)
Definition delta (d : dim) : Q := (x_upper d - x_lower d) / inject_Z (x_n d).

(** [f(0), ..., f(n-1)] *)
Definition table (n : Z) (f : Z -> Q) : list Q := map (fun k => f (Z.of_nat k)) (seq 0 (Z.to_nat n)).

(** geometry.py:537-545 Dimension.nodes, the array computed when nothing is cached *)
Definition node_array (d : dim) : list Q :=
  table (x_n d + 1) (fun i => x_lower d + inject_Z i * delta d).
(** geometry.py:546-554 Dimension.centers, the array computed when nothing is cached *)
Definition center_array (d : dim) : list Q :=
  table (x_n d) (fun i => x_lower d + (inject_Z i + (1 # 2)) * delta d).

(** geometry.py:537-554: the properties, with the cache they fill.  Simplification: on an invalid
    dimension (num_cells <= 0) Python may raise instead. *)
Definition read_nodes (d : dim) : list Q * dim :=
  match x_nodes d with
  | Some a => (a, d)
  | None => let a := node_array d in
            (a, mkDimension (x_lower d) (x_upper d) (x_n d) (x_centers d) (Some a))
  end.
Definition read_centers (d : dim) : list Q * dim :=
  match x_centers d with
  | Some a => (a, d)
  | None => let a := center_array d in
            (a, mkDimension (x_lower d) (x_upper d) (x_n d) (Some a) (x_nodes d))
  end.

(** geometry.py:625-630 Dimension._check_validity: false when it raises.  The type checks always hold
    because the setters convert with float() and int(). *)
Definition check_validity (d : dim) : bool := (Z.ltb 0 (x_n d) && qltb (x_lower d) (x_upper d))%bool.

(** geometry.py:599-623 Dimension(lower, upper, num_cells); [None] when the check raises *)
Definition new_dim (lower upper : Q) (n : Z) : option dim :=
  let d := mkDimension lower upper n None None in
  if check_validity d then Some d else None.

(** geometry.py:555-581: assignments to the attributes lower, upper, num_cells.  int() truncates. *)
Inductive assignment := SetLower (v : Q) | SetUpper (v : Q) | SetNumCells (v : Q).
(** The dimension afterwards, and whether the assignment raised (the value is stored before the
    check). *)
Definition assign (a : assignment) (d : dim) : dim * bool :=
  let d' := match a with
            | SetLower v => mkDimension v (x_upper d) (x_n d) None None
            | SetUpper v => mkDimension (x_lower d) v (x_n d) None None
            | SetNumCells v => mkDimension (x_lower d) (x_upper d) (qtrunc v) None None
            end in
  (d', negb (check_validity d')).

(** numpy.linspace(a, b, n) *)
Definition linspace (a b : Q) (n : Z) : list Q :=
  table n (fun i => a + inject_Z i * ((b - a) / inject_Z (n - 1))).

(** geometry.py:583-589 Dimension.centers_with_ghost: also fills the cache *)
Definition centers_with_ghost (ng : Z) (d : dim) : list Q * dim :=
  let (centers, d') := read_centers d in
  let pre := table ng (fun i => x_lower d + (inject_Z (i - ng) + (1 # 2)) * delta d) in
  let post := table ng (fun i => x_upper d + delta d * (inject_Z i + (1 # 2))) in
  (pre ++ centers ++ post, d').
(** geometry.py:591-597 Dimension.nodes_with_ghost *)
Definition nodes_with_ghost (ng : Z) (d : dim) : list Q * dim :=
  let (nodes, d') := read_nodes d in
  let pre := linspace (x_lower d - inject_Z ng * delta d) (x_lower d - delta d) ng in
  let post := linspace (x_upper d + delta d) (x_upper d + inject_Z ng * delta d) ng in
  (pre ++ nodes ++ post, d').

(** ** Grid *)
Section Grid.
(** Values of the physical coordinate arrays, and mappings mapc2p from the computational coordinate
    arrays to them. *)
Variable P : Type.
Definition mapping := list (list Q) -> P.

(** geometry.py:188-222 Grid.__init__.  Simplification: the i-th computational coordinate array has at
    index (i_1,...,i_d) the entry i_i of the i-th one-dimensional array (geometry.py:283-288), so the
    list of arrays is represented by the list of one-dimensional arrays. *)
Record grid := mkGrid {
  g_dims : list dim; g_map : mapping;
  g_cc : option (list (list Q)); g_cn : option (list (list Q));     (* _c_centers, _c_nodes *)
  g_pc : option P; g_pn : option P }.                                (* _p_centers, _p_nodes *)

Definition new_grid (ds : list dim) (identity : mapping) : grid := mkGrid ds identity None None None None.

Definition no_centers (d : dim) : bool := match x_centers d with None => true | Some _ => false end.
Definition no_nodes (d : dim) : bool := match x_nodes d with None => true | Some _ => false end.
Definition isnone {A} (o : option A) : bool := match o with None => true | Some _ => false end.

(** geometry.py:277-288 Grid._compute_c_centers and the property c_centers (150-156) *)
Definition compute_c_centers (g : grid) : grid :=
  if (isnone (g_cc g) || existsb no_centers (g_dims g))%bool then
    let rs := map read_centers (g_dims g) in
    mkGrid (map snd rs) (g_map g) (Some (map fst rs)) (g_cn g) (g_pc g) (g_pn g)
  else g.
(** geometry.py:290-301 Grid._compute_c_nodes *)
Definition compute_c_nodes (g : grid) : grid :=
  if (isnone (g_cn g) || existsb no_nodes (g_dims g))%bool then
    let rs := map read_nodes (g_dims g) in
    mkGrid (map snd rs) (g_map g) (g_cc g) (Some (map fst rs)) (g_pc g) (g_pn g)
  else g.
(** geometry.py:303-312 Grid._compute_p_centers *)
Definition compute_p_centers (g : grid) : grid :=
  if (isnone (g_pc g) || existsb no_centers (g_dims g))%bool then
    let g1 := compute_c_centers g in
    mkGrid (g_dims g1) (g_map g1) (g_cc g1) (g_cn g1)
           (option_map (g_map g1) (g_cc g1)) (g_pn g1)
  else g.
(** geometry.py:314-323 Grid._compute_p_nodes *)
Definition compute_p_nodes (g : grid) : grid :=
  if (isnone (g_pn g) || existsb no_nodes (g_dims g))%bool then
    let g1 := compute_c_nodes g in
    mkGrid (g_dims g1) (g_map g1) (g_cc g1) (g_cn g1)
           (g_pc g1) (option_map (g_map g1) (g_cn g1))
  else g.

(** Apply f to entry k of a list. *)
Fixpoint update {A} (k : nat) (f : A -> A) (l : list A) : list A :=
  match l, k with
  | [], _ => []
  | x :: l, O => f x :: l
  | x :: l, S k => x :: update k f l
  end.
Definition with_dims (g : grid) (ds : list dim) : grid :=
  mkGrid ds (g_map g) (g_cc g) (g_cn g) (g_pc g) (g_pn g).

(** What a program can do with a grid: change a dimension, set mapc2p (geometry.py:181-184), add a
    dimension (231-249, the mapping becomes the identity of the new number of dimensions), read the
    coordinates of one dimension, or read the coordinate arrays of the grid. *)
Inductive gop :=
| GAssign (k : nat) (a : assignment)
| GSetMap (m : mapping)
| GAddDim (d : dim) (identity : mapping)
| GReadDimCenters (k : nat) | GReadDimNodes (k : nat)
| GCenters | GNodes | GPCenters | GPNodes.

Definition gstep (g : grid) (o : gop) : grid :=
  match o with
  | GAssign k a => with_dims g (update k (fun d => fst (assign a d)) (g_dims g))
  | GSetMap m => mkGrid (g_dims g) m None None None None
  | GAddDim d m => mkGrid (g_dims g ++ [d]) m None None None None
  | GReadDimCenters k => with_dims g (update k (fun d => snd (read_centers d)) (g_dims g))
  | GReadDimNodes k => with_dims g (update k (fun d => snd (read_nodes d)) (g_dims g))
  | GCenters => compute_c_centers g
  | GNodes => compute_c_nodes g
  | GPCenters => compute_p_centers g
  | GPNodes => compute_p_nodes g
  end.
Definition grun (g : grid) (os : list gop) : grid := fold_left gstep os g.

(** geometry.py:150-177: the values of the properties. *)
Definition read_cc (g : grid) := g_cc (compute_c_centers g).
Definition read_cn (g : grid) := g_cn (compute_c_nodes g).
Definition read_pc (g : grid) := g_pc (compute_p_centers g).
Definition read_pn (g : grid) := g_pn (compute_p_nodes g).
End Grid.
Arguments mkGrid {P}. Arguments g_dims {P}. Arguments g_map {P}. Arguments g_cc {P}. Arguments g_cn {P}.
Arguments g_pc {P}. Arguments g_pn {P}. Arguments new_grid {P}. Arguments gstep {P}. Arguments grun {P}.
Arguments read_cc {P}. Arguments read_cn {P}. Arguments read_pc {P}. Arguments read_pn {P}.
Arguments compute_c_centers {P}. Arguments compute_c_nodes {P}. Arguments compute_p_centers {P}.
Arguments compute_p_nodes {P}. Arguments with_dims {P}.
Arguments GAssign {P}. Arguments GSetMap {P}. Arguments GAddDim {P}. Arguments GReadDimCenters {P}.
Arguments GReadDimNodes {P}. Arguments GCenters {P}. Arguments GNodes {P}. Arguments GPCenters {P}.
Arguments GPNodes {P}.

(** ** Gauges *)
(** geometry.py:399 [all(lower[n] <= gauge[n] < upper[n] for n in range(num_dim))].  A gauge has at least
    as many coordinates as the grid has dimensions (otherwise Python raises IndexError). *)
Fixpoint gauge_inside (ds : list dim) (p : list Q) : bool :=
  match ds, p with
  | [], _ => true
  | d :: ds, x :: p => (qleb (x_lower d) x && qltb x (x_upper d) && gauge_inside ds p)%bool
  | _ :: _, [] => false
  end.
(** geometry.py:401-402 [int((gauge[n]-lower[n])//delta[n])] *)
Fixpoint gauge_index (ds : list dim) (p : list Q) : list Z :=
  match ds, p with
  | d :: ds, x :: p => qfloor ((x - x_lower d) / delta d) :: gauge_index ds p
  | _, _ => []
  end.
(** geometry.py:392-405 Grid.add_gauges: [gauges] and the coordinates that name the gauge files, in
    order. *)
Definition add_gauges (ds : list dim) (coords : list (list Q)) (st : list (list Z) * list (list Q))
  : list (list Z) * list (list Q) :=
  fold_left (fun st p => if gauge_inside ds p then (fst st ++ [gauge_index ds p], snd st ++ [p]) else st)
    coords st.

(** ** Local grids of a parallel run *)
(** petclaw/geometry.py:23-41: the local dimension of a process that owns the global cells [lo, hi), with
    its two boundary flags; [None] when Dimension raises (a process without cells). *)
Definition local_dim (d : dim) (range : Z * Z) : option (dim * bool * bool) :=
  let (lo, hi) := range in
  match new_dim (x_lower d + inject_Z lo * delta d) (x_lower d + inject_Z hi * delta d) (hi - lo) with
  | Some l => Some (l, Z.eqb lo 0, Z.eqb hi (x_n d))
  | None => None
  end.
