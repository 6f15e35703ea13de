(** Specification vocabulary for grid geometry. *)
From Verif Require Import Base GeometryModel.

(** The interval [lower, upper] cut into n > 0 cells. *)
Definition valid (d : dim) : Prop := (0 < x_n d)%Z /\ x_lower d < x_upper d.

(** Coordinate of cell edge i and of the centre of cell i; negative i and i >= n are ghost cells. *)
Definition edge (d : dim) (i : Z) : Q :=
  x_lower d + inject_Z i * ((x_upper d - x_lower d) / inject_Z (x_n d)).
Definition middle (d : dim) (i : Z) : Q := (edge d i + edge d (i + 1)) / 2.

(** [l] lists f(lo), f(lo+1), ..., f(lo+n-1) (as rational numbers). *)
Definition lists (l : list Q) (lo n : Z) (f : Z -> Q) : Prop :=
  Z.of_nat (length l) = n /\
  forall i, (0 <= i < n)%Z -> exists x, nth_error l (Z.to_nat i) = Some x /\ x == f (lo + i)%Z.

(** The cached arrays of a dimension, when present, are those of its current attributes. *)
Definition coherent (d : dim) : Prop :=
  (forall a, x_centers d = Some a -> a = center_array d) /\
  (forall a, x_nodes d = Some a -> a = node_array d).

(** Cell ix (one index per dimension) contains the point p (half-open cells). *)
Fixpoint in_cell (ds : list dim) (p : list Q) (ix : list Z) : Prop :=
  match ds, p, ix with
  | [], _, [] => True
  | d :: ds, x :: p, i :: ix =>
      (0 <= i < x_n d)%Z /\ edge d i <= x /\ x < edge d (i + 1) /\ in_cell ds p ix
  | _, _, _ => False
  end.
(** The point p lies in the domain (half-open box). *)
Fixpoint in_domain (ds : list dim) (p : list Q) : Prop :=
  match ds, p with
  | [], _ => True
  | d :: ds, x :: p => x_lower d <= x /\ x < x_upper d /\ in_domain ds p
  | _, _ => False
  end.

(** [rs] cuts the cells lo .. hi-1 into consecutive non-empty ranges. *)
Fixpoint cuts (lo hi : Z) (rs : list (Z * Z)) : Prop :=
  match rs with
  | [] => lo = hi
  | (a, b) :: rs => a = lo /\ (a < b)%Z /\ cuts b hi rs
  end.
(** A decomposition gives each dimension such a cut; each process has one range per dimension. *)
Fixpoint process (cs : list (list (Z * Z))) (rs : list (Z * Z)) : Prop :=
  match cs, rs with
  | [], [] => True
  | c :: cs, r :: rs => In r c /\ process cs rs
  | _, _ => False
  end.
(** The local dimensions of the process with ranges rs. *)
Fixpoint local_dims (ds : list dim) (rs : list (Z * Z)) : option (list dim) :=
  match ds, rs with
  | [], [] => Some []
  | d :: ds, r :: rs =>
      match local_dim d r, local_dims ds rs with
      | Some (l, _, _), Some ls => Some (l :: ls)
      | _, _ => None
      end
  | _, _ => None
  end.

(** Kinds of grid operations, for C38. *)
Section Kinds.
Variable P : Type.
Definition dim_read (o : gop P) : bool :=
  match o with GReadDimCenters _ | GReadDimNodes _ => true | _ => false end.
Definition c_read (o : gop P) : bool := match o with GCenters | GNodes => true | _ => false end.
(** What the coordinate arrays should be *)
Definition centers_now (g : grid P) : list (list Q) := map center_array (g_dims g).
Definition nodes_now (g : grid P) : list (list Q) := map node_array (g_dims g).
End Kinds.
Arguments dim_read {P}. Arguments c_read {P}. Arguments centers_now {P}. Arguments nodes_now {P}.
