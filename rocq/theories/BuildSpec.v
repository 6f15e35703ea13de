(** What constructing a domain, a solution or coordinate arrays must give. *)
From Coq Require Import Ascii String.
From Verif Require Import Base FormatModel GeometryModel GeometrySpec BuildModel.
Open Scope Q_scope.

(** [lower, upper] cut into n cells in each dimension, the dimensions being called x, y, z *)
Definition box (lower upper : list Q) (n : list Z) (p : patch) : Prop :=
  map (fun d => x_lower (nd_dim d)) p = lower /\ map (fun d => x_upper (nd_dim d)) p = upper /\
  map (fun d => x_n (nd_dim d)) p = n /\ map nd_name p = firstn (length n) [lit "x"; lit "y"; lit "z"].
(** there is such a box *)
Definition makes_sense (lower upper : list Q) (n : list Z) : Prop :=
  length lower = length n /\ length upper = length n /\ (length n <= 3)%nat /\
  Forall (fun k => (0 < k)%Z) n /\ Forall2 Qlt lower upper.

(** dimensions that can form a patch *)
Definition good_dims (ds : list ndim) : Prop := NoDup (map nd_name ds) /\ (1 <= length ds <= 3)%nat.

(** The geometry objects that the documentation of Solution allows, and the patches they stand for. *)
Inductive documented_geom : geom -> list patch -> Prop :=
| DDomain ps : ps <> [] -> documented_geom (GDomain ps) ps
| DPatch p : documented_geom (GOne (IPatch p)) [p]
| DPatches ps : ps <> [] -> documented_geom (GSeq (map IPatch ps)) ps
| DDimension d : documented_geom (GOne (IDim d)) [[d]]
| DDimensions ds : good_dims ds -> documented_geom (GSeq (map IDim ds)) [ds].
(** an object given alone, not in a list *)
Definition bare (g : geom) : bool := match g with GOne _ => true | _ => false end.
(** The first arguments that it allows, and the states they stand for on a domain whose first patch is p. *)
Inductive documented_states (p : patch) : sarg -> list state -> Prop :=
| DNum n : (0 <= n)%Z -> documented_states p (SNum n) [mkSt p n 0]
| DState s : documented_states p (SState s) [s]
| DStates ss : ss <> [] -> documented_states p (SSeq (map EState ss)) ss.

(** every patch of the domain has its state *)
Definition covered (s : solution) : Prop :=
  exists l, so_states s = StateList l /\ map st_patch l = so_domain s.

(** [ix] is an index of an array of this shape *)
Definition index_of (shape ix : list Z) : Prop := Forall2 (fun i n => (0 <= i < n)%Z) ix shape.
(** the entry of array i at ix is the coordinate of edge or centre ix_i - ng of dimension i *)
Definition coordinates (ng : Z) (f : dim -> Z -> Q) (ds : list dim) (sizes : list Z) (l : list ndarray) : Prop :=
  length l = length ds /\
  forall i d a, nth_error ds i = Some d -> nth_error l i = Some a ->
    shape a = sizes /\ forall ix, index_of sizes ix -> at_ a ix == f d (nth i ix 0%Z - ng)%Z.
