(** Specification for limiters (C25, C26, C55, C56). *)
From Verif Require Import Base.

(** Sweby's second-order TVD region. *)
Definition in_sweby (phi : Q -> Q) : Prop :=
  (forall r, 0 <= phi r <= 2) /\ (forall r, 0 <= r -> phi r <= 2 * r) /\
  (forall r, r <= 0 -> phi r == 0) /\ phi 1 == 1.
(** Smooth data and its mirror image are treated alike. *)
Definition symmetric (phi : Q -> Q) : Prop := forall r, 0 < r -> phi r == r * phi (1 / r).
(** The wider TVD region at Courant number [nu]. *)
Definition in_cfl_region (nu : Q) (phi : Q -> Q) : Prop :=
  (forall r, 0 <= phi r) /\ (forall r, r <= 0 -> phi r == 0) /\
  (forall r, phi r * (1 - nu) <= 2) /\ (forall r, 0 <= r -> phi r * nu <= 2 * r).

(** The result at an interface depends on the arguments at that interface only. *)
Definition cell_by_cell (f : list Q -> list Q -> list Q) : Prop :=
  forall r c r' c' k, length r = length c -> length r' = length c' ->
  nth_error r k = nth_error r' k -> nth_error c k = nth_error c' k ->
  nth_error (f r c) k = nth_error (f r' c') k.
