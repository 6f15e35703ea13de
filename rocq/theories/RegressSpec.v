(** What the helpers must decide. *)
From Coq Require Import Permutation.
From Verif Require Import Base RegressModel.

(** The sum of squares of the differences of two arrays, element by element. *)
Fixpoint sqdist (a b : list Q) : Q :=
  match a, b with
  | x :: a, y :: b => (x - y) * (x - y) + sqdist a b
  | _, _ => 0
  end.
(** d >= 0 times the square root of [s] is below [tol]: some rational below [tol] is at least as large. *)
Definition root_below (d s tol : Q) : Prop := exists r, 0 <= r /\ r < tol /\ d * d * s <= r * r.

(** Two states agree: the same grid, time and sizes, and values within the tolerances of the helper. *)
Definition agree (s r : rstate) : Prop :=
  r_shape s = r_shape r /\ length (r_q s) = length (r_q r) /\ root_below 1 (sqdist (r_q s) (r_q r)) (1 # 1000000) /\
  match r_aux s, r_aux r with
  | Some (sh, xs), Some (sh', ys) => sh = sh' /\ length xs = length ys /\ root_below 1 (sqdist xs ys) (1 # 10000000000000000)
  | None, None => True
  | _, _ => False
  end /\
  r_t s == r_t r /\ r_num_eqn s = r_num_eqn r /\ r_num_aux s = r_num_aux r /\ r_index s = r_index r /\ r_level s = r_level r /\
  Forall2 (fun x y => rd_cells x = rd_cells y /\ rd_lower x == rd_lower y /\ rd_delta x == rd_delta y /\ rd_units x = rd_units y /\
                      rd_on_lower x = rd_on_lower y /\ rd_on_upper x = rd_on_upper y) (r_dims s) (r_dims r).

(** A state as the library makes them: q has one axis more than the patch, and num_aux tells whether there are
    auxiliary values. *)
Definition sane (s : rstate) : Prop :=
  length (r_shape s) = S (length (r_dims s)) /\ (r_aux s = None <-> r_num_aux s = 0%Z).

(** Two solutions are the same up to the order of their patches. *)
Definition same_solution (a b : list rstate) : Prop :=
  exists b', Permutation b b' /\ Forall2 agree a b'.
