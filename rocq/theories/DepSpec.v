(** How far a change of the data reaches (C154). *)
From Verif Require Import Base TimeModel BCModel BCSpec Classic1DModel Classic1DSpec RunModel.

(** The same values of q and aux in the cells lo .. hi - 1 *)
Definition agree (C : settings) (lo hi : Z) (q1 x1 q2 x2 : arr Q) : Prop :=
  forall i, (lo <= i < hi)%Z ->
    (forall m, (0 <= m < Z.of_nat (c_neq C))%Z -> q2 m [i] == q1 m [i]) /\ (forall m, (0 <= m < Z.of_nat (c_naux C))%Z -> x2 m [i] == x1 m [i]).

(** The domain does not continue at its other end. *)
Definition is_end (q a : bctype) : bool := match q, a with Periodic, _ | _, Periodic => false | _, _ => true end.
(** Where the cells that cannot have noticed a difference outside lo .. hi - 1 begin and end after k steps: two cells are lost
    per step, but none at an end of the domain. *)
Definition lower (C : settings) (lo k : Z) : Z :=
  if (Z.eqb lo 0 && is_end (q_lo (c_bc C)) (a_lo (c_bc C)))%bool then 0%Z else (lo + 2 * k)%Z.
Definition upper (C : settings) (hi k : Z) : Z :=
  if (Z.eqb hi (cells C) && is_end (q_hi (c_bc C)) (a_hi (c_bc C)))%bool then hi else (hi - 2 * k)%Z.
Definition positive_capacity (C : settings) (x : arr Q) : Prop := forall i, (0 <= i < cells C)%Z -> 0 < capacity C (flat x) i.
