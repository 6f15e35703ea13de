(** Monotone first-order schemes for one conserved quantity (C153): order and L1 distance of two solutions. *)
From Verif Require Import Base TimeModel BCModel BCSpec Classic1DModel Classic1DSpec RunModel.

(** States between [lo] and [hi] *)
Definition between (lo hi x : Q) : Prop := lo <= x /\ x <= hi.

(** A monotone Riemann solver on the states between [lo] and [hi]: raising the left state does not raise the right-going
    fluctuation, raising the right state does not raise the left-going one, and raising the state of a cell by h raises the
    two fluctuations that enter it by at most lam h ([lam] bounds the wave speeds). *)
Definition monotone_solver (lo hi lam : Q) (rp : rpsolver) : Prop :=
  (forall al ar l l' r, between lo hi l -> between lo hi l' -> between lo hi r -> l <= l' ->
     o_ap (rp [l'] [r] al ar) 0 <= o_ap (rp [l] [r] al ar) 0) /\
  (forall al ar l r r', between lo hi l -> between lo hi r -> between lo hi r' -> r <= r' ->
     o_am (rp [l] [r'] al ar) 0 <= o_am (rp [l] [r] al ar) 0) /\
  (forall al ac ar l c c' r, between lo hi l -> between lo hi c -> between lo hi c' -> between lo hi r -> c <= c' ->
     o_ap (rp [l] [c'] al ac) 0 - o_ap (rp [l] [c] al ac) 0 + (o_am (rp [c'] [r] ac ar) 0 - o_am (rp [c] [r] ac ar) 0) <= lam * (c' - c)).
(** The bounds are states of rest. *)
Definition resting_bounds (lo hi : Q) (nw : nat) (rp : rpsolver) : Prop := at_rest 1 nw rp [lo] /\ at_rest 1 nw rp [hi].

(** The first-order scheme for one quantity, boundaries without walls, positive cell sizes and capacities, Courant number
    with respect to lam at most 1 in every cell *)
Definition first_order (C : settings) : Prop :=
  c_neq C = 1%nat /\ c_order C = 1%Z /\ (2 <= c_ng C)%nat /\ capa_in_aux C /\
  fit_dim (c_ng C) (Nat.ltb 0 (c_naux C)) 1 (c_bc C) /\ q_lo (c_bc C) <> Wall /\ q_hi (c_bc C) <> Wall.
Definition small_steps (C : settings) (lam d : Q) (x : arr Q) : Prop :=
  0 < d /\ 0 < c_dx C /\ forall i, (0 <= i < cells C)%Z -> 0 < capacity C (flat x) i /\ d / (c_dx C * capacity C (flat x) i) * lam <= 1.

(** [q1] lies below [q2], both between [lo] and [hi]. *)
Definition ordered (C : settings) (lo hi : Q) (q1 q2 : arr Q) : Prop :=
  forall i, (0 <= i < cells C)%Z -> lo <= q1 0%Z [i] /\ q1 0%Z [i] <= q2 0%Z [i] /\ q2 0%Z [i] <= hi.
(** Capacity-weighted L1 distance *)
Definition distance (C : settings) (x q1 q2 : arr Q) : Q :=
  zsum 0 (Z.to_nat (cells C)) (fun i => capacity C (flat x) i * Qabs (q1 0%Z [i] - q2 0%Z [i])).
