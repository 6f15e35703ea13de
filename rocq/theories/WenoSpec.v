(** Specification of fifth-order WENO reconstruction (Jiang and Shu 1996).  The cell under consideration is
    [-1/2, 1/2]; its neighbours are [j-1/2, j+1/2]. *)
From Verif Require Import Base.

(** The polynomial a + b x + c x^2. *)
Record quad := mkQuad { qa : Q; qb : Q; qc : Q }.
Definition value (p : quad) (x : Q) : Q := qa p + qb p * x + qc p * (x * x).
(** Its average over the cell j: the integral over [j-1/2, j+1/2]. *)
Definition average (p : quad) (j : Z) : Q :=
  let x := inject_Z j in qa p + qb p * x + qc p * (x * x + (1 # 12)).
(** Smoothness: the integral of p'^2 + p''^2 over the cell. *)
Definition smoothness (p : quad) : Q := qb p * qb p + (13 # 3) * (qc p * qc p).

(** p has the averages of the data (around cell i) in the cells i+lo, i+lo+1, i+lo+2. *)
Definition fits (p : quad) (q : Z -> Q) (i lo : Z) : Prop :=
  forall j, (lo <= j < lo + 3)%Z -> q (i + j)%Z == average p j.

(** The WENO value at x: the average of the three parabolas' values with weights g_k / (eps + smoothness)^2. *)
Definition weight (eps g : Q) (p : quad) : Q := g / ((eps + smoothness p) * (eps + smoothness p)).
Definition weno_value (eps g0 g1 g2 x : Q) (p0 p1 p2 : quad) : Q :=
  (weight eps g0 p0 * value p0 x + weight eps g1 p1 * value p1 x + weight eps g2 p2 * value p2 x)
  / (weight eps g0 p0 + weight eps g1 p1 + weight eps g2 p2).

(** [v] is the WENO reconstruction at the right (left) end of cell i. *)
Definition weno_right (eps : Q) (q : Z -> Q) (i : Z) (v : Q) : Prop :=
  forall p0 p1 p2, fits p0 q i (-2) -> fits p1 q i (-1) -> fits p2 q i 0 ->
  v == weno_value eps (1 # 10) (6 # 10) (3 # 10) (1 # 2) p0 p1 p2.
Definition weno_left (eps : Q) (q : Z -> Q) (i : Z) (v : Q) : Prop :=
  forall p0 p1 p2, fits p0 q i (-2) -> fits p1 q i (-1) -> fits p2 q i 0 ->
  v == weno_value eps (3 # 10) (6 # 10) (1 # 10) (-(1 # 2)) p0 p1 p2.

(** A quartic polynomial, for the order of accuracy of the ideal weights: value and cell average. *)
Record quartic := mkQuartic { c0 : Q; c1 : Q; c2 : Q; c3 : Q; c4 : Q }.
Definition value4 (p : quartic) (x : Q) : Q :=
  c0 p + c1 p * x + c2 p * (x * x) + c3 p * (x * x * x) + c4 p * (x * x * x * x).
Definition primitive4 (p : quartic) (x : Q) : Q :=
  c0 p * x + c1 p / 2 * (x * x) + c2 p / 3 * (x * x * x) + c3 p / 4 * (x * x * x * x) + c4 p / 5 * (x * x * x * x * x).
Definition average4 (p : quartic) (j : Z) : Q :=
  primitive4 p (inject_Z j + (1 # 2)) - primitive4 p (inject_Z j - (1 # 2)).
