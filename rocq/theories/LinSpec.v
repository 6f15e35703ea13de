(** Superposition (C152): combinations of states, and problems that are linear. *)
From Verif Require Import Base TimeModel BCModel BCSpec Classic1DModel Classic1DSpec RunModel.

(** [w] is a u + b v, component by component *)
Definition combined (n : nat) (a b : Q) (u v w : list Q) : Prop :=
  length u = n /\ length v = n /\ length w = n /\
  forall m, (0 <= m < Z.of_nat n)%Z -> nth (Z.to_nat m) w 0 == a * nth (Z.to_nat m) u 0 + b * nth (Z.to_nat m) v 0.
Definition same_values (n : nat) (u v : list Q) : Prop :=
  length u = n /\ length v = n /\ forall m, (0 <= m < Z.of_nat n)%Z -> nth (Z.to_nat m) u 0 == nth (Z.to_nat m) v 0.

(** The Riemann solver of a linear problem: the speeds depend on the auxiliary values only, and the waves and
    fluctuations are linear in the states on the two sides. *)
Definition linear_solver (neq nw naux : nat) (rp : rpsolver) : Prop :=
  forall a b ul ur vl vr wl wr al1 ar1 al2 ar2 al ar,
  combined neq a b ul vl wl -> combined neq a b ur vr wr ->
  same_values naux al1 al -> same_values naux ar1 ar -> same_values naux al2 al -> same_values naux ar2 ar ->
  let o1 := rp ul ur al1 ar1 in let o2 := rp vl vr al2 ar2 in let o := rp wl wr al ar in
  (forall p, (0 <= p < Z.of_nat nw)%Z -> o_s o1 p == o_s o p /\ o_s o2 p == o_s o p) /\
  forall m, (0 <= m < Z.of_nat neq)%Z ->
    o_am o m == a * o_am o1 m + b * o_am o2 m /\ o_ap o m == a * o_ap o1 m + b * o_ap o2 m /\
    forall p, (0 <= p < Z.of_nat nw)%Z -> o_wave o m p == a * o_wave o1 m p + b * o_wave o2 m p.

(** Limiters are not linear. *)
Definition unlimited (C : settings) : Prop :=
  c_order C = 1%Z \/ forall p, (0 <= p < Z.of_nat (c_nw C))%Z -> c_mthlim C p = 0%Z.

(** Arrays and solutions *)
Definition sum_q (C : settings) (a b : Q) (q1 q2 q : arr Q) : Prop :=
  forall m i, (0 <= m < Z.of_nat (c_neq C))%Z -> (0 <= i < cells C)%Z -> q m [i] == a * q1 m [i] + b * q2 m [i].
Definition same_x (C : settings) (x x' : arr Q) : Prop :=
  forall m i, (0 <= m < Z.of_nat (c_naux C))%Z -> (0 <= i < cells C)%Z -> x m [i] == x' m [i].
(** The third solution is a times the first plus b times the second, with the same auxiliary arrays, at the same time. *)
Definition sum_data (C : settings) (a b : Q) (d1 d2 d : arr Q * arr Q) : Prop :=
  sum_q C a b (fst d1) (fst d2) (fst d) /\ same_x C (snd d1) (snd d) /\ same_x C (snd d2) (snd d).
Definition sum_sol (C : settings) (a b : Q) (so1 so2 so : sol (arr Q) (arr Q)) : Prop :=
  sum_data C a b (sq so1, sx so1) (sq so2, sx so2) (sq so, sx so) /\ st so1 == st so /\ st so2 == st so.

(** Callbacks that are linear in q *)
Definition linear_before (C : settings) (f : sol (arr Q) (arr Q) -> arr Q * arr Q) : Prop :=
  forall a b so1 so2 so, sum_sol C a b so1 so2 so -> sum_data C a b (f so1) (f so2) (f so).
Definition linear_source (C : settings) (f : option (Q -> sol (arr Q) (arr Q) -> arr Q * arr Q)) : Prop :=
  match f with
  | None => True
  | Some f => forall a b d1 d2 d so1 so2 so, d1 == d -> d2 == d -> sum_sol C a b so1 so2 so -> sum_data C a b (f d1 so1) (f d2 so2) (f d so)
  end.
