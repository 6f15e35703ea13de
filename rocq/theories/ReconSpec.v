(** What reconstructions in characteristic variables must give. *)
From Verif Require Import Base Classic1DModel WenoSpec.

(** The matrices R (entries m p) and L (entries p m) of size n are inverse to each other: R L = 1. *)
Definition inverse (n : nat) (R L : Z -> Z -> Q) : Prop :=
  forall m m', (0 <= m < Z.of_nat n)%Z -> (0 <= m' < Z.of_nat n)%Z ->
  zsum 0 n (fun p => R m p * L p m') == if Z.eqb m m' then 1 else 0.
(** The characteristic variable p of the cell j: row p of L times q. *)
Definition char_var (n : nat) (L : Z -> Z -> Q) (q : Z -> Z -> Q) (p j : Z) : Q := zsum 0 n (fun m => L p m * q m j).

(** [v] (component m) is the WENO reconstruction in the characteristic variables at the right (left) end of cell j:
    the combination of the right eigenvectors with the WENO values of the characteristic variables. *)
Definition char_weno_right (eps : Z -> Q) (n : nat) (R L : Z -> Z -> Q) (q : Z -> Z -> Q) (j : Z) (v : Z -> Q) : Prop :=
  exists u, (forall p, (0 <= p < Z.of_nat n)%Z -> weno_right (eps p) (char_var n L q p) j (u p)) /\
  forall m, (0 <= m < Z.of_nat n)%Z -> v m == zsum 0 n (fun p => R m p * u p).
Definition char_weno_left (eps : Z -> Q) (n : nat) (R L : Z -> Z -> Q) (q : Z -> Z -> Q) (j : Z) (v : Z -> Q) : Prop :=
  exists u, (forall p, (0 <= p < Z.of_nat n)%Z -> weno_left (eps p) (char_var n L q p) j (u p)) /\
  forall m, (0 <= m < Z.of_nat n)%Z -> v m == zsum 0 n (fun p => R m p * u p).

(** The waves of a linear system with eigenvectors R (columns) and L (rows): at the interface j, between the cells
    j+left and j+left+1, the wave p is the jump of the characteristic variable p times the eigenvector p. *)
Definition linear_waves (n : nat) (R L : Z -> Z -> Q) (q : Z -> Z -> Q) (left lo hi : Z) (w : Z -> Z -> Z -> Q) : Prop :=
  forall m p j, (0 <= m < Z.of_nat n)%Z -> (0 <= p < Z.of_nat n)%Z -> (lo <= j <= hi)%Z ->
  w m p j == R m p * (char_var n L q p (j + left + 1) - char_var n L q p (j + left)).
(** No wave at interface i is smaller than the threshold of the code. *)
Definition no_small_wave (n : nat) (w : Z -> Z -> Z -> Q) (i : Z) : Prop :=
  forall p, (0 <= p < Z.of_nat n)%Z -> (1 # 100000000000000) < zsum 0 n (fun m => w m p i * w m p i).
(** The regularisation in units of the projections (jump times the square of the eigenvector's length). *)
Definition wave_eps (eps : Q) (n : nat) (R L : Z -> Z -> Q) (q : Z -> Z -> Q) (j p : Z) : Q :=
  let c := (char_var n L q p (j + 1) - char_var n L q p j) * zsum 0 n (fun m => R m p * R m p) in
  eps / (c * c) / 12.

(** x lies between a and b. *)
Definition between (a b x : Q) : Prop := (a <= x /\ x <= b) \/ (b <= x /\ x <= a).
