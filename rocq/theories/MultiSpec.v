(** Specification vocabulary for multistep methods. *)
From Verif Require Import Base TimeModel SharpModel SharpSpec MultiModel.

Section MultiSpec.
Variable Idx DX : Type.
Notation V := (Idx -> Q).
Variable f hook : Q -> V -> V.

(** The solutions (q, t) a run has produced: the initial one, then the result of every accepted step. *)
Definition solutions (so0 : sol V DX) (tr : list (event V DX)) : list (V * Q) :=
  map (fun so => (sq so, st so)) (so0 :: map ev_after (filter ev_accepted tr)).

(** The result of a step of size d from the solutions [past], oldest first: [q'] is
    - with less than k solutions, the Runge-Kutta step of the starting method;
    - otherwise the k-step formula applied to the last k solutions. *)
Definition the_last (past : list (V * Q)) : V * Q := last past (fun _ => 0, 0).
Definition nth_of_last (k : nat) (past : list (V * Q)) (j : nat) : V * Q :=
  nth (length past - k + j) past (fun _ => 0, 0).
Definition slope (p : V * Q) : V := f (snd p) (fst p).

(** The variable-step formulas of SSPLMMk2 and SSPLMMk3, with Omega = (t_n - t_(n-k+1)) / d. *)
Definition k2_formula (omega d : Q) (q fq old : V) : V := fun i =>
  (omega + 1) / omega * ((omega - 1) / omega * q i + d * fq i) + 1 / (omega * omega) * old i.
Definition k3_formula (omega d : Q) (q fq old fold_ : V) : V := fun i =>
  let r := (omega - 2) / omega in
  let b0 := (omega + 1) / (omega * omega) in
  (omega + 1) * (omega + 1) / (omega * omega) * (r * q i + d * fq i)
  + (r * b0 + (4 * (omega + 1) - omega * omega) / (omega * omega * omega)) * old i
  + b0 * d * fold_ i.

Definition multistep (I : integrator) (k : nat) (alpha beta : list Q) (past : list (V * Q)) (d : Q) (q' : V) : Prop :=
  let now := the_last past in
  let old := nth_of_last k past 0 in
  let omega := (snd now - snd old) / d in
  if Nat.ltb (length past) k then
    match I with
    | LMM => q' = ssp104 f hook d (slope now) (snd now) (fst now)
    | _ => q' = ssp22 f hook d (slope now) (snd now) (fst now)
    end
  else
    match I with
    | SSPLMMk2 => veq q' (k2_formula omega d (fst now) (slope now) (fst old))
    | SSPLMMk3 => veq q' (k3_formula omega d (fst now) (slope now) (fst old) (slope old))
    | LMM => veq q' (fun x => sum_n k (fun j => nth j alpha 0 * fst (nth_of_last k past j) x
                                                + nth j beta 0 * d * slope (nth_of_last k past j) x))
    | _ => False
    end.
End MultiSpec.
Arguments solutions {Idx DX}. Arguments multistep {Idx}. Arguments the_last {Idx}. Arguments nth_of_last {Idx}.
Arguments slope {Idx}. Arguments k2_formula {Idx}. Arguments k3_formula {Idx}.

(** Sum of increments along a list of times. *)
Fixpoint diffs (l : list Q) : list Q :=
  match l with a :: (b :: _) as r => (b - a) :: diffs r | _ => [] end.

(** A solution that is a cubic polynomial in time, and its time derivative. *)
Definition poly3 {Idx : Type} (a0 a1 a2 a3 : Idx -> Q) (t : Q) : Idx -> Q :=
  fun i => a0 i + a1 i * t + a2 i * (t * t) + a3 i * (t * t * t).
Definition dpoly3 {Idx : Type} (a1 a2 a3 : Idx -> Q) (t : Q) : Idx -> Q :=
  fun i => a1 i + 2 * (a2 i * t) + 3 * (a3 i * (t * t)).

(** A solver that has been set up with k registers and has not taken a step. *)
Definition fresh {Idx} (k : nat) (s : solver (hist Idx)) : Prop :=
  accept_step s = true /\ st_numsteps s = 0%Z /\ length (h_regs (ext s)) = k /\
  h_fs (ext s) = [] /\ h_dts (ext s) = [] /\ h_dtFEs (ext s) = [].

(** The last k of the solutions [past] span a time H that is short compared with the forward-Euler steps
    [C / speed] at these solutions: H <= sqrt 8 times each of them.  [short_spans]: so do all the histories from
    which the solutions after the k-th were computed. *)
Definition short_span {Idx} (speed : Q -> (Idx -> Q) -> Q) (C : Q) (k : nat) (past : list ((Idx -> Q) * Q)) : Prop :=
  let H := snd (the_last past) - snd (nth_of_last k past 0) in
  forall j, (j < k)%nat ->
  let p := nth_of_last k past j in
  let w := C / speed (snd p) (fst p) in H * H <= 8 * (w * w).
Definition short_spans {Idx} (speed : Q -> (Idx -> Q) -> Q) (C : Q) (k : nat) (sols : list ((Idx -> Q) * Q)) : Prop :=
  forall n, (k <= n < length sols)%nat -> short_span speed C k (firstn n sols).
