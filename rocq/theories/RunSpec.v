(** What a whole run keeps. *)
From Verif Require Import Base BCModel BCSpec TimeModel ControllerModel Classic1DModel Classic1DSpec SweepModel SweepSpec SemiSpec.

(** Positive step sizes and limits. *)
Definition sane {E} (s : solver E) : Prop :=
  0 < dt s /\ (dt_variable s = true -> 0 < dt_max s /\ 0 < cfl_desired s).

(** Every piece of a classic step keeps the property Iq of q, as long as the aux data has the property Ix, which
    everything keeps; the hyperbolic step has to keep Iq only when the Courant number it reports is admissible. *)
Definition classic_keeps {DQ DX} (Iq : DQ -> Prop) (Ix : DX -> Prop) (source : option (Q -> sol DQ DX -> DQ * DX))
    (hyper : Q -> sol DQ DX -> DQ * DX * Q) (before : sol DQ DX -> DQ * DX) (cmax : Q) : Prop :=
  (forall so, Iq (sq so) -> Ix (sx so) -> Iq (fst (before so)) /\ Ix (snd (before so))) /\
  (forall f d so, source = Some f -> 0 < d -> Iq (sq so) -> Ix (sx so) -> Iq (fst (f d so)) /\ Ix (snd (f d so))) /\
  (forall d so, 0 < d -> Iq (sq so) -> Ix (sx so) ->
     Ix (snd (fst (hyper d so))) /\ (snd (hyper d so) <= cmax -> Iq (fst (fst (hyper d so))))).
(** For SharpClaw with a Runge-Kutta integrator: slopes have the property Ik. *)
Definition sharp_keeps {DQ DX} (Iq Ik : DQ -> Prop) (Ix : DX -> Prop) (slope : Q -> sol DQ DX -> DQ * DX * Q)
    (stages : Q -> DQ -> sol DQ DX -> DQ * DX * Q) (before : sol DQ DX -> DQ * DX) : Prop :=
  (forall so, Iq (sq so) -> Ix (sx so) -> Iq (fst (before so)) /\ Ix (snd (before so))) /\
  (forall d so, 0 < d -> Iq (sq so) -> Ix (sx so) -> Ik (fst (fst (slope d so))) /\ Ix (snd (fst (slope d so)))) /\
  (forall d k so, 0 < d -> Iq (sq so) -> Ix (sx so) -> Ik k ->
     Iq (fst (fst (stages d k so))) /\ Ix (snd (fst (stages d k so)))).

(** All new frames of a run, on disk and kept in memory, have the property I; so has the final solution unless the run
    stopped because a fixed step was too long. *)
Definition frames_keep {DQ DX E P F} (I : sol DQ DX -> Prop) (w w' : world DQ DX E P F) (o : option run_error) : Prop :=
  (forall n a u, In (WriteQ n a u) (w_out w') -> In (WriteQ n a u) (w_out w) \/ I u) /\
  (forall u, In u (w_frames w') -> In u (w_frames w) \/ I u) /\
  (o <> Some (EvolveError ECflTooLarge) -> I (w_sol w')).

(** Callbacks that leave the totals and the capacity function of a one-dimensional problem alone. *)
Definition leaves_totals (C : settings) (g : sol (arr Q) (arr Q) -> arr Q * arr Q) : Prop := forall so,
  (forall m, (0 <= m < Z.of_nat (c_neq C))%Z ->
     total C 0 (flat (snd (g so))) (flat (fst (g so))) m == total C 0 (flat (sx so)) (flat (sq so)) m) /\
  (forall i, (0 <= i < cells C)%Z -> capacity C (flat (snd (g so))) i == capacity C (flat (sx so)) i).
(** The totals of two solutions agree. *)
Definition same_totals (C : settings) (u v : sol (arr Q) (arr Q)) : Prop := forall m, (0 <= m < Z.of_nat (c_neq C))%Z ->
  total C 0 (flat (sx u)) (flat (sq u)) m == total C 0 (flat (sx v)) (flat (sq v)) m.
(** The same in more dimensions. *)
Definition mleaves_totals (S : msettings) (g : sol (arr Q) (arr Q) -> arr Q * arr Q) : Prop := forall so,
  (forall m, (0 <= m < Z.of_nat (n_neq S))%Z -> mtotal S (snd (g so)) (fst (g so)) m == mtotal S (sx so) (sq so) m) /\
  (forall ix, in_domain (n_bcs S) ix -> mcapacity S (snd (g so)) ix == mcapacity S (sx so) ix).
Definition same_mtotals (S : msettings) (u v : sol (arr Q) (arr Q)) : Prop := forall m, (0 <= m < Z.of_nat (n_neq S))%Z ->
  mtotal S (sx u) (sq u) m == mtotal S (sx v) (sq v) m.
