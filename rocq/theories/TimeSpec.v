(** Specification vocabulary for the time-stepping properties (C01-C12, C51). *)
From Verif Require Import Base TimeModel.

(** The history of a run is connected: each attempt starts from the solution the previous one
    left behind. *)
Fixpoint chained {DQ DX} (start : sol DQ DX) (tr : list (event DQ DX)) (final : sol DQ DX) : Prop :=
  match tr with
  | [] => start = final
  | e :: l => ev_before e = start /\ chained (ev_after e) l final
  end.

(** Number of accepted attempts. *)
Fixpoint accepted_count {DQ DX} (tr : list (event DQ DX)) : Z :=
  match tr with
  | [] => 0
  | e :: l => ((if ev_accepted e then 1 else 0) + accepted_count l)%Z
  end.

(** [m] is the maximum of the optional old value and the Courant numbers of the accepted attempts
    ([None] stands for minus infinity). *)
Definition is_cflmax {DQ DX} (old : option Q) (tr : list (event DQ DX)) (m : option Q) : Prop :=
  match m with
  | None => old = None /\ accepted_count tr = 0%Z
  | Some c =>
      (forall ev, In ev tr -> ev_accepted ev = true -> ev_cfl ev <= c) /\
      (forall o, old = Some o -> o <= c) /\
      (old = Some c \/ exists ev, In ev tr /\ ev_accepted ev = true /\ ev_cfl ev = c)
  end.

(** A number in lowest terms (the model keeps times and step sizes so). *)
Definition canonical (x : Q) : Prop := Qred x = x.

(** Two attempts are consecutive in a history. *)
Definition consecutive {DQ DX} (tr : list (event DQ DX)) (a b : event DQ DX) : Prop :=
  exists l1 l2, tr = l1 ++ a :: b :: l2.

(** The classic operator-splitting formulas, from a solution [so] with step [d]. *)
Definition apply_source {DQ DX} (source : Q -> sol DQ DX -> DQ * DX) (d : Q) (so : sol DQ DX) :=
  mkSol (fst (source d so)) (snd (source d so)) (st so).
Definition apply_hyper {DQ DX} (hyper : Q -> sol DQ DX -> DQ * DX * Q) (d : Q) (so : sol DQ DX) :=
  mkSol (fst (fst (hyper d so))) (snd (fst (hyper d so))) (st so).
Definition strang {DQ DX} source hyper (d : Q) (so : sol DQ DX) : sol DQ DX :=
  apply_source source (Qred (d / 2)) (apply_hyper hyper d (apply_source source (Qred (d / 2)) so)).
Definition godunov {DQ DX} source hyper (d : Q) (so : sol DQ DX) : sol DQ DX :=
  apply_source source d (apply_hyper hyper d so).
Definition apply_before {DQ DX} (before : sol DQ DX -> DQ * DX) (so : sol DQ DX) :=
  mkSol (fst (before so)) (snd (before so)) (st so).

(** The data (q and everything else) of a solution, without the time. *)
Definition same_data {DQ DX} (a b : sol DQ DX) : Prop := sq a = sq b /\ sx a = sx b.

(** Courant number the classic hyperbolic step reports when a step of size [d] is attempted
    from [so]. *)
Definition attempt_courant {DQ DX} (source : option (Q -> sol DQ DX -> DQ * DX))
    (hyper : Q -> sol DQ DX -> DQ * DX * Q) (split : Z) (before : sol DQ DX -> DQ * DX)
    (d : Q) (so : sol DQ DX) : Q :=
  snd (hyper d (match source with
                | Some src => if Z.eqb split 2
                              then apply_source src (Qred (d / 2)) (apply_before before so)
                              else apply_before before so
                | None => apply_before before so
                end)).

(** Order with optional infinities as used by the status dictionary:
    [dtmin = None] is +infinity, [dtmax = None] is -infinity. *)
Definition dtmin_le (m : option Q) (x : Q) : Prop := match m with Some y => y <= x | None => False end.
Definition dtmax_ge (m : option Q) (x : Q) : Prop := match m with Some y => x <= y | None => False end.
