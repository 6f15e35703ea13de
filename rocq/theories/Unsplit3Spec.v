(** Specification for the unsplit three-dimensional solver (C93-C96). *)
From Verif Require Import Base BCModel LimiterModel Classic1DModel Classic1DSpec SweepModel SweepSpec Unsplit3Model.

(** The combinations of order and transverse_waves that flux3.f90:46-75 describes as schemes: no transverse waves,
    transverse increment waves, and for second order also transverse correction waves.  ClawSolver3D.no_trans is 0,
    trans_inc is 11 and trans_cor, the default, is 22. *)
Definition described (order trans : Z) : Prop :=
  In trans [0; 10; 11]%Z \/ In trans [20; 21; 22]%Z /\ order <> 1%Z.

(** Transverse solvers that split a zero fluctuation into zeros. *)
Definition splits_nothing3 (neq : nat) (rpt : rpt3solver) (rptt : rptt3solver) : Prop :=
  forall icoor imp impt ql qr al ar dq, Forall (fun x => x == 0) dq ->
  forall m, (0 <= m < Z.of_nat neq)%Z ->
  fst (rpt icoor imp ql qr al ar dq) m == 0 /\ snd (rpt icoor imp ql qr al ar dq) m == 0 /\
  fst (rptt icoor imp impt ql qr al ar dq) m == 0 /\ snd (rptt icoor imp impt ql qr al ar dq) m == 0.
