(** Equilibria of three-dimensional problems with the unsplit classic solver (C171). *)
From Verif Require Import Base BCModel BCSpec LimiterModel Classic1DModel Classic1DSpec SweepModel SweepSpec Unsplit3Model Unsplit3Spec EquilSpec SEquilSpec.

(** Steps of any sizes, one after the other; the work arrays hold anything before each of them. *)
Inductive unsplit3_steps (undef : Q -> Q -> Z -> Q) (S : msettings) (rpt : nat -> rpt3solver) (rptt : nat -> rptt3solver) (trans : Z) (aux : arr Q)
  : list Q -> arr Q -> arr Q -> Prop :=
| no_step3 q : unsplit3_steps undef S rpt rptt trans aux [] q q
| one_more_step3 dt dts q q1 q2 cfl stale qbc0 auxbc0 :
    unsplit3_step undef (with_dt S dt) rpt rptt stale trans q aux qbc0 auxbc0 = MStepped q1 cfl -> unsplit3_steps undef S rpt rptt trans aux dts q1 q2 ->
    unsplit3_steps undef S rpt rptt trans aux (dt :: dts) q q2.
