(** Properties C01-C12 and C51-C53: time-step control.
    [classic_evolve source hyper split before solver solution tend] is the model of
    [solver.evolve_to_time(solution, tend)] for a classic solver with the given callbacks;
    [sharp_evolve] the same for a SharpClaw solver with a Runge-Kutta integrator. *)
From Verif Require Import Base TimeModel TimeSpec TimeProofs TimeProofs2 TimeProofs3 TimeProofs4 TimeProofs5.

(** A concrete problem used in the examples below: q is a number that grows at unit rate, the
    Courant number is 10*dt. *)
Definition demo_hyper (d : Q) (so : sol Q Q) : Q * Q * Q := (Qred (sq so + d), sx so + 1, 10 * d).
Definition demo_solver (d dmax : Q) (m : Z) (var : bool) : solver unit :=
  mkSolver d None dmax var (9#10) 1 (9#10) m None None None 0 true tt.
Definition demo_before (so : sol Q Q) : Q * Q := (sq so, sx so).
Definition demo_run (d dmax : Q) (m : Z) (var : bool) (te : option Q) : result Q Q unit :=
  classic_evolve None demo_hyper 1 demo_before (demo_solver d dmax m var) (mkSol 0 0 0) te.
Definition demo_slope (d : Q) (so : sol Q Q) : Q * Q * Q := (1, sx so, 10 * d).
Definition demo_stages (d k : Q) (so : sol Q Q) : Q * Q * Q := (Qred (sq so + d * k), sx so, 10 * d).
Definition demo_sharp_solver (d dmax : Q) (m : Z) : solver Q :=
  mkSolver d None dmax true (9#10) 1 (9#10) m None None None 0 true 0.
Definition demo_sharp (d dmax : Q) (m : Z) (te : option Q) : result Q Q Q :=
  sharp_evolve demo_slope demo_stages demo_before (demo_sharp_solver d dmax m) (mkSol 0 0 0) te.

(** ** C01 *)
Theorem C01_classic_never_passes_tend :
  forall (DQ DX E : Type) source hyper split before (s : solver E) (so : sol DQ DX) tend r,
  dt_variable s = true -> 0 < dt s -> 0 < dt_max s -> 0 < cfl_desired s -> st so <= tend ->
  classic_evolve source hyper split before s so (Some tend) = r ->
  st so <= st (r_sol r) <= tend /\
  (tend <= st (r_sol r) -> st (r_sol r) == tend) /\
  chained so (r_trace r) (r_sol r) /\
  (forall ev, In ev (r_trace r) ->
     0 < ev_dt ev /\ st (ev_before ev) + ev_dt ev <= tend /\
     (ev_accepted ev = true -> st (ev_after ev) == st (ev_before ev) + ev_dt ev) /\
     (ev_accepted ev = false -> st (ev_after ev) = st (ev_before ev))).
Proof.
  intros DQ DX E source hyper split before s so tend r H1 H2 H3 H4 H5 Hr.
  destruct (evolve_variable _ _ _ (classic_frame source hyper split) (classic_honours source hyper split)
    s so tend r (conj H1 (conj H2 (conj H3 H4))) H5 Hr) as (A & B & C).
  split; [exact A|]. split; [intros; lra|]. split; [exact B|].
  intros ev Hin. rewrite Forall_forall in C. destruct (C ev Hin) as (C1 & C2 & C3).
  split; [exact C1|]. split; [exact C2|].
  destruct (ev_accepted ev); split; intros; try discriminate; [exact C3|apply C3].
Qed.
Print Assumptions C01_classic_never_passes_tend.

Theorem C01_sharpclaw_never_passes_tend :
  forall (DQ DX : Type) slope stages before (s : solver DQ) (so : sol DQ DX) tend r,
  dt_variable s = true -> 0 < dt s -> 0 < dt_max s -> 0 < cfl_desired s -> st so <= tend ->
  sharp_evolve slope stages before s so (Some tend) = r ->
  st so <= st (r_sol r) <= tend /\
  (tend <= st (r_sol r) -> st (r_sol r) == tend) /\
  chained so (r_trace r) (r_sol r) /\
  (forall ev, In ev (r_trace r) ->
     0 < ev_dt ev /\ st (ev_before ev) + ev_dt ev <= tend /\
     (ev_accepted ev = true -> st (ev_after ev) == st (ev_before ev) + ev_dt ev) /\
     (ev_accepted ev = false -> st (ev_after ev) = st (ev_before ev))).
Proof.
  intros DQ DX slope stages before s so tend r H1 H2 H3 H4 H5 Hr.
  destruct (evolve_variable _ _ _ (sharp_frame slope stages) (sharp_honours slope stages)
    s so tend r (conj H1 (conj H2 (conj H3 H4))) H5 Hr) as (A & B & C).
  split; [exact A|]. split; [intros; lra|]. split; [exact B|].
  intros ev Hin. rewrite Forall_forall in C. destruct (C ev Hin) as (C1 & C2 & C3).
  split; [exact C1|]. split; [exact C2|].
  destruct (ev_accepted ev); split; intros; try discriminate; [exact C3|apply C3].
Qed.
Print Assumptions C01_sharpclaw_never_passes_tend.

Example C01_example :
  let r := demo_run 1 (1#20) 100 true (Some (1#4)) in
  st (r_sol r) = 1#4 /\ length (r_trace r) = 6%nat /\ r_err r = None /\
  map ev_accepted (r_trace r) = [false; true; true; true; true; true].
Proof. vm_compute. repeat split. Qed.
Example C01_sharp_example :
  let r := demo_sharp 1 (1#20) 100 (Some (1#4)) in
  st (r_sol r) = 1#4 /\ length (r_trace r) = 4%nat /\ r_err r = None.
Proof. vm_compute. repeat split. Qed.

(** ** C02 *)
(** The claim "a normal return means the end time was reached" is false: rejected attempts use up the
    iteration budget without triggering the exception. *)
Theorem C02_normal_return_refuted :
  exists (hyper : Q -> sol Q Q -> Q * Q * Q) (s : solver unit) (so : sol Q Q) (tend : Q),
    dt_variable s = true /\ 0 < dt s /\ cfl_desired s <= cfl_max s /\ (0 < max_steps s)%Z /\
    let r := classic_evolve None hyper 1 demo_before s so (Some tend) in
    r_err r = None /\ st (r_sol r) < tend.
Proof.
  exists demo_hyper, (demo_solver 1 1 5 true), (mkSol 0 0 0), 1.
  vm_compute. repeat split; congruence.
Qed.
Print Assumptions C02_normal_return_refuted.

(** What is true: a normal return short of [tend] happens only if every allowed attempt was used and
    at least one was rejected.  (Missing for the full property: the code should raise then.) *)
Theorem C02_normal_return_partial :
  forall (DQ DX E : Type) source hyper split before (s : solver E) (so : sol DQ DX) tend r,
  dt_variable s = true -> (0 <= max_steps s)%Z ->
  classic_evolve source hyper split before s so (Some tend) = r ->
  r_err r = None ->
  tend <= st (r_sol r) \/
  (Z.of_nat (length (r_trace r)) = max_steps s /\
   exists ev, In ev (r_trace r) /\ ev_accepted ev = false).
Proof.
  intros DQ DX E source hyper split before s so tend r.
  exact (normal_return _ _ _ (classic_frame source hyper split) s so tend r).
Qed.
Print Assumptions C02_normal_return_partial.
Theorem C02_sharpclaw_normal_return_partial :
  forall (DQ DX : Type) slope stages before (s : solver DQ) (so : sol DQ DX) tend r,
  dt_variable s = true -> (0 <= max_steps s)%Z ->
  sharp_evolve slope stages before s so (Some tend) = r ->
  r_err r = None ->
  tend <= st (r_sol r) \/
  (Z.of_nat (length (r_trace r)) = max_steps s /\
   exists ev, In ev (r_trace r) /\ ev_accepted ev = false).
Proof.
  intros DQ DX slope stages before s so tend r.
  exact (normal_return _ _ _ (sharp_frame slope stages) s so tend r).
Qed.
Print Assumptions C02_sharpclaw_normal_return_partial.

(** ** C03 *)
Theorem C03_rejected_step_restores :
  forall (DQ DX E : Type) source hyper split before (s : solver E) (so : sol DQ DX) tend r ev,
  dt_variable s = true -> 0 < dt s -> 0 < dt_max s -> 0 < cfl_desired s -> st so <= tend ->
  classic_evolve source hyper split before s so (Some tend) = r ->
  In ev (r_trace r) -> ev_accepted ev = false ->
  sq (ev_after ev) = sq (ev_before ev) /\ st (ev_after ev) = st (ev_before ev).
Proof.
  intros DQ DX E source hyper split before s so tend r ev H1 H2 H3 H4 H5 Hr Hin Ha.
  destruct (evolve_variable _ _ _ (classic_frame source hyper split) (classic_honours source hyper split)
    s so tend r (conj H1 (conj H2 (conj H3 H4))) H5 Hr) as (_ & _ & C).
  rewrite Forall_forall in C. destruct (C ev Hin) as (_ & _ & C3). rewrite Ha in C3. intuition.
Qed.
Print Assumptions C03_rejected_step_restores.
Theorem C03_sharpclaw_rejected_step_restores :
  forall (DQ DX : Type) slope stages before (s : solver DQ) (so : sol DQ DX) tend r ev,
  dt_variable s = true -> 0 < dt s -> 0 < dt_max s -> 0 < cfl_desired s -> st so <= tend ->
  sharp_evolve slope stages before s so (Some tend) = r ->
  In ev (r_trace r) -> ev_accepted ev = false ->
  sq (ev_after ev) = sq (ev_before ev) /\ st (ev_after ev) = st (ev_before ev).
Proof.
  intros DQ DX slope stages before s so tend r ev H1 H2 H3 H4 H5 Hr Hin Ha.
  destruct (evolve_variable _ _ _ (sharp_frame slope stages) (sharp_honours slope stages)
    s so tend r (conj H1 (conj H2 (conj H3 H4))) H5 Hr) as (_ & _ & C).
  rewrite Forall_forall in C. destruct (C ev Hin) as (_ & _ & C3). rewrite Ha in C3. intuition.
Qed.
Print Assumptions C03_sharpclaw_rejected_step_restores.

(** The retry is shorter by at least cfl_desired/cfl_max, unless the remaining interval is within
    1e-14*t of the proposed step (then the step is stretched to hit tend). *)
Theorem C03_retry_is_shorter :
  forall (DQ DX E : Type) source hyper split before (s : solver E) (so : sol DQ DX) tend r a b,
  dt_variable s = true -> 0 < dt s -> 0 < dt_max s -> 0 < cfl_desired s ->
  cfl_desired s <= cfl_max s ->
  classic_evolve source hyper split before s so (Some tend) = r ->
  consecutive (r_trace r) a b -> ev_accepted a = false ->
  st (ev_before b) = st (ev_after a) /\
  (ev_dt b < ev_dt a * cfl_desired s / cfl_max s \/
   (tend - st (ev_after a) - ev_dt a * cfl_desired s / ev_cfl a < eps14 * st (ev_after a) /\
    ev_dt b == tend - st (ev_after a))).
Proof.
  intros DQ DX E source hyper split before s so tend r a b H1 H2 H3 H4 H5 Hr.
  exact (classic_retry source hyper split before s so tend r (conj H1 (conj H2 (conj H3 H4))) H5 Hr a b).
Qed.
Print Assumptions C03_retry_is_shorter.
Theorem C03_sharpclaw_retry_is_shorter :
  forall (DQ DX : Type) slope stages before (s : solver DQ) (so : sol DQ DX) tend r a b,
  dt_variable s = true -> 0 < dt s -> 0 < dt_max s -> 0 < cfl_desired s ->
  cfl_desired s <= cfl_max s ->
  sharp_evolve slope stages before s so (Some tend) = r ->
  consecutive (r_trace r) a b -> ev_accepted a = false ->
  st (ev_before b) = st (ev_after a) /\
  (ev_dt b < ev_dt a * cfl_desired s / cfl_max s \/
   (tend - st (ev_after a) - ev_dt a * cfl_desired s / ev_cfl a < eps14 * st (ev_after a) /\
    ev_dt b == tend - st (ev_after a))).
Proof.
  intros DQ DX slope stages before s so tend r a b H1 H2 H3 H4 H5 Hr.
  exact (sharp_retry slope stages before s so tend r (conj H1 (conj H2 (conj H3 H4))) H5 Hr a b).
Qed.
Print Assumptions C03_sharpclaw_retry_is_shorter.
(** The exception is real: 1e-15 before tend=1+1e-15 a rejected step is retried with the same dt
    until the iterations run out, and the run returns normally without reaching tend. *)
Definition stiff_hyper (d : Q) (so : sol Q Q) : Q * Q * Q := (sq so, sx so, 10000000000000000 * d).
Theorem C03_retry_always_shorter_refuted :
  exists (s : solver unit) (so : sol Q Q) (tend : Q),
    let r := classic_evolve None stiff_hyper 1 demo_before s so (Some tend) in
    dt_variable s = true /\ 0 < dt s /\ cfl_desired s < cfl_max s /\ st so < tend /\
    (exists a b, consecutive (r_trace r) a b /\ ev_accepted a = false /\ ev_dt b == ev_dt a) /\
    r_err r = None /\ st (r_sol r) < tend.
Proof.
  exists (demo_solver (1#1000000000000000) 1 2 true), (mkSol 0 0 1), (1 + (1#1000000000000000)).
  cbv zeta. repeat split; try (vm_compute; congruence).
  eexists _, _. split; [|split].
  - exists [], []. vm_compute. reflexivity.
  - reflexivity.
  - vm_compute. reflexivity.
Qed.
Print Assumptions C03_retry_always_shorter_refuted.
Example C03_example :
  exists a b, consecutive (r_trace (demo_run 1 1 100 true (Some (1#4)))) a b /\
    ev_accepted a = false /\ ev_dt a = 1#4 /\ ev_dt b = 9#100.
Proof.
  eexists _, _. split; [|split; [|split]].
  - exists []. eexists. vm_compute. reflexivity.
  - reflexivity.
  - reflexivity.
  - reflexivity.
Qed.

(** ** C04 *)
Theorem C04_accepted_steps_obey_cfl :
  forall (DQ DX E : Type) source hyper split before (s : solver E) (so : sol DQ DX) tend r,
  classic_evolve source hyper split before s so tend = r ->
  (forall ev, In ev (r_trace r) -> ev_accepted ev = true -> ev_cfl ev <= cfl_max s) /\
  (st_numsteps (r_solver r) = st_numsteps s + accepted_count (r_trace r))%Z /\
  (r_err r <> Some ECflTooLarge -> is_cflmax (st_cflmax s) (r_trace r) (st_cflmax (r_solver r))).
Proof.
  intros DQ DX E source hyper split before s so tend r Hr.
  refine (evolve_status (classic_step source hyper split) accept_reject_step before (classic_frame source hyper split) s so tend r _ Hr).
  intros s' _. apply accept_base.
Qed.
Print Assumptions C04_accepted_steps_obey_cfl.
Theorem C04_sharpclaw_accepted_steps_obey_cfl :
  forall (DQ DX : Type) slope stages before (s : solver DQ) (so : sol DQ DX) tend r,
  sharp_evolve slope stages before s so tend = r ->
  (forall ev, In ev (r_trace r) -> ev_accepted ev = true -> ev_cfl ev <= cfl_max s) /\
  (st_numsteps (r_solver r) = st_numsteps s + accepted_count (r_trace r))%Z /\
  (r_err r <> Some ECflTooLarge -> is_cflmax (st_cflmax s) (r_trace r) (st_cflmax (r_solver r))).
Proof.
  intros DQ DX slope stages before s so tend r Hr.
  refine (evolve_status (sharp_step slope stages) accept_reject_step before (sharp_frame slope stages) s so tend r _ Hr).
  intros s' _. apply accept_base.
Qed.
Print Assumptions C04_sharpclaw_accepted_steps_obey_cfl.
Example C04_example :
  let r := demo_run 1 1 100 true (Some (1#4)) in
  option_map Qred (st_cflmax (r_solver r)) = Some (9#10) /\ st_numsteps (r_solver r) = 3%Z.
Proof. vm_compute. auto. Qed.

(** ** C05 *)
Theorem C05_fixed_step_count :
  forall (DQ DX E : Type) source hyper split before (s : solver E) (so : sol DQ DX) tend r N,
  dt_variable s = false -> canonical (dt s) -> tol10 < dt s -> eps14 * tend <= dt s ->
  (1 <= N)%Z -> tend == st so + inject_Z N * dt s ->
  classic_evolve source hyper split before s so (Some tend) = r ->
  chained so (r_trace r) (r_sol r) /\
  (forall i ev, nth_error (r_trace r) i = Some ev ->
     ev_dt ev = dt s /\ st (ev_before ev) == st so + inject_Z (Z.of_nat i) * dt s /\
     (ev_accepted ev = true -> st (ev_after ev) == st so + inject_Z (Z.of_nat i + 1) * dt s /\
        ev_cfl ev <= cfl_max s)) /\
  ((r_err r = None /\ Z.of_nat (length (r_trace r)) = N /\
    (forall ev, In ev (r_trace r) -> ev_accepted ev = true) /\ st (r_sol r) == tend) \/
   (r_err r = Some ECflTooLarge /\ (Z.of_nat (length (r_trace r)) <= N)%Z /\
    exists ok bad, r_trace r = ok ++ [bad] /\ ev_accepted bad = false /\ cfl_max s < ev_cfl bad /\
      (forall ev, In ev ok -> ev_accepted ev = true))).
Proof.
  intros DQ DX E source hyper split before s so tend r N H1 H2 H3 H4 H5 H6 <-.
  destruct (evolve_fixed source hyper split before s so tend N H1 H2 H3 H6 H5 H4)
    as (s' & so' & tr & e & HF & ->).
  destruct (fiter_spec source hyper split before _ (set_max_steps N s) _ _ _ _ _ H1 HF)
    as (_ & _ & A & _ & B & C). cbn [r_trace r_sol r_err].
  split; [exact A|]. split; [exact B|].
  destruct C as [(-> & L & Hall & Ht)|(-> & L & bad & tl & -> & X1 & X2 & X3)].
  - left. split; [reflexivity|]. split; [rewrite rev_length; lia|].
    split; [intros ev Hin; rewrite <- in_rev in Hin; auto|].
    rewrite Ht, H6. rewrite Z2Nat.id by lia. reflexivity.
  - right. split; [reflexivity|]. split; [rewrite rev_length; lia|].
    exists (rev tl), bad. split; [reflexivity|]. split; [exact X1|]. split; [exact X2|].
    intros ev Hin. rewrite <- in_rev in Hin. auto.
Qed.
Print Assumptions C05_fixed_step_count.
Example C05_example :
  let r := demo_run (1#20) 1 0 false (Some (1#4)) in
  r_err r = None /\ length (r_trace r) = 5%nat /\ st (r_sol r) = 1#4 /\ sq (r_sol r) = 1#4.
Proof. vm_compute. auto. Qed.
Example C05_error_example :
  let r := demo_run (1#8) 1 0 false (Some (1#4)) in
  r_err r = Some ECflTooLarge /\ length (r_trace r) = 1%nat.
Proof. vm_compute. auto. Qed.

(** ** C51: the 1e-5 tolerance of the divisibility test does not bound the error of the final time:
    when dt is within the tolerance but does not divide exactly, the last step's correction is
    multiplied by the number of steps. *)
Definition idle_hyper (d : Q) (so : sol Q Q) : Q * Q * Q := (sq so, sx so, 0).
Theorem C51_fixed_step_final_time_refuted :
  exists (s : solver unit) (so : sol Q Q) (tend : Q),
    let r := classic_evolve None idle_hyper 1 demo_before s so (Some tend) in
    dt_variable s = false /\ 0 < dt s /\ st so < tend /\ r_err r = None /\
    tol5 * (tend - st so) < Qabs (st (r_sol r) - tend).
Proof.
  exists (demo_solver (Qred (((1#1000000) + (1#100000000000)) / 3)) 1 0 false), (mkSol 0 0 0), (1#1000000).
  vm_compute. repeat split; congruence.
Qed.
Print Assumptions C51_fixed_step_final_time_refuted.

(** ** C06 *)
Theorem C06_single_step :
  forall (DQ DX E : Type) source hyper split before (s : solver E) (so : sol DQ DX) r,
  dt_variable s = true -> (1 <= max_steps s)%Z -> cfl_desired s <= cfl_max s ->
  classic_evolve source hyper split before s so None = r ->
  exists ev, r_trace r = [ev] /\ r_err r = None /\ ev_before ev = so /\ ev_after ev = r_sol r /\
    ev_dt ev = match dt_old s with
               | None => dt s
               | Some _ => if qltb 0 (cfl s)
                           then pymin (dt_max s) (Qred (dt s * cfl_desired s / cfl s))
                           else dt_max s
               end /\
    (ev_accepted ev = true -> st (r_sol r) == st so + ev_dt ev) /\
    (ev_accepted ev = false -> st (r_sol r) = st so /\ sq (r_sol r) = sq so) /\
    max_steps (r_solver r) = max_steps s.
Proof.
  intros DQ DX E source hyper split before s so r H1 H2 H3 Hr.
  destruct (single_step _ _ _ (classic_frame source hyper split) s so r H1 H2 H3 Hr)
    as (s1 & so1 & ev & Hs & A1 & A2 & A3 & A4 & A5 & A6 & A7 & A8 & A9).
  exists ev. rewrite A6. split; [exact A1|]. split; [exact A2|]. split; [exact A3|]. split; [exact A4|].
  split.
  { rewrite A5. destruct (classic_dt _ _ _ _ _ _ _ _ _ Hs) as (-> & _).
    unfold get_dt, get_dt_clip, get_dt_choose. rewrite H1.
    destruct (dt_old s); [cbn [andb]; destruct (qltb 0 (cfl s)); reflexivity|reflexivity]. }
  split; [|split; [exact A9|exact A7]].
  intros Ha. rewrite (A8 Ha). cbn [st]. rewrite Qred_correct, A5. reflexivity.
Qed.
Print Assumptions C06_single_step.
Example C06_example :
  let r := demo_run (1#20) 1 7 true None in
  st (r_sol r) = 1#20 /\ sq (r_sol r) = 1#20 /\ length (r_trace r) = 1%nat /\
  let r2 := demo_run 1 1 7 true None in
  st (r_sol r2) = 0 /\ sq (r_sol r2) = 0 /\ r_err r2 = None.
Proof. vm_compute. auto 10. Qed.

(** ** C07 *)
Theorem C07_bounded_speeds_finish :
  forall (DQ DX E : Type) source hyper split before (s : solver E) (so : sol DQ DX) tend
         (rate : Q -> DQ -> Q) (R d : Q) (m : nat) r,
  dt_variable s = true -> 0 < dt s -> 0 < dt_max s -> 0 < cfl_desired s ->
  cfl_desired s <= cfl_max s -> cfl_desired s + eps14 * tend * R <= cfl_max s ->
  (forall t q, 0 <= rate t q <= R) ->
  (* the Courant number of an attempted step is dt times a rate that depends on t and q only *)
  (forall d' so', 0 < d' ->
     attempt_courant source hyper split before d' so' == d' * rate (st so') (sq so')) ->
  (* steps of size d are always allowed *)
  0 < d -> d <= dt_max s -> d * R <= cfl_desired s ->
  (* enough iterations *)
  st so < tend -> tend - st so <= inject_Z (Z.of_nat m) * d ->
  (2 * Z.of_nat m + 1 <= max_steps s)%Z ->
  classic_evolve source hyper split before s so (Some tend) = r ->
  r_err r = None /\ st (r_sol r) == tend.
Proof.
  intros DQ DX E source hyper split before s so tend rate R d m r
    H1 H2 H3 H4 H5 H6 H8 H9 H10 H11 H12 H13 H14 H15 Hr.
  exact (live source hyper split before rate R H8 H9 s H1 H4 H3 tend H5 H6 d H10 H11 H12
           so r m H2 H14 H15 H13 Hr).
Qed.
Print Assumptions C07_bounded_speeds_finish.
(** The hypotheses are met by the demonstration problem with rate 10, d = 9/100, m = 3. *)
Example C07_example :
  let r := demo_run 1 1 7 true (Some (1#4)) in r_err r = None /\ st (r_sol r) == 1#4.
Proof.
  cbv zeta.
  refine (C07_bounded_speeds_finish _ _ _ None demo_hyper 1 demo_before (demo_solver 1 1 7 true)
     (mkSol 0 0 0) (1#4) (fun _ _ => 10) 10 (9#100) 3 _
     _ _ _ _ _ _ _ _ _ _ _ _ _ _ eq_refl); try (vm_compute; congruence).
  - intros; lra.
  - intros d' so' Hd. unfold attempt_courant, demo_hyper. cbn [snd]. ring.
Qed.

(** ** C08 *)
Theorem C08_noop_then_run_refuted :
  exists (s : solver unit) (so : sol Q Q) (tpast tend : Q),
    let r0 := classic_evolve None demo_hyper 1 demo_before s so (Some tpast) in
    let r1 := classic_evolve None demo_hyper 1 demo_before (r_solver r0) (r_sol r0) (Some tend) in
    let r2 := classic_evolve None demo_hyper 1 demo_before s so (Some tend) in
    tpast <= st so /\ r_err r0 = None /\ r_sol r0 = so /\
    r_err r2 = None /\ st (r_sol r2) == tend /\
    r_err r1 = Some EMaxSteps /\ r_sol r1 = so.
Proof.
  exists (demo_solver (1#20) 1 100 true), (mkSol 0 0 0), 0, (1#4).
  vm_compute. repeat split; congruence.
Qed.
Print Assumptions C08_noop_then_run_refuted.
(** With a fixed step even the call itself fails when tend < t. *)
Theorem C08_fixed_step_noop_refuted :
  exists (s : solver unit) (so : sol Q Q) (tpast : Q),
    let r0 := classic_evolve None demo_hyper 1 demo_before s so (Some tpast) in
    dt_variable s = false /\ tpast < st so /\ r_err r0 = Some EDtNotDivide.
Proof.
  exists (demo_solver (1#20) 1 100 false), (mkSol 0 0 1), (1#4). vm_compute. repeat split; congruence.
Qed.
Print Assumptions C08_fixed_step_noop_refuted.
(** What is true: the call leaves the solution alone, takes no step, and changes nothing in the solver
    except max_steps.  (Missing: max_steps is set to 0 for good.) *)
Theorem C08_noop_partial :
  forall (DQ DX E : Type) source hyper split before (s : solver E) (so : sol DQ DX) tend r,
  dt_variable s = true -> cfl_desired s <= cfl_max s -> tend <= st so ->
  classic_evolve source hyper split before s so (Some tend) = r ->
  r_sol r = so /\ r_trace r = [] /\ r_err r = None /\ r_solver r = set_max_steps 0 s.
Proof.
  intros DQ DX E source hyper split before s so tend r H1 H2 H3 <-.
  unfold classic_evolve, evolve_to_time, evolve_setup. rewrite H1. cbv zeta. rewrite H1.
  destruct (qltb (cfl_max s) (cfl_desired s)) eqn:E1; [qprop; lra|].
  destruct (qleb tend (st so)) eqn:E2; [|qprop; lra]. cbn -[qltb].
  destruct (qltb (st so) tend) eqn:E3; [qprop; lra|]. rewrite andb_false_r. auto.
Qed.
Print Assumptions C08_noop_partial.

(** ** C09 *)
Theorem C09_fixed_run_splits :
  forall (DQ DX E : Type) source hyper split before (s : solver E) (so : sol DQ DX) t1 t2 N1 N2 r1 r2 r,
  dt_variable s = false -> canonical (dt s) -> canonical (st so) -> canonical t1 ->
  tol10 < dt s -> eps14 * t1 <= dt s -> eps14 * t2 <= dt s ->
  (1 <= N1)%Z -> (1 <= N2)%Z ->
  t1 == st so + inject_Z N1 * dt s -> t2 == t1 + inject_Z N2 * dt s ->
  classic_evolve source hyper split before s so (Some t1) = r1 ->
  classic_evolve source hyper split before (r_solver r1) (r_sol r1) (Some t2) = r2 ->
  classic_evolve source hyper split before s so (Some t2) = r ->
  match r_err r1 with
  | None => r_sol r2 = r_sol r /\ r_err r2 = r_err r /\ r_trace r = r_trace r1 ++ r_trace r2 /\
            set_max_steps 0 (r_solver r2) = set_max_steps 0 (r_solver r)
  | Some e => r_err r = Some e /\ r_sol r = r_sol r1 /\ r_trace r = r_trace r1
  end.
Proof.
  intros DQ DX E source hyper split before s so t1 t2 N1 N2 r1 r2 r Hv Hc Hct Hc1 Hd He1 He2 HN1 HN2 HT1 HT2 <- <- <-.
  destruct (evolve_fixed source hyper split before s so t1 N1 Hv Hc Hd HT1 HN1 He1)
    as (s1 & so1 & tr1 & e1 & HF1 & ->).
  assert (HT : t2 == st so + inject_Z (N1 + N2) * dt s) by (rewrite HT2, HT1, inject_Z_plus; ring).
  destruct (evolve_fixed source hyper split before s so t2 (N1 + N2) Hv Hc Hd HT ltac:(lia) He2)
    as (s3 & so3 & tr3 & e3 & HF3 & ->).
  cbn [r_err r_sol r_trace r_solver].
  replace (Z.to_nat (N1 + N2)) with (Z.to_nat N1 + Z.to_nat N2)%nat in HF3 by lia.
  rewrite fiter_app, fiter_max in HF3. rewrite fiter_max in HF1.
  destruct (fiter source hyper split before (Z.to_nat N1) s so []) as [[[s1' so1'] tr1'] e1'] eqn:HFs.
  inversion HF1; subst s1 so1' tr1' e1'; clear HF1.
  destruct e1 as [x|].
  - inversion HF3; subst. auto.
  - destruct (fiter_spec source hyper split before _ s so _ _ _ _ Hv HFs) as ((P1 & _) & D & _ & _ & _ & C).
    destruct C as [(_ & _ & _ & Ht)|(Hx & _)]; [|discriminate].
    assert (HT2' : t2 == st so1 + inject_Z N2 * dt (set_max_steps N1 s1')).
    { cbn [dt set_max_steps]. rewrite D, HT2, Ht, HT1, Z2Nat.id by lia. reflexivity. }
    assert (K1 : dt_variable (set_max_steps N1 s1') = false) by (cbn; congruence).
    assert (K2 : canonical (dt (set_max_steps N1 s1'))) by (cbn; rewrite D; assumption).
    assert (K3 : tol10 < dt (set_max_steps N1 s1')) by (cbn [dt set_max_steps]; rewrite D; assumption).
    assert (K4 : eps14 * t2 <= dt (set_max_steps N1 s1')) by (cbn [dt set_max_steps]; rewrite D; assumption).
    destruct (evolve_fixed source hyper split before (set_max_steps N1 s1') so1 t2 N2 K1 K2 K3 HT2' HN2 K4)
      as (s2 & so2 & tr2 & e2 & HF2 & ->).
    cbn [r_err r_sol r_trace r_solver].
    assert (HM : set_max_steps N2 (set_max_steps N1 s1') = set_max_steps N2 s1') by reflexivity.
    rewrite HM, fiter_max in HF2.
    rewrite fiter_max, fiter_tr in HF3.
    destruct (fiter source hyper split before (Z.to_nat N2) s1' so1 []) as [[[s2' so2'] tr2'] e2'].
    inversion HF2; subst; clear HF2. inversion HF3; subst; clear HF3.
    rewrite rev_app_distr. auto.
Qed.
Print Assumptions C09_fixed_run_splits.
Example C09_example :
  let r1 := demo_run (1#20) 1 0 false (Some (1#10)) in
  let r2 := classic_evolve None demo_hyper 1 demo_before (r_solver r1) (r_sol r1) (Some (1#4)) in
  let r := demo_run (1#20) 1 0 false (Some (1#4)) in
  r_err r1 = None /\ r_sol r2 = r_sol r /\ sq (r_sol r) = 1#4 /\ length (r_trace r) = 5%nat.
Proof. vm_compute. auto. Qed.

(** ** C53: a fixed-step run to tend equals that many single-step calls. *)
Fixpoint single_calls {DQ DX E} (call : solver E -> sol DQ DX -> result DQ DX E)
    (k : nat) (s : solver E) (so : sol DQ DX) : solver E * sol DQ DX * option err :=
  match k with
  | O => (s, so, None)
  | S k => let r := call s so in
           match r_err r with
           | Some e => (r_solver r, r_sol r, Some e)
           | None => single_calls call k (r_solver r) (r_sol r)
           end
  end.
Theorem C53_fixed_run_is_single_steps :
  forall (DQ DX E : Type) source hyper split before (s : solver E) (so : sol DQ DX) tend r N,
  dt_variable s = false -> canonical (dt s) -> tol10 < dt s -> eps14 * tend <= dt s ->
  (1 <= N)%Z -> tend == st so + inject_Z N * dt s ->
  classic_evolve source hyper split before s so (Some tend) = r ->
  let '(s', so', e) :=
    single_calls (fun s so => classic_evolve source hyper split before s so None) (Z.to_nat N) s so in
  r_sol r = so' /\ r_err r = e /\ set_max_steps 0 (r_solver r) = set_max_steps 0 s'.
Proof.
  intros DQ DX E source hyper split before s so tend r N H1 H2 H3 H4 H5 H6 <-.
  destruct (evolve_fixed source hyper split before s so tend N H1 H2 H3 H6 H5 H4)
    as (s' & so' & tr & e & HF & ->).
  cbn [r_sol r_err r_solver].
  assert (HS : forall k (s : solver E) so, dt_variable s = false ->
     let '(s', so', tr, e) := fiter source hyper split before k s so [] in
     exists m, single_calls (fun s so => classic_evolve source hyper split before s so None) k s so
               = (set_max_steps m s', so', e)).
  { clear. induction k as [|k IH]; intros s so Hv; cbn [fiter single_calls].
    - exists (max_steps s). destruct s; reflexivity.
    - assert (HC : classic_evolve source hyper split before s so None =
        let '(s1, so1, ev, e) := fstep source hyper split before s so in
        mkResult (set_max_steps 1 s1) so1 [ev] e).
      { unfold classic_evolve, evolve_to_time, evolve_setup. rewrite Hv. cbv zeta.
        cbn [dt_variable set_max_steps]. rewrite Hv. cbn [andb max_steps set_max_steps].
        change (Z.to_nat 1) with 1%nat. cbn [evolve_loop].
        change (attempt (classic_step source hyper split) accept_reject_step before (st so) None 0
                  (set_max_steps 1 s) so) with (fstep source hyper split before (set_max_steps 1 s) so).
        rewrite fstep_max. destruct (fstep source hyper split before s so) as [[[s1 so1] ev] [x|]]; reflexivity. }
      rewrite HC. destruct (fstep source hyper split before s so) as [[[s1 so1] ev] e1] eqn:Hf.
      destruct (fstep_inv _ _ _ _ _ _ _ _ _ _ Hv Hf) as ((P1 & _) & _).
      destruct e1 as [x|]; cbn [r_err r_solver r_sol].
      + exists 1%Z. reflexivity.
      + rewrite fiter_tr. specialize (IH (set_max_steps 1 s1) so1 ltac:(cbn; congruence)).
        rewrite fiter_max in IH.
        destruct (fiter source hyper split before k s1 so1 []) as [[[s2 so2] tr2] e2].
        destruct IH as (m & ->). exists m. reflexivity. }
  specialize (HS (Z.to_nat N) s so H1). rewrite fiter_max in HF.
  destruct (fiter source hyper split before (Z.to_nat N) s so []) as [[[s2 so2] tr2] e2].
  destruct HS as (m & ->). inversion HF; subst. auto.
Qed.
Print Assumptions C53_fixed_run_is_single_steps.
Example C53_example :
  let '(s', so', e) := single_calls (fun s so => classic_evolve None demo_hyper 1 demo_before s so None)
       5 (demo_solver (1#20) 1 0 false) (mkSol 0 0 0) in
  so' = mkSol (1#4) (5#1) (1#4) /\ e = None.
Proof. vm_compute. auto. Qed.

(** ** C10 *)
Theorem C10_dtmin_dtmax_refuted :
  exists (s : solver unit) (so : sol Q Q) (tend : Q),
    let r := classic_evolve None demo_hyper 1 demo_before s so (Some tend) in
    dt_variable s = true /\ 0 < dt s /\ dt s <= dt_max s /\ r_err r = None /\
    (exists ev, In ev (r_trace r) /\ ev_accepted ev = true /\ ~ dtmin_le (st_dtmin (r_solver r)) (ev_dt ev)) .
Proof.
  exists (demo_solver (1#20) 1 100 true), (mkSol 0 0 0), (1#10).
  cbv zeta. split; [reflexivity|]. split; [reflexivity|]. split; [vm_compute; congruence|].
  split; [reflexivity|].
  eexists. split; [vm_compute; left; reflexivity|]. split; [reflexivity|]. vm_compute. congruence.
Qed.
Print Assumptions C10_dtmin_dtmax_refuted.
(** What is true: dtmin/dtmax bracket the step sizes the CFL controller proposed after each attempt that
    was followed by another one (before clipping to tend).  Missing: the first step, steps clipped at
    tend and steps following a zero Courant number are not covered. *)
Theorem C10_dtmin_dtmax_partial :
  forall (DQ DX E : Type) source hyper split before (s : solver E) (so : sol DQ DX) tend r,
  dt_variable s = true -> classic_evolve source hyper split before s so tend = r ->
  forall a b, consecutive (r_trace r) a b -> 0 < ev_cfl a ->
  let proposed := pymin (dt_max s) (Qred (ev_dt a * cfl_desired s / ev_cfl a)) in
  dtmin_le (st_dtmin (r_solver r)) proposed /\ dtmax_ge (st_dtmax (r_solver r)) proposed.
Proof.
  intros DQ DX E source hyper split before s so tend r.
  exact (evolve_dtstatus source hyper split before s so tend r).
Qed.
Print Assumptions C10_dtmin_dtmax_partial.

(** ** C11 *)
Theorem C11_classic_dt_max_refuted :
  exists (s : solver unit) (so : sol Q Q) (tend : Q),
    let r := classic_evolve None demo_hyper 1 demo_before s so (Some tend) in
    dt_variable s = true /\ 0 < dt_max s /\ r_err r = None /\
    exists ev, In ev (r_trace r) /\ ev_accepted ev = true /\ dt_max s < ev_dt ev.
Proof.
  exists (demo_solver (1#10) (1#100) 100 true), (mkSol 0 0 0), (1#10).
  cbv zeta. repeat split; try (vm_compute; congruence).
  eexists. split; [vm_compute; left; reflexivity|]. split; [reflexivity|]. vm_compute. reflexivity.
Qed.
Print Assumptions C11_classic_dt_max_refuted.
Theorem C11_sharpclaw_dt_max_refuted :
  exists (s : solver Q) (so : sol Q Q) (tend : Q),
    let r := sharp_evolve demo_slope demo_stages demo_before s so (Some tend) in
    dt_variable s = true /\ 0 < dt_max s /\ dt s <= dt_max s /\ r_err r = None /\
    exists ev, In ev (r_trace r) /\ ev_accepted ev = true /\ dt_max s < ev_dt ev.
Proof.
  exists (demo_sharp_solver (1#100) (1#50) 100), (mkSol 0 0 0), (1#2).
  cbv zeta. repeat split; try (vm_compute; congruence).
  eexists. split; [vm_compute; right; left; reflexivity|]. split; [reflexivity|]. vm_compute. reflexivity.
Qed.
Print Assumptions C11_sharpclaw_dt_max_refuted.
(** What is true for the classic solvers: every attempt but the first of a call respects dt_max, up to
    the 1e-14*t stretch of the last step.  (Missing: the first step, SharpClaw.) *)
Theorem C11_classic_dt_max_partial :
  forall (DQ DX E : Type) source hyper split before (s : solver E) (so : sol DQ DX) tend r,
  dt_variable s = true -> 0 < dt s -> 0 < dt_max s -> 0 < cfl_desired s ->
  classic_evolve source hyper split before s so (Some tend) = r ->
  forall a b, consecutive (r_trace r) a b ->
  ev_dt b <= dt_max s \/
  (ev_dt b == tend - st (ev_before b) /\ ev_dt b < dt_max s + eps14 * st (ev_before b)).
Proof.
  intros DQ DX E source hyper split before s so tend r H1 H2 H3 H4 Hr a b.
  exact (classic_dtmax source hyper split before s so tend r (conj H1 (conj H2 (conj H3 H4))) Hr a b).
Qed.
Print Assumptions C11_classic_dt_max_partial.

(** ** C12 *)
Theorem C12_splitting_partial :
  forall (DQ DX E : Type) source hyper split before (s : solver E) (so : sol DQ DX) tend r ev,
  (split = 1 \/ split = 2)%Z ->
  classic_evolve (Some source) hyper split before s so tend = r ->
  In ev (r_trace r) -> ev_accepted ev = true -> ev_cfl ev < cfl_max s ->
  same_data (ev_after ev)
    ((if Z.eqb split 2 then strang source hyper else godunov source hyper)
       (ev_dt ev) (apply_before before (ev_before ev))).
Proof.
  intros DQ DX E source hyper split before s so tend r ev.
  exact (classic_split source hyper split before s so tend r ev).
Qed.
Print Assumptions C12_splitting_partial.
(** At Courant number exactly cfl_max the step is accepted without its (second) source update. *)
Definition decay (d : Q) (so : sol Q Q) : Q * Q := (Qred (sq so - d), sx so).
Theorem C12_splitting_refuted :
  forall ssplit : Z, (ssplit = 1 \/ ssplit = 2)%Z ->
  exists (s : solver unit) (so : sol Q Q) (tend : Q),
    let r := classic_evolve (Some decay) demo_hyper ssplit demo_before s so (Some tend) in
    dt_variable s = true /\ r_err r = None /\
    exists ev, In ev (r_trace r) /\ ev_accepted ev = true /\ ev_cfl ev <= cfl_max s /\
      ~ same_data (ev_after ev)
          ((if Z.eqb ssplit 2 then strang decay demo_hyper else godunov decay demo_hyper)
            (ev_dt ev) (apply_before demo_before (ev_before ev))).
Proof.
  intros ssplit [-> | ->];
  exists (demo_solver (1#10) 1 100 true), (mkSol 0 0 0), (1#10);
  cbv zeta; (split; [reflexivity|]); (split; [vm_compute; reflexivity|]);
  (eexists; split; [vm_compute; left; reflexivity|]); (split; [reflexivity|]);
  (split; [vm_compute; congruence|]); intros [H _]; vm_compute in H; discriminate.
Qed.
Print Assumptions C12_splitting_refuted.
Example C12_example :
  let r := classic_evolve (Some decay) demo_hyper 2 demo_before (demo_solver (1#20) 1 100 true)
             (mkSol 0 0 0) (Some (1#4)) in
  r_err r = None /\ Forall (fun ev => ev_accepted ev = true /\ ev_cfl ev < 1) (r_trace r) /\
  length (r_trace r) = 4%nat.
Proof. vm_compute. repeat split; repeat constructor. Qed.

(** ** C52: data other than q and t changed by a rejected step is not restored. *)
Theorem C52_rejected_step_restores_aux_refuted :
  exists (s : solver unit) (so : sol Q Q) (tend : Q),
    let r := classic_evolve None demo_hyper 1 demo_before s so (Some tend) in
    dt_variable s = true /\
    exists ev, In ev (r_trace r) /\ ev_accepted ev = false /\ ~ sx (ev_after ev) == sx (ev_before ev).
Proof.
  exists (demo_solver 1 1 100 true), (mkSol 0 0 0), (1#4).
  cbv zeta. split; [reflexivity|]. eexists. split; [vm_compute; left; reflexivity|].
  split; [reflexivity|]. vm_compute. congruence.
Qed.
Print Assumptions C52_rejected_step_restores_aux_refuted.
