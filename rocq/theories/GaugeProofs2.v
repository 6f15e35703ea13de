(** The rows of the gauges are in time order; one row per step. *)
From Verif Require Import Base TimeModel TimeSpec TimeProofs TimeProofs2 ControllerModel ControllerSpec ControllerProofs ControllerProofs2
  GaugeModel GaugeSpec GaugeProofs.

Lemma increasing_mono t t' l : t' <= t -> increasing t l -> increasing t' l.
Proof. destruct l as [|x l]; [auto|]. intros H [A B]. split; [lra|exact B]. Qed.
Lemma increasing_app t l1 : forall x l2, t <= x -> increasing t l1 -> Forall (fun y => y <= x) l1 -> increasing x l2 -> increasing t (l1 ++ l2).
Proof.
  revert t. induction l1 as [|y l1 IH]; intros t x l2 Htx H1 H2 H3; cbn [app].
  - exact (increasing_mono _ _ _ Htx H3).
  - destruct H1 as [A B]. apply Forall_cons_iff in H2. destruct H2 as [C D]. split; [exact A|]. exact (IH y x l2 C B D H3).
Qed.

Section Order.
Context {DQ DX E : Type}.
Variable stepf : Q -> option Q -> solver E -> sol DQ DX -> solver E * sol DQ DX.
Variable acceptf : solver E -> bool.
Variable before : sol DQ DX -> DQ * DX.
Hypothesis Hfr : step_frame stepf.
Notation evolve := (evolve_to_time stepf acceptf before).

Lemma chain_order te cm (tr : list (event DQ DX)) : forall u f, chained u tr f -> Forall (ev_ok te cm) tr ->
  increasing (st u) (map st (accepted_solutions tr)) /\ Forall (fun y => y <= st f) (map st (accepted_solutions tr)) /\ st u <= st f.
Proof.
  induction tr as [|ev tr IH]; intros u f HC HF.
  - cbn [chained] in HC. subst f. split; [exact I|]. split; [constructor|lra].
  - destruct HC as [Hb HC]. apply Forall_cons_iff in HF. destruct HF as [Hok HF]. destruct (IH _ _ HC HF) as (A & B & C).
    destruct Hok as (O1 & O2 & O3). unfold accepted_solutions in A, B |- *. cbn [filter]. rewrite <- Hb. destruct (ev_accepted ev).
    + cbn [map]. split; [split; [lra|exact A]|]. split; [constructor; [exact C|exact B]|lra].
    + destruct O3 as [O3 _]. rewrite <- O3. split; [exact A|]. split; [exact B|exact C].
Qed.

Lemma history_order (Hh : honours stepf) ts : forall (s : solver E) u, Good s -> increasing (st u) ts ->
  increasing (st u) (map st (accepted_solutions (r_trace (history evolve s u (map Some ts))))).
Proof.
  induction ts as [|t ts IH]; intros s u HG Hi; cbn [map history]; [exact I|]. destruct Hi as [Hlt Hi].
  destruct (evolve_variable stepf acceptf before Hfr Hh s u t _ HG (Qlt_le_weak _ _ Hlt) eq_refl) as (T1 & T2 & T3).
  destruct (chain_order _ _ _ _ _ T2 T3) as (O1 & O2 & O3).
  destruct (r_err (evolve s u (Some t))) as [e|] eqn:Ee; [exact O1|].
  destruct (evolve_good stepf acceptf before Hfr Hh s u t _ HG Hlt eq_refl Ee) as [G1 _].
  cbn [r_trace]. unfold accepted_solutions. rewrite filter_app, !map_app.
  apply (increasing_app _ _ (st (r_sol (evolve s u (Some t))))); [exact O3|exact O1|exact O2|].
  apply IH; [exact G1|]. apply (increasing_mono t); [lra|exact Hi].
Qed.

Lemma accepted_number (tr : list (event DQ DX)) : Z.of_nat (length (accepted_solutions tr)) = accepted_count tr.
Proof.
  unfold accepted_solutions. rewrite map_length. induction tr as [|ev tr IH]; [reflexivity|]. cbn [filter accepted_count].
  destruct (ev_accepted ev); cbn [length]; lia.
Qed.

Lemma history_steps (Hac : forall s : solver E, acceptf s = true -> cfl s <= cfl_max s) calls : forall (s : solver E) u,
  let h := history evolve s u calls in
  (st_numsteps (r_solver h) = st_numsteps s + Z.of_nat (length (accepted_solutions (r_trace h))))%Z.
Proof.
  cbv zeta. induction calls as [|c calls IH]; intros s u; cbn [history].
  - cbn [r_solver r_trace]. unfold accepted_solutions. cbn [filter map length]. lia.
  - destruct (evolve_status stepf acceptf before Hfr s u c _ (fun s' _ => Hac s') eq_refl) as (_ & N & _).
    destruct (r_err (evolve s u c)) as [e|]; [rewrite N, accepted_number; reflexivity|].
    cbn [r_solver r_trace]. rewrite IH, N. unfold accepted_solutions at 2. rewrite filter_app, map_app, app_length.
    fold (accepted_solutions (r_trace (evolve s u c))).
    fold (accepted_solutions (r_trace (history evolve (r_solver (evolve s u c)) (r_sol (evolve s u c)) calls))).
    rewrite Nat2Z.inj_add, !accepted_number. lia.
Qed.
End Order.
