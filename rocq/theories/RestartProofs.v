(** Fixed steps do not depend on what the solver did before. *)
From Verif Require Import Base TimeModel TimeSpec TimeProofs TimeProofs2 TimeProofs4 ControllerModel ControllerSpec ControllerProofs SymProofs SimProofs RestartSpec.

Definition same_time (a b : option Q) : Prop :=
  match a, b with None, None => True | Some x, Some y => x == y | _, _ => False end.

Section Fixed.
Context {DQ DX E : Type}.
Variable stepf : Q -> option Q -> solver E -> sol DQ DX -> solver E * sol DQ DX.
Variable before : sol DQ DX -> DQ * DX.
Variable need : bool.     (* does a step use what a rejected step has left? *)
Definition ready (s : solver E) : Prop := need = true -> accept_step s = true.
Definition agree (s s2 : solver E) : Prop := same_steps s s2 /\ ready s /\ ready s2.
Hypothesis frame : step_frame stepf.
Hypothesis Hstep : forall ts te te2 s s2 so, agree s s2 -> same_time te te2 ->
  snd (stepf ts te s so) = snd (stepf ts te2 s2 so) /\ dt (fst (stepf ts te s so)) = dt (fst (stepf ts te2 s2 so)) /\
  cfl (fst (stepf ts te s so)) = cfl (fst (stepf ts te2 s2 so)).
Hypothesis Hdt : forall ts te s so, dt_variable s = false -> ready s ->
  dt (fst (stepf ts te s so)) = dt (get_dt_clip (st so) ts te s).
Notation att := (attempt stepf accept_reject_step before).
Notation evolve := (evolve_to_time stepf accept_reject_step before).

Lemma attempt_agree ts te te2 n s s2 so : agree s s2 -> same_time te te2 ->
  let '(s', so', ev, e) := att ts te n s so in
  let '(s2', so2', ev2, e2) := att ts te2 n s2 so in
  so' = so2' /\ e = e2 /\ ev_accepted ev = ev_accepted ev2 /\ max_steps s' = max_steps s /\ max_steps s2' = max_steps s2 /\
  dt_variable s' = false /\ dt_variable s2' = false /\ (e = None -> agree s' s2').
Proof.
  intros A T. unfold attempt. set (so1 := mkSol _ _ (st so)).
  destruct (Hstep ts te te2 s s2 so1 A T) as (H1 & H2 & H3).
  destruct (stepf ts te s so1) as [a b] eqn:E1. destruct (stepf ts te2 s2 so1) as [a2 b2] eqn:E2. cbn [fst snd] in *. subst b2.
  destruct (frame _ _ _ _ _ _ E1) as (P1 & _). destruct (frame _ _ _ _ _ _ E2) as (P2 & _).
  destruct P1 as (V1 & _ & _ & C1 & M1), P2 as (V2 & _ & _ & C2 & M2).
  destruct A as ((A1 & A2 & A3 & A4) & A5 & A6).
  unfold accept_reject_step. rewrite <- H3, C1, C2, A4.
  destruct (qltb (cfl_max s) (cfl a)) eqn:K; cbn [dt_variable set_accept_step set_st_cflmax].
  - rewrite V1, V2, A1, A2. cbn [ev_accepted max_steps set_accept_step set_st_cflmax dt_variable]. repeat split; try congruence.
  - rewrite V1, V2, A1, A2. cbn [ev_accepted max_steps dt set_accept_step set_st_cflmax set_numsteps dt_variable]. rewrite H2.
    split; [reflexivity|]. split; [reflexivity|]. split; [reflexivity|]. split; [exact M1|]. split; [exact M2|].
    split; [congruence|]. split; [congruence|]. intros _. split; [|split; intros _; reflexivity].
    repeat split; cbn [dt_variable dt cfl_max set_numsteps set_st_cflmax set_accept_step]; congruence.
Qed.
Lemma finished_same te te2 so : same_time te te2 -> finished te so = @finished DQ DX te2 so.
Proof. destruct te, te2; cbn; try contradiction; [|reflexivity]. intros H. apply qleb_m; [exact H|reflexivity]. Qed.
Lemma loop_agree ts te te2 : same_time te te2 -> forall k n s s2 so num tr tr2, agree s s2 ->
  let '(s', so', num', _, e) := evolve_loop stepf accept_reject_step before k n ts te s so num tr in
  let '(s2', so2', num2', _, e2) := evolve_loop stepf accept_reject_step before k n ts te2 s2 so num tr2 in
  so' = so2' /\ e = e2 /\ dt_variable s' = false /\ dt_variable s2' = false /\ (e = None -> agree s' s2').
Proof.
  intros T. induction k as [|k IH]; intros n s s2 so num tr tr2 A; cbn [evolve_loop].
  - destruct A as ((A1 & A2 & A3 & A4) & A5). repeat split; try assumption; apply A5.
  - pose proof (attempt_agree ts te te2 n s s2 so A T) as K.
    destruct (att ts te n s so) as [[[s' so'] ev] e]. destruct (att ts te2 n s2 so) as [[[s2' so2'] ev2] e2].
    destruct K as (<- & <- & K3 & _ & _ & K6 & K7 & K8). rewrite K3. destruct e as [e|].
    + repeat split; try assumption; discriminate.
    + rewrite (finished_same te te2 so' T). destruct (finished te2 so').
      * repeat split; try assumption; apply K8; reflexivity.
      * apply IH. apply K8. reflexivity.
Qed.
Lemma setup_agree ts te te2 s s2 : agree s s2 -> same_time te te2 ->
  snd (evolve_setup ts te s) = snd (evolve_setup ts te2 s2) /\
  (snd (evolve_setup ts te s) = None -> max_steps (fst (evolve_setup ts te s)) = max_steps (fst (evolve_setup ts te2 s2)) /\
     agree (fst (evolve_setup ts te s)) (fst (evolve_setup ts te2 s2))).
Proof.
  intros A T. pose proof A as ((A1 & A2 & A3 & A4) & A5). unfold evolve_setup. rewrite A1, A2.
  destruct te as [te|], te2 as [te2|]; try contradiction.
  - cbn in T. rewrite A3. destruct (qeqb (dt s) 0); [split; [reflexivity|discriminate]|].
    rewrite (qtrunc_m ((te2 - ts + tol10) / dt s) ((te - ts + tol10) / dt s)) by (rewrite T; reflexivity).
    set (m := qtrunc _). cbv zeta.
    rewrite (qltb_m (tol5 * (te2 - ts)) (tol5 * (te - ts)) (Qabs (inject_Z m * dt s - (te2 - ts))) (Qabs (inject_Z m * dt s - (te - ts))))
      by (rewrite T; reflexivity).
    destruct (qltb _ _); [split; [reflexivity|discriminate]|]. cbn [dt_variable set_max_steps]. rewrite A1, A2. cbn [andb].
    rewrite (qleb_m te2 te ts ts) by (try symmetry; try exact T; reflexivity).
    destruct (qleb te ts); split; try reflexivity; intros _; (split; [reflexivity|]); exact A.
  - cbn [dt_variable set_max_steps]. rewrite A1, A2. cbn [andb]. split; [reflexivity|]. intros _. split; [reflexivity|]. exact A.
Qed.
Lemma evolve_agree te te2 s s2 so : agree s s2 -> same_time te te2 ->
  r_sol (evolve s so te) = r_sol (evolve s2 so te2) /\ r_err (evolve s so te) = r_err (evolve s2 so te2) /\
  (r_err (evolve s so te) = None -> agree (r_solver (evolve s so te)) (r_solver (evolve s2 so te2))).
Proof.
  intros A T. unfold evolve_to_time. destruct (setup_agree (st so) te te2 s s2 A T) as (E1 & E2).
  destruct (evolve_setup (st so) te s) as [a e]. destruct (evolve_setup (st so) te2 s2) as [a2 e2]. cbn [fst snd] in *. subst e2.
  destruct e as [e|]; [cbn; repeat split; discriminate|]. destruct (E2 eq_refl) as (M & A'). rewrite <- M.
  pose proof (loop_agree (st so) te te2 T (Z.to_nat (max_steps a)) 0 a a2 so 0 [] [] A') as K.
  destruct (evolve_loop _ _ _ _ _ _ te a so 0 []) as [[[[b bo] num] tr] e].
  destruct (evolve_loop _ _ _ _ _ _ te2 a2 so 0 []) as [[[[b2 bo2] num2] tr2] e2].
  destruct K as (<- & <- & V1 & V2 & K). destruct e as [e|]; cbn [r_sol r_err r_solver]; [repeat split; discriminate|].
  rewrite V1, V2. cbn [andb]. split; [reflexivity|].
  assert (X : match te with Some _ | _ => false end = false) by (destruct te; reflexivity).
  assert (X2 : match te2 with Some _ | _ => false end = false) by (destruct te2; reflexivity).
  rewrite X, X2. split; [reflexivity|]. intros _. apply K. reflexivity.
Qed.
Lemma many_agree : forall args args2, Forall2 same_time args args2 -> forall s s2 so, agree s s2 ->
  many_sol (many evolve s so args) = many_sol (many evolve s2 so args2) /\
  many_err (many evolve s so args) = many_err (many evolve s2 so args2).
Proof.
  induction 1 as [|a a2 l l2 T _ IH]; intros s s2 so A; cbn [many]; [split; reflexivity|].
  destruct (evolve_agree a a2 s s2 so A T) as (E1 & E2 & E3). rewrite <- E2. destruct (r_err (evolve s so a)) as [e|].
  - split; [exact E1|reflexivity].
  - rewrite <- E1. apply IH. apply E3. reflexivity.
Qed.

(** ** A step that divides the interval stays as it is *)
Lemma clip_fixed (s : solver E) t ts te n N :
  canonical (dt s) -> 0 < dt s -> te == ts + inject_Z N * dt s -> t == ts + inject_Z n * dt s -> (0 <= n < N)%Z ->
  eps14 * te <= dt s -> dt (get_dt_clip t ts (Some te) s) = dt s.
Proof.
  intros Hc Hd HN Hn Hr He. unfold get_dt_clip.
  assert (Hle : inject_Z (n + 1) <= inject_Z N) by (apply inject_Z_le; lia).
  rewrite inject_Z_plus in Hle. change (inject_Z 1) with 1 in Hle.
  assert (K : t + dt s <= te) by (rewrite HN, Hn; nra).
  destruct (qltb te (t + dt s)) eqn:E1; [qprop; lra|]. cbn [andb]. cbv zeta.
  destruct (qltb (te - t - dt s) (eps14 * t)) eqn:E2; [|reflexivity]. qprop. cbn [dt set_dt].
  assert (Hcase : (n + 1 = N \/ n + 2 <= N)%Z) by lia. destruct Hcase as [Hl|Hl].
  - rewrite <- Hc. apply Qred_complete. rewrite HN, Hn, <- Hl, inject_Z_plus. change (inject_Z 1) with 1. ring.
  - exfalso. assert (Hl2 : inject_Z (n + 2) <= inject_Z N) by (apply inject_Z_le; lia).
    rewrite inject_Z_plus in Hl2. change (inject_Z 2) with 2 in Hl2.
    assert (dt s <= te - t - dt s) by (rewrite HN, Hn; nra).
    assert (t <= te) by lra. assert (0 < eps14) by (unfold eps14; lra).
    assert (eps14 * t <= eps14 * te) by nra. lra.
Qed.
Lemma attempt_keeps ts te n s so : dt_variable s = false -> ready s ->
  dt (get_dt_clip (st so) ts te s) = dt s ->
  let '(s', so', ev, e) := att ts te n s so in
  e = None -> dt s' = dt s /\ agree s s' /\ st so' == ts + inject_Z (n + 1) * dt s.
Proof.
  intros V R D. unfold attempt. set (so1 := mkSol _ _ (st so)). pose proof (Hdt ts te s so1 V R) as H.
  destruct (stepf ts te s so1) as [a b] eqn:E1. cbn [fst] in H. change (st so1) with (st so) in H. rewrite D in H.
  destruct (frame _ _ _ _ _ _ E1) as (P1 & _). destruct P1 as (V1 & _ & _ & C1 & M1).
  unfold accept_reject_step. destruct (qltb (cfl_max a) (cfl a)) eqn:K; cbn [dt_variable set_accept_step set_st_cflmax].
  - rewrite V1, V. discriminate.
  - rewrite V1, V. cbn [dt set_accept_step set_st_cflmax set_numsteps st]. intros _. split; [exact H|]. split.
    + split; [|split; [exact R|intros _; reflexivity]]. repeat split; cbn; congruence.
    + rewrite Qred_correct, H. reflexivity.
Qed.
Lemma agree_trans a b c : agree a b -> agree b c -> agree a c.
Proof. intros ((A1 & A2 & A3 & A4) & A5 & A6) ((B1 & B2 & B3 & B4) & B5 & B6). repeat split; try assumption; congruence. Qed.
Lemma agree_refl s : dt_variable s = false -> ready s -> agree s s.
Proof. intros V R. repeat split; assumption. Qed.
Lemma loop_keeps ts te N : forall k n s so num tr,
  dt_variable s = false -> ready s -> canonical (dt s) -> 0 < dt s -> te == ts + inject_Z N * dt s ->
  st so == ts + inject_Z n * dt s -> (0 <= n)%Z -> (n + Z.of_nat k = N)%Z -> (0 < k)%nat -> eps14 * te <= dt s ->
  let '(s', so', _, _, e) := evolve_loop stepf accept_reject_step before k n ts (Some te) s so num tr in
  e = None -> agree s s' /\ st so' == te.
Proof.
  induction k as [|k IH]; intros n s so num tr V R Hc Hd HN Hn H0 Hk Hpos He; [lia|]. cbn [evolve_loop].
  pose proof (attempt_keeps ts (Some te) n s so V R (clip_fixed s (st so) ts te n N Hc Hd HN Hn ltac:(lia) He)) as K.
  destruct (att ts (Some te) n s so) as [[[s' so'] ev] e]. destruct e as [e|]; [discriminate|]. destruct (K eq_refl) as (K1 & K2 & K3).
  cbn [finished]. pose proof K2 as ((A1 & A2 & A3 & A4) & A5 & A6). destruct k as [|k].
  - assert (N = n + 1)%Z by lia. subst N.
    assert (X : st so' == te) by (rewrite K3, HN; reflexivity).
    destruct (qleb te (st so')) eqn:Q; [intros _; split; assumption|]. qprop. lra.
  - destruct (qleb te (st so')) eqn:Q.
    + exfalso. qprop. rewrite K3, HN in Q. assert (Y : inject_Z (n + 2) <= inject_Z N) by (apply inject_Z_le; lia).
      rewrite inject_Z_plus in *. change (inject_Z 2) with 2 in Y. change (inject_Z 1) with 1 in Q. nra.
    + specialize (IH (n + 1)%Z s' so' (if ev_accepted ev then (num + 1)%Z else num) (ev :: tr)).
      rewrite A3 in IH. specialize (IH A2 A6 Hc Hd HN K3 ltac:(lia) ltac:(lia) ltac:(lia) He).
      destruct (evolve_loop _ _ _ (S k) _ _ _ s' _ _ _) as [[[[b bo] num'] tr'] e']. intros X. destruct (IH X) as (I1 & I2).
      split; [exact (agree_trans _ _ _ K2 I1)|exact I2].
Qed.
Lemma evolve_keeps te N s so : dt_variable s = false -> ready s -> canonical (dt s) -> tol10 < dt s ->
  te == st so + inject_Z N * dt s -> (1 <= N)%Z -> eps14 * te <= dt s -> r_err (evolve s so (Some te)) = None ->
  agree s (r_solver (evolve s so (Some te))) /\ st (r_sol (evolve s so (Some te))) == te.
Proof.
  intros V R Hc Hd HN HN1 He. unfold evolve_to_time. rewrite (proj1 (fixed_setup s (st so) te N V Hd HN HN1)).
  assert (T : 0 < tol10) by (unfold tol10; lra). cbn [max_steps set_max_steps].
  pose proof (loop_keeps (st so) te N (Z.to_nat N) 0 (set_max_steps N s) so 0 [] V R Hc ltac:(cbn; lra) HN ltac:(change (inject_Z 0) with 0; lra)
    ltac:(lia) ltac:(lia) ltac:(lia) He) as K.
  destruct (evolve_loop _ _ _ _ _ _ _ _ _ _ _) as [[[[b bo] num'] tr'] e']. destruct e' as [e'|]; cbn [r_err r_solver r_sol]; [discriminate|].
  intros _. exact (K eq_refl).
Qed.
Lemma evolve_keeps_one s so : dt_variable s = false -> ready s -> r_err (evolve s so None) = None -> agree s (r_solver (evolve s so None)).
Proof.
  intros V R. unfold evolve_to_time, evolve_setup. rewrite V. cbn [dt_variable set_max_steps]. rewrite V. cbn [andb max_steps set_max_steps].
  change (Z.to_nat 1) with 1%nat. cbn [evolve_loop].
  pose proof (attempt_keeps (st so) None 0 (set_max_steps 1 s) so V R eq_refl) as K.
  destruct (att (st so) None 0 (set_max_steps 1 s) so) as [[[s' so'] ev] e]. destruct e as [e|]; cbn [r_err r_solver finished]; [discriminate|].
  intros _. exact (proj1 (proj2 (K eq_refl))).
Qed.
End Fixed.
