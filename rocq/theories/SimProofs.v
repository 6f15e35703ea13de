(** Runs in step with each other: the time loop and the controller. *)
From Verif Require Import Base LimiterModel BCModel Classic1DModel TimeModel ControllerModel SimSpec SymSpec SymProofs.

Section Sim.
Context {DQ DQ2 DX DX2 E E2 P P2 F F2 : Type}.
Variables (RQ : DQ -> DQ2 -> Prop) (RX : DX -> DX2 -> Prop) (RE : E -> E2 -> Prop) (RP : P -> P2 -> Prop) (RF : F -> F2 -> Prop).
Variable T : Q.
Hypothesis HT : 0 < T.
Notation Rso := (rel_sol RQ RX T).
Notation Rsv := (rel_solver RE T).

Lemma pymin_scale a b : pymin (T * a) (T * b) == T * pymin a b.
Proof. unfold pymin. rewrite qltb_scale by exact HT. destruct (qltb b a); reflexivity. Qed.
Lemma pymax_scale a b : pymax (T * a) (T * b) == T * pymax a b.
Proof. unfold pymax. rewrite qltb_scale by exact HT. destruct (qltb a b); reflexivity. Qed.
Lemma qltb_times a a2 b b2 : a2 == T * a -> b2 == T * b -> qltb a2 b2 = qltb a b.
Proof. intros H1 H2. rewrite (qltb_m _ _ _ _ H1 H2). apply qltb_scale, HT. Qed.
Lemma qleb_times a a2 b b2 : a2 == T * a -> b2 == T * b -> qleb a2 b2 = qleb a b.
Proof. intros H1 H2. rewrite (qleb_m _ _ _ _ H1 H2). apply qleb_scale, HT. Qed.
Lemma omin_times x x2 o o2 : x2 == T * x -> times T o o2 -> times T (omin x o) (omin x2 o2).
Proof. intros H1 H2. destruct o, o2; cbn in *; try contradiction; [rewrite H1, H2; apply pymin_scale|exact H1]. Qed.
Lemma omax_times x x2 o o2 : x2 == T * x -> times T o o2 -> times T (omax x o) (omax x2 o2).
Proof. intros H1 H2. destruct o, o2; cbn in *; try contradiction; [rewrite H1, H2; apply pymax_scale|exact H1]. Qed.
Lemma omax_one x x2 o o2 : x2 == x -> times 1 o o2 -> times 1 (omax x o) (omax x2 o2).
Proof. intros H1 H2. destruct o, o2; cbn in *; try contradiction; [rewrite H1, H2, !Qmult_1_l; reflexivity|rewrite H1; ring]. Qed.

(** ** The solver's attributes *)
Lemma sim_set_dt d d2 s s2 : Rsv s s2 -> d2 == T * d -> Rsv (set_dt d s) (set_dt d2 s2).
Proof. intros [] H. constructor; assumption. Qed.
Lemma sim_set_dt_old d d2 s s2 : Rsv s s2 -> times T d d2 -> Rsv (set_dt_old d s) (set_dt_old d2 s2).
Proof. intros [] H. constructor; assumption. Qed.
Lemma sim_set_cfl c c2 s s2 : Rsv s s2 -> c2 == c -> Rsv (set_cfl c s) (set_cfl c2 s2).
Proof. intros [] H. constructor; assumption. Qed.
Lemma sim_set_max_steps m s s2 : Rsv s s2 -> Rsv (set_max_steps m s) (set_max_steps m s2).
Proof. intros []. constructor; try assumption. reflexivity. Qed.
Lemma sim_set_st_cflmax c c2 s s2 : Rsv s s2 -> times 1 c c2 -> Rsv (set_st_cflmax c s) (set_st_cflmax c2 s2).
Proof. intros [] H. constructor; assumption. Qed.
Lemma sim_set_st_dt a a2 b b2 s s2 : Rsv s s2 -> times T a a2 -> times T b b2 -> Rsv (set_st_dt a b s) (set_st_dt a2 b2 s2).
Proof. intros [] H1 H2. constructor; assumption. Qed.
Lemma sim_set_numsteps n s s2 : Rsv s s2 -> Rsv (set_numsteps n s) (set_numsteps n s2).
Proof. intros []. constructor; try assumption. reflexivity. Qed.
Lemma sim_set_accept b s s2 : Rsv s s2 -> Rsv (set_accept_step b s) (set_accept_step b s2).
Proof. intros []. constructor; try assumption. reflexivity. Qed.
Lemma sim_set_ext e e2 s s2 : Rsv s s2 -> RE e e2 -> Rsv (set_ext e s) (set_ext e2 s2).
Proof. intros [] H. constructor; assumption. Qed.

Lemma sim_accept s s2 : Rsv s s2 -> accept_reject_step s2 = accept_reject_step s.
Proof. intros H. unfold accept_reject_step. rewrite (qltb_m _ _ _ _ (rs_cfl_max _ _ _ _ H) (rs_cfl _ _ _ _ H)). reflexivity. Qed.
Lemma sim_get_dt_new s s2 : Rsv s s2 -> Rsv (get_dt_new s) (get_dt_new s2).
Proof.
  intro H. apply sim_set_dt; [exact H|]. destruct H.
  rewrite !Qred_correct, rs_dt_max, rs_dt, rs_desired, rs_cfl.
  setoid_replace (T * dt s * cfl_desired s / cfl s) with (T * (dt s * cfl_desired s / cfl s)) by (unfold Qdiv; ring). apply pymin_scale.
Qed.
Lemma sim_choose new new2 s s2 : (forall s s2, Rsv s s2 -> Rsv (new s) (new2 s2)) -> Rsv s s2 -> Rsv (get_dt_choose new s) (get_dt_choose new2 s2).
Proof.
  intros HN H. unfold get_dt_choose. pose proof (rs_dt_old _ _ _ _ H) as O. rewrite (rs_variable _ _ _ _ H).
  rewrite (qltb_m 0 0 (cfl s2) (cfl s) ltac:(reflexivity) (rs_cfl _ _ _ _ H)).
  destruct (dt_old s) as [o|], (dt_old s2) as [o2|]; try contradiction O; destruct (dt_variable s); cbn [andb].
  2, 3, 4: apply sim_set_dt_old; [exact H|exact (rs_dt _ _ _ _ H)].
  destruct (qltb 0 (cfl s)); [|apply sim_set_dt; [exact H|exact (rs_dt_max _ _ _ _ H)]].
  pose proof (HN _ _ H) as H1. apply sim_set_st_dt; [exact H1| |].
  - apply omin_times; [exact (rs_dt _ _ _ _ H1)|exact (rs_dtmin _ _ _ _ H1)].
  - apply omax_times; [exact (rs_dt _ _ _ _ H1)|exact (rs_dtmax _ _ _ _ H1)].
Qed.
Lemma sim_clip t t2 ts ts2 te te2 s s2 : Rsv s s2 -> t2 == T * t -> ts2 == T * ts -> times T te te2 -> Rsv (get_dt_clip t ts te s) (get_dt_clip t2 ts2 te2 s2).
Proof.
  intros H Ht Hts Hte. unfold get_dt_clip. destruct te as [te|], te2 as [te2|]; try contradiction Hte; [|exact H]. cbn in Hte.
  rewrite (qltb_times te te2 (t + dt s) (t2 + dt s2) Hte) by (rewrite Ht, (rs_dt _ _ _ _ H); ring).
  rewrite (qltb_times ts ts2 te te2 Hts Hte).
  set (b := (_ && _)%bool). set (s1 := if b then set_dt (Qred (te - t)) s else s). set (s12 := if b then set_dt (Qred (te2 - t2)) s2 else s2).
  assert (H1 : Rsv s1 s12).
  { unfold s1, s12. destruct b; [|exact H]. apply sim_set_dt; [exact H|]. rewrite !Qred_correct, Hte, Ht. ring. }
  rewrite (qltb_times (te - t - dt s1) (te2 - t2 - dt s12) (eps14 * t) (eps14 * t2))
    by (rewrite ?Hte, Ht, ?(rs_dt _ _ _ _ H1); ring).
  destruct (qltb (te - t - dt s1) (eps14 * t)); [|exact H1]. apply sim_set_dt; [exact H1|]. rewrite !Qred_correct, Hte, Ht. ring.
Qed.
Lemma sim_get_dt new new2 t t2 ts ts2 te te2 s s2 : (forall s s2, Rsv s s2 -> Rsv (new s) (new2 s2)) ->
  Rsv s s2 -> t2 == T * t -> ts2 == T * ts -> times T te te2 -> Rsv (get_dt new t ts te s) (get_dt new2 t2 ts2 te2 s2).
Proof. intros HN H Ht Hts Hte. apply sim_clip; try assumption. apply sim_choose; assumption. Qed.

(** ** The time loop *)
Section Loop.
Variables (stepf : Q -> option Q -> solver E -> sol DQ DX -> solver E * sol DQ DX)
          (stepf2 : Q -> option Q -> solver E2 -> sol DQ2 DX2 -> solver E2 * sol DQ2 DX2)
          (acceptf : solver E -> bool) (acceptf2 : solver E2 -> bool)
          (before : sol DQ DX -> DQ * DX) (before2 : sol DQ2 DX2 -> DQ2 * DX2).
Hypothesis Hstep : forall ts ts2 te te2 s s2 so so2, ts2 == T * ts -> times T te te2 -> Rsv s s2 -> Rso so so2 ->
  Rsv (fst (stepf ts te s so)) (fst (stepf2 ts2 te2 s2 so2)) /\ Rso (snd (stepf ts te s so)) (snd (stepf2 ts2 te2 s2 so2)).
Hypothesis Haccept : forall s s2, Rsv s s2 -> acceptf2 s2 = acceptf s.
Hypothesis Hbefore : rel_before RQ RX T before before2.
Notation Rev := (rel_event RQ RX T).

Lemma sim_attempt ts ts2 te te2 n s s2 so so2 : ts2 == T * ts -> times T te te2 -> Rsv s s2 -> Rso so so2 ->
  let '(s', so', ev, e) := attempt stepf acceptf before ts te n s so in
  let '(s2', so2', ev2, e2) := attempt stepf2 acceptf2 before2 ts2 te2 n s2 so2 in
  Rsv s' s2' /\ Rso so' so2' /\ Rev ev ev2 /\ e2 = e /\ dt_variable s' = dt_variable (fst (stepf ts te s (mkSol (fst (before so)) (snd (before so)) (st so)))).
Proof.
  intros Hts Hte Hs Hso. unfold attempt.
  assert (Hb : Rso (mkSol (fst (before so)) (snd (before so)) (st so)) (mkSol (fst (before2 so2)) (snd (before2 so2)) (st so2))).
  { destruct (Hbefore _ _ Hso) as [A B]. destruct Hso as (_ & _ & C). split; [exact A|]. split; [exact B|exact C]. }
  destruct (Hstep ts ts2 te te2 _ _ _ _ Hts Hte Hs Hb) as [K1 K2].
  destruct (stepf ts te s _) as [s1 so1]. destruct (stepf2 ts2 te2 s2 _) as [s12 so12]. cbn [fst snd] in K1, K2.
  rewrite (Haccept _ _ K1). pose proof (rs_cfl _ _ _ _ K1) as Hc.
  destruct (acceptf s1) eqn:EA.
  - cbn [set_accept_step set_st_cflmax set_numsteps dt_variable dt].
    rewrite (rs_variable _ _ _ _ K1).
    assert (HS' : Rsv (set_numsteps (st_numsteps s1 + 1) (set_st_cflmax (omax (cfl s1) (st_cflmax s1)) (set_accept_step true s1)))
                      (set_numsteps (st_numsteps s1 + 1) (set_st_cflmax (omax (cfl s12) (st_cflmax s12)) (set_accept_step true s12)))).
    { apply sim_set_numsteps, sim_set_st_cflmax; [apply sim_set_accept; exact K1|]. apply omax_one; [exact Hc|exact (rs_cflmax _ _ _ _ K1)]. }
    split; [rewrite <- (rs_numsteps _ _ _ _ K1) in HS' at 2; exact HS'|].
    assert (HO : Rso (mkSol (sq so1) (sx so1) (Qred (if dt_variable s1 then st so1 + dt s1 else ts + inject_Z (n + 1) * dt s1)))
                     (mkSol (sq so12) (sx so12) (Qred (if dt_variable s1 then st so12 + dt s12 else ts2 + inject_Z (n + 1) * dt s12)))).
    { destruct K2 as (A & B & C). split; [exact A|]. split; [exact B|]. cbn [st]. rewrite !Qred_correct.
      pose proof (rs_dt _ _ _ _ K1) as Hd. destruct (dt_variable s1); [rewrite C, Hd; ring|rewrite Hts, Hd; ring]. }
    split; [exact HO|]. split; [|split; reflexivity].
    split; [reflexivity|]. split; [exact (rs_dt _ _ _ _ K1)|]. split; [exact Hc|]. split; [exact Hso|exact HO].
  - cbn [set_accept_step dt_variable]. rewrite (rs_variable _ _ _ _ K1). destruct (dt_variable s1) eqn:EV.
    + split; [apply sim_set_accept; exact K1|].
      assert (HO : Rso (mkSol (sq so) (sx so1) (st so)) (mkSol (sq so2) (sx so12) (st so2))).
      { destruct K2 as (_ & B & _). destruct Hso as (A & _ & C). split; [exact A|]. split; [exact B|exact C]. }
      split; [exact HO|]. split; [|split; reflexivity].
      split; [reflexivity|]. split; [exact (rs_dt _ _ _ _ K1)|]. split; [exact Hc|]. split; [exact Hso|exact HO].
    + split; [apply sim_set_st_cflmax; [apply sim_set_accept; exact K1|apply omax_one; [exact Hc|exact (rs_cflmax _ _ _ _ K1)]]|].
      split; [exact K2|]. split; [|split; reflexivity].
      split; [reflexivity|]. split; [exact (rs_dt _ _ _ _ K1)|]. split; [exact Hc|]. split; [exact Hso|exact K2].
Qed.
Lemma sim_finished te te2 so so2 : times T te te2 -> Rso so so2 -> finished te2 so2 = finished te so.
Proof.
  intros Hte (_ & _ & C). unfold finished. destruct te, te2; try contradiction Hte; [|reflexivity]. apply qleb_times; assumption.
Qed.
Lemma sim_loop k : forall n ts ts2 te te2 s s2 so so2 num tr tr2, ts2 == T * ts -> times T te te2 -> Rsv s s2 -> Rso so so2 -> Forall2 Rev tr tr2 ->
  let '(s', so', num', tr', e) := evolve_loop stepf acceptf before k n ts te s so num tr in
  let '(s2', so2', num2', tr2', e2) := evolve_loop stepf2 acceptf2 before2 k n ts2 te2 s2 so2 num tr2 in
  Rsv s' s2' /\ Rso so' so2' /\ num2' = num' /\ Forall2 Rev tr' tr2' /\ e2 = e.
Proof.
  induction k as [|k IH]; intros n ts ts2 te te2 s s2 so so2 num tr tr2 Hts Hte Hs Hso Htr; cbn [evolve_loop]; [auto|].
  pose proof (sim_attempt ts ts2 te te2 n s s2 so so2 Hts Hte Hs Hso) as K.
  destruct (attempt stepf acceptf before ts te n s so) as [[[s' so'] ev] e].
  destruct (attempt stepf2 acceptf2 before2 ts2 te2 n s2 so2) as [[[s2' so2'] ev2] e2]. destruct K as (K1 & K2 & K3 & -> & _).
  pose proof K3 as (K4 & _). rewrite K4. destruct e as [e|].
  - split; [exact K1|]. split; [exact K2|]. split; [reflexivity|]. split; [constructor; assumption|reflexivity].
  - rewrite (sim_finished te te2 so' so2' Hte K2). destruct (finished te so').
    + split; [exact K1|]. split; [exact K2|]. split; [reflexivity|]. split; [constructor; assumption|reflexivity].
    + apply IH; try assumption. constructor; assumption.
Qed.

Lemma qtrunc_m a b : a == b -> qtrunc a = qtrunc b.
Proof.
  intro H. unfold qtrunc. unfold Qeq in H. destruct a as [na da], b as [nb db]; cbn [Qnum Qden] in *.
  rewrite <- (Z.quot_mul_cancel_r na (Zpos da) (Zpos db)) by discriminate.
  rewrite <- (Z.quot_mul_cancel_r nb (Zpos db) (Zpos da)) by discriminate. rewrite H. f_equal. lia.
Qed.
Lemma sim_setup ts ts2 te te2 s s2 : dt_variable s = true \/ T == 1 -> ts2 == T * ts -> times T te te2 -> Rsv s s2 ->
  Rsv (fst (evolve_setup ts te s)) (fst (evolve_setup ts2 te2 s2)) /\ snd (evolve_setup ts2 te2 s2) = snd (evolve_setup ts te s).
Proof.
  intros HV Hts Hte H. unfold evolve_setup. rewrite (rs_variable _ _ _ _ H).
  assert (TAIL : forall s s2, Rsv s s2 ->
    let r := if (dt_variable s && qltb (cfl_max s) (cfl_desired s))%bool then (s, Some ECflDesired)
             else match te with Some te0 => if qleb te0 ts then (set_max_steps 0 s, None) else (s, None) | None => (s, None) end in
    let r2 := if (dt_variable s2 && qltb (cfl_max s2) (cfl_desired s2))%bool then (s2, Some ECflDesired)
             else match te2 with Some te0 => if qleb te0 ts2 then (set_max_steps 0 s2, None) else (s2, None) | None => (s2, None) end in
    Rsv (fst r) (fst r2) /\ snd r2 = snd r).
  { clear s s2 H HV. intros s s2 H. cbv zeta. rewrite (rs_variable _ _ _ _ H), (qltb_m _ _ _ _ (rs_cfl_max _ _ _ _ H) (rs_desired _ _ _ _ H)).
    destruct (_ && _)%bool; [split; [exact H|reflexivity]|].
    destruct te as [te|], te2 as [te2|]; try contradiction Hte; [|split; [exact H|reflexivity]].
    rewrite (qleb_times te te2 ts ts2 Hte Hts). destruct (qleb te ts); (split; [|reflexivity]); [apply sim_set_max_steps|]; exact H. }
  destruct (dt_variable s) eqn:EV; [exact (TAIL s s2 H)|]. destruct HV as [HV|HV]; [discriminate|].
  destruct te as [te|], te2 as [te2|]; try contradiction Hte.
  - cbn [times] in Hte. rewrite HV, Qmult_1_l in Hte, Hts. pose proof (rs_dt _ _ _ _ H) as Hd. rewrite HV, Qmult_1_l in Hd.
    rewrite (qeqb_m _ _ 0 0 Hd ltac:(reflexivity)). destruct (qeqb (dt s) 0); [split; [exact H|reflexivity]|].
    rewrite (qtrunc_m ((te2 - ts2 + tol10) / dt s2) ((te - ts + tol10) / dt s)) by (rewrite Hte, Hts, Hd; reflexivity).
    set (m := qtrunc _).
    rewrite (qltb_m (tol5 * (te2 - ts2)) (tol5 * (te - ts)) (Qabs (inject_Z m * dt s2 - (te2 - ts2))) (Qabs (inject_Z m * dt s - (te - ts))))
      by (rewrite Hte, Hts, ?Hd; reflexivity).
    destruct (qltb _ _); [split; [apply sim_set_max_steps; exact H|reflexivity]|].
    exact (TAIL _ _ (sim_set_max_steps m _ _ H)).
  - exact (TAIL _ _ (sim_set_max_steps 1 _ _ H)).
Qed.
Theorem sim_evolve s s2 so so2 te te2 : dt_variable s = true \/ T == 1 -> Rsv s s2 -> Rso so so2 -> times T te te2 ->
  rel_result RQ RX RE T (evolve_to_time stepf acceptf before s so te) (evolve_to_time stepf2 acceptf2 before2 s2 so2 te2).
Proof.
  intros HV Hs Hso Hte. unfold evolve_to_time. pose proof Hso as (_ & _ & Hts).
  destruct (sim_setup (st so) (st so2) te te2 s s2 HV Hts Hte Hs) as [K1 K2].
  destruct (evolve_setup (st so) te s) as [s1 e1]. destruct (evolve_setup (st so2) te2 s2) as [s12 e12]. cbn [fst snd] in K1, K2. subst e12.
  destruct e1 as [e1|]; [constructor; [exact K1|exact Hso|constructor|reflexivity]|].
  pose proof (sim_loop (Z.to_nat (max_steps s1)) 0 (st so) (st so2) te te2 s1 s12 so so2 0 [] [] Hts Hte K1 Hso (Forall2_nil _)) as KL.
  rewrite (rs_max_steps _ _ _ _ K1).
  destruct (evolve_loop stepf _ _ _ _ _ _ _ _ _ _) as [[[[s3 so3] num] tr] e3].
  destruct (evolve_loop stepf2 _ _ _ _ _ _ _ _ _ _) as [[[[s32 so32] num2] tr2] e32]. destruct KL as (L1 & L2 & -> & L4 & ->).
  assert (LR : Forall2 Rev (rev tr) (rev tr2)).
  { clear - L4. induction L4; cbn [rev]; [constructor|]. apply Forall2_app; [assumption|constructor; [assumption|constructor]]. }
  destruct e3 as [e3|]; constructor; cbn [r_solver r_sol r_trace r_err]; try assumption; try reflexivity.
  destruct te as [te|], te2 as [te2|]; try contradiction Hte; [|reflexivity].
  rewrite (rs_variable _ _ _ _ L1), (rs_max_steps _ _ _ _ L1). destruct L2 as (_ & _ & L2). rewrite (qltb_times (st so3) (st so32) te te2 L2 Hte). reflexivity.
Qed.
End Loop.

(** ** The classic solver *)
Lemma sim_classic_step src src2 hyper hyper2 split2 ts ts2 te te2 s s2 so so2 :
  rel_source RQ RX T src src2 -> rel_hyper RQ RX T hyper hyper2 ->
  ts2 == T * ts -> times T te te2 -> Rsv s s2 -> Rso so so2 ->
  Rsv (fst (classic_step src hyper split2 ts te s so)) (fst (classic_step src2 hyper2 split2 ts2 te2 s2 so2)) /\
  Rso (snd (classic_step src hyper split2 ts te s so)) (snd (classic_step src2 hyper2 split2 ts2 te2 s2 so2)).
Proof.
  intros HS HH Hts Hte Hs Hso. unfold classic_step.
  assert (K : Rsv (set_cfl 0 (get_dt get_dt_new (st so) ts te s)) (set_cfl 0 (get_dt get_dt_new (st so2) ts2 te2 s2))).
  { apply sim_set_cfl; [|reflexivity]. apply sim_get_dt; try assumption; [exact sim_get_dt_new|exact (proj2 (proj2 Hso))]. }
  set (s1 := set_cfl 0 _) in *. set (s12 := set_cfl 0 (get_dt get_dt_new (st so2) ts2 te2 s2)) in *.
  assert (WD : forall so so2 d d2, Rso so so2 -> rel_data RQ RX d d2 -> Rso (with_data so d) (with_data so2 d2)).
  { intros o o2 d d2 (_ & _ & C) [A B]. split; [exact A|]. split; [exact B|exact C]. }
  assert (HALF : forall a a2, a2 == T * a -> Qred (a2 / 2) == T * Qred (a / 2)).
  { intros a a2 Ha. rewrite !Qred_correct, Ha. unfold Qdiv. ring. }
  assert (K1 : Rso (match src with Some f => if Z.eqb split2 2 then with_data so (f (Qred (dt s1 / 2)) so) else so | None => so end)
                   (match src2 with Some f => if Z.eqb split2 2 then with_data so2 (f (Qred (dt s12 / 2)) so2) else so2 | None => so2 end)).
  { destruct src as [f|], src2 as [f2|]; try contradiction HS; [|exact Hso]. destruct (Z.eqb split2 2); [|exact Hso].
    apply WD; [exact Hso|]. apply HS; [apply HALF; exact (rs_dt _ _ _ _ K)|exact Hso]. }
  set (so1 := match src with Some _ => _ | None => _ end) in *. set (so12 := match src2 with Some _ => _ | None => _ end) in *.
  destruct (HH (dt s1) (dt s12) so1 so12 (rs_dt _ _ _ _ K) K1) as [[KQ KX] KC].
  destruct (hyper (dt s1) so1) as [[q2 x2] c]. destruct (hyper2 (dt s12) so12) as [[q22 x22] c2]. cbn [fst snd] in KQ, KX, KC.
  assert (K2 : Rso (mkSol q2 x2 (st so1)) (mkSol q22 x22 (st so12))) by (split; [exact KQ|split; [exact KX|exact (proj2 (proj2 K1))]]).
  assert (K3 : Rsv (set_cfl (pymax (cfl s1) c) s1) (set_cfl (pymax (cfl s12) c2) s12)).
  { apply sim_set_cfl; [exact K|]. rewrite KC, (rs_cfl _ _ _ _ K). reflexivity. }
  set (s3 := set_cfl (pymax (cfl s1) c) s1) in *. set (s32 := set_cfl (pymax (cfl s12) c2) s12) in *.
  rewrite (qleb_m _ _ _ _ (rs_cfl_max _ _ _ _ K3) (rs_cfl _ _ _ _ K3)). destruct (qleb (cfl_max s3) (cfl s3)); [split; assumption|].
  destruct src as [f|], src2 as [f2|]; try contradiction HS; [|split; assumption].
  destruct (Z.eqb split2 2); [split; [exact K3|]|destruct (Z.eqb split2 1); [split; [exact K3|]|split; assumption]]; cbn [snd].
  - apply WD; [exact K2|]. apply HS; [apply HALF; exact (rs_dt _ _ _ _ K3)|exact K2].
  - apply WD; [exact K2|]. apply HS; [exact (rs_dt _ _ _ _ K3)|exact K2].
Qed.
Theorem sim_classic src src2 hyper hyper2 split2 before before2 s s2 so so2 te te2 :
  rel_source RQ RX T src src2 -> rel_hyper RQ RX T hyper hyper2 -> rel_before RQ RX T before before2 ->
  dt_variable s = true \/ T == 1 -> Rsv s s2 -> Rso so so2 -> times T te te2 ->
  rel_result RQ RX RE T (classic_evolve src hyper split2 before s so te) (classic_evolve src2 hyper2 split2 before2 s2 so2 te2).
Proof.
  intros HS HH HB. apply sim_evolve; [|exact sim_accept|exact HB].
  intros. apply sim_classic_step; assumption.
Qed.

(** ** The controller *)
Section Controller.
Notation Rw := (rel_world RQ RX RE RP RF T).
Notation Ro := (rel_output RQ RX RP RF T).
Variables (evolve : solver E -> sol DQ DX -> option Q -> result DQ DX E) (evolve2 : solver E2 -> sol DQ2 DX2 -> option Q -> result DQ2 DX2 E2)
  (setup : solver E -> solver E) (setup2 : solver E2 -> solver E2)
  (valid : solver E -> sol DQ DX -> bool) (valid2 : solver E2 -> sol DQ2 DX2 -> bool).
(** A condition on solvers that is kept *)
Variable OK : solver E -> Prop.
Hypothesis Hkeep : forall s so te, OK s -> OK (r_solver (evolve s so te)).
Hypothesis Hevolve : forall s s2 so so2 te te2, OK s -> Rsv s s2 -> Rso so so2 -> times T te te2 ->
  rel_result RQ RX RE T (evolve s so te) (evolve2 s2 so2 te2).
Hypothesis Hsetup : forall s s2, OK s -> Rsv s s2 -> Rsv (setup s) (setup2 s2).
Hypothesis Hsetup_ok : forall s, OK s -> OK (setup s).
Hypothesis Hvalid : forall s s2 so so2, Rsv s s2 -> Rso so so2 -> valid2 s2 so2 = valid s so.
Variables (c : controller DQ DX P F) (c2 : controller DQ2 DX2 P2 F2).
Hypothesis Hc : rel_controller RQ RX RP RF T c c2.

Lemma sim_put o o2 w w2 : Rw w w2 -> Forall2 Ro o o2 -> Rw (put o w) (put o2 w2).
Proof. intros [] H. constructor; try assumption. apply Forall2_app; assumption. Qed.
Lemma sim_made_dir w w2 : Rw w w2 -> Rw (made_dir w) (made_dir w2).
Proof. intros []. constructor; try assumption. reflexivity. Qed.
Lemma sim_keep w w2 : Rw w w2 -> Rw (keep c w) (keep c2 w2).
Proof.
  intros []. constructor; try assumption. cbn [keep w_frames]. rewrite (rc_keep _ _ _ _ _ _ _ Hc). destruct (c_keep c); [|assumption].
  apply Forall2_app; [assumption|constructor; [assumption|constructor]].
Qed.
Lemma sim_write_frame k a w w2 : Rw w w2 -> Rw (write_frame c k a w) (write_frame c2 k a w2).
Proof.
  intro H. unfold write_frame. rewrite (rc_output _ _ _ _ _ _ _ Hc). destruct (c_output c); [|exact H].
  pose proof (rw_sol _ _ _ _ _ _ _ _ H) as HS. apply sim_made_dir, sim_put.
  - pose proof (rc_p _ _ _ _ _ _ _ Hc) as K. destruct (c_p c) as [f|], (c_p c2) as [f2|]; try contradiction K; [|exact H].
    apply sim_put; [exact H|]. constructor; [|constructor]. cbn. split; [reflexivity|]. split; [exact HS|]. apply K. exact HS.
  - constructor; [|constructor]. cbn. auto.
Qed.
Lemma sim_write_F b w w2 : Rw w w2 -> Rw (write_F c b w) (write_F c2 b w2).
Proof.
  intro H. unfold write_F. pose proof (rw_sol _ _ _ _ _ _ _ _ H) as HS. pose proof (rc_F _ _ _ _ _ _ _ Hc) as K.
  destruct (c_F c) as [f|], (c_F c2) as [f2|]; try contradiction K; [|exact H].
  apply sim_put; [exact H|]. constructor; [|constructor]. cbn. split; [reflexivity|]. split; [exact (proj2 (proj2 HS))|]. apply K. exact HS.
Qed.
Definition okw (w : world DQ DX E P F) := OK (w_solver w).
Lemma sim_evolve_world te te2 w w2 : okw w -> Rw w w2 -> times T te te2 ->
  okw (fst (evolve_world evolve te w)) /\
  Rw (fst (evolve_world evolve te w)) (fst (evolve_world evolve2 te2 w2)) /\ snd (evolve_world evolve2 te2 w2) = snd (evolve_world evolve te w).
Proof.
  intros HO [] Hte. unfold evolve_world. cbn [fst snd].
  destruct (Hevolve _ _ _ _ te te2 HO rw_solver rw_sol Hte) as [A B C D].
  split; [exact (Hkeep _ _ te HO)|]. split; [constructor; assumption|exact D].
Qed.
Lemma okw_keep w : okw w -> okw (keep c w).
Proof. exact (fun H => H). Qed.
Lemma okw_write_F b w : okw w -> okw (write_F c b w).
Proof. unfold write_F. destruct (c_F c); exact (fun H => H). Qed.
Lemma okw_write_frame k a w : okw w -> okw (write_frame c k a w).
Proof. unfold write_frame. destruct (c_output c), (c_p c); exact (fun H => H). Qed.
Lemma sim_single k : forall w w2 b, okw w -> Rw w w2 ->
  let '(w', b', e) := single_steps evolve k w b in let '(w2', b2', e2) := single_steps evolve2 k w2 b in okw w' /\ Rw w' w2' /\ b2' = b' /\ e2 = e.
Proof.
  induction k as [|k IH]; intros w w2 b HO H; cbn [single_steps]; [auto|].
  destruct (sim_evolve_world None None w w2 HO H I) as (A & B & C).
  destruct (evolve_world evolve None w) as [w' e]. destruct (evolve_world evolve2 None w2) as [w2' e2]. cbn [fst snd] in A, B, C. subst e2.
  destruct e; [auto|]. apply IH; assumption.
Qed.
Lemma sim_one t t2 k w w2 b : okw w -> Rw w w2 -> t2 == T * t \/ (3 <= c_style c)%Z ->
  let '(w', b', e) := one_output evolve c t k w b in let '(w2', b2', e2) := one_output evolve2 c2 t2 k w2 b in okw w' /\ Rw w' w2' /\ b2' = b' /\ e2 = e.
Proof.
  intros HO H Ht. unfold one_output. rewrite (rc_style _ _ _ _ _ _ _ Hc), (rc_nstepout _ _ _ _ _ _ _ Hc), (rc_aux_always _ _ _ _ _ _ _ Hc).
  assert (K : let '(w', b', e) := if (c_style c <? 3)%Z then let '(w', e) := evolve_world evolve (Some t) w in (w', true, e)
                 else single_steps evolve (Z.to_nat (c_nstepout c)) w b in
              let '(w2', b2', e2) := if (c_style c <? 3)%Z then let '(w', e) := evolve_world evolve2 (Some t2) w2 in (w', true, e)
                 else single_steps evolve2 (Z.to_nat (c_nstepout c)) w2 b in
              okw w' /\ Rw w' w2' /\ b2' = b' /\ e2 = e).
  { destruct (Z.ltb_spec (c_style c) 3).
    - destruct Ht as [Ht|Ht]; [|lia]. destruct (sim_evolve_world (Some t) (Some t2) w w2 HO H Ht) as (A & B & D).
      destruct (evolve_world evolve (Some t) w) as [w' e]. destruct (evolve_world evolve2 (Some t2) w2) as [w2' e2]. cbn [fst snd] in A, B, D. auto.
    - apply sim_single; assumption. }
  destruct (if (c_style c <? 3)%Z then _ else single_steps evolve _ w b) as [[w' b'] e].
  destruct (if (c_style c <? 3)%Z then _ else single_steps evolve2 _ w2 b) as [[w2' b2'] e2]. destruct K as (A & B & -> & ->).
  destruct e; [auto|]. split; [apply okw_write_F, okw_write_frame, okw_keep; exact A|]. split; [|auto].
  apply sim_write_F, sim_write_frame, sim_keep. exact B.
Qed.
Lemma sim_outputs ts : forall ts2 k w w2 b, okw w -> Rw w w2 -> Forall2 (fun a a2 => a2 == T * a \/ (3 <= c_style c)%Z) ts ts2 ->
  let '(w', b', e) := outputs evolve c ts k w b in let '(w2', b2', e2) := outputs evolve2 c2 ts2 k w2 b in okw w' /\ Rw w' w2' /\ b2' = b' /\ e2 = e.
Proof.
  induction ts as [|t ts IH]; intros ts2 k w w2 b HO H HTs; inversion HTs as [|t' t2' r r2 Ht Hr]; subst; cbn [outputs]; [auto|].
  pose proof (sim_one t t2' k w w2 b HO H Ht) as K.
  destruct (one_output evolve c t k w b) as [[w' b'] e]. destruct (one_output evolve2 c2 t2' k w2 b) as [[w2' b2'] e2].
  destruct K as (A & B & -> & ->). destruct e; [auto|]. apply IH; assumption.
Qed.
Lemma sim_linspace a a2 b b2 k : a2 == T * a -> b2 == T * b ->
  match linspace a b k, linspace a2 b2 k with Some l, Some l2 => Forall2 (fun x y => y == T * x) l l2 | None, None => True | _, _ => False end.
Proof.
  intros Ha Hb. unfold linspace. destruct (k <? 0)%Z; [exact I|]. generalize (map Z.of_nat (seq 0 (Z.to_nat k))) as l. intro l.
  induction l as [|i l IH]; cbn [map]; [constructor|]. constructor; [|exact IH].
  destruct (_ && _)%bool; [exact Hb|]. rewrite !Qred_correct, Ha, Hb. unfold Qdiv. ring.
Qed.
Theorem sim_run w w2 : okw w -> Rw w w2 ->
  Rw (fst (run evolve setup valid c w)) (fst (run evolve2 setup2 valid2 c2 w2)) /\
  snd (run evolve2 setup2 valid2 c2 w2) = snd (run evolve setup valid c w).
Proof.
  intros HO H. unfold run. rewrite (rw_set_up _ _ _ _ _ _ _ _ H), (rw_start _ _ _ _ _ _ _ _ H).
  set (w1 := if w_set_up w then w else _). set (w12 := if w_set_up w then w2 else _).
  assert (H1 : okw w1 /\ Rw w1 w12).
  { unfold w1, w12. destruct (w_set_up w); [auto|]. destruct H. split; [apply Hsetup_ok; exact HO|]. constructor; try assumption; try reflexivity.
    apply Hsetup; assumption. }
  destruct H1 as [O1 H1]. rewrite (Hvalid _ _ _ _ (rw_solver _ _ _ _ _ _ _ _ H1) (rw_sol _ _ _ _ _ _ _ _ H1)).
  destruct (valid _ _); cbn [negb]; [|split; [exact H1|reflexivity]].
  assert (HTm : match output_times c w1, output_times c2 w12 with
     | inl l, inl l2 => Forall2 (fun a a2 => a2 == T * a \/ (3 <= c_style c)%Z) l l2 | inr e, inr e2 => e2 = e | _, _ => False end).
  { unfold output_times. rewrite (rc_style _ _ _ _ _ _ _ Hc), (rc_num _ _ _ _ _ _ _ Hc), (rw_start _ _ _ _ _ _ _ _ H1).
    destruct (Z.eqb_spec (c_style c) 1) as [E1|_].
    - pose proof (sim_linspace (st (w_sol w1)) (st (w_sol w12)) (c_tfinal c) (c_tfinal c2) (c_num c + 1)
        (proj2 (proj2 (rw_sol _ _ _ _ _ _ _ _ H1))) (rc_tfinal _ _ _ _ _ _ _ Hc)) as K.
      destruct (linspace _ _ _) as [l|], (linspace (st (w_sol w12)) _ _) as [l2|]; try contradiction K; [|reflexivity].
      clear - K. induction K; constructor; auto.
    - destruct (Z.eqb (c_style c) 2).
      + pose proof (rc_times _ _ _ _ _ _ _ Hc) as K. clear - K. induction K; constructor; auto.
      + destruct (Z.eqb_spec (c_style c) 3) as [E3|_]; [|reflexivity].
        destruct (_ <? 0)%Z; [reflexivity|]. generalize (Z.to_nat (c_num c + 1 - w_start w1)) as k. intro k.
        induction k; cbn [repeat]; constructor; [right; lia|assumption]. }
  destruct (output_times c w1) as [l|e], (output_times c2 w12) as [l2|e2]; try contradiction HTm; [|subst e2; split; [exact H1|reflexivity]].
  destruct HTm as [|t t2 ts ts2 _ HTm]; [split; [exact H1|reflexivity]|].
  pose proof (sim_keep _ _ H1) as H2. set (w21 := keep c w1) in *. set (w22 := keep c2 w12) in *.
  rewrite (rc_output _ _ _ _ _ _ _ Hc), (rc_overwrite _ _ _ _ _ _ _ Hc), (rw_dir _ _ _ _ _ _ _ _ H2), (rc_aux_always _ _ _ _ _ _ _ Hc), (rc_aux_init _ _ _ _ _ _ _ Hc).
  destruct (_ && _ && _)%bool; [split; [exact H2|reflexivity]|].
  pose proof (sim_outputs ts ts2 (w_start w) (write_F c true (write_frame c (w_start w) (c_aux_always c || c_aux_init c) w21))
    (write_F c2 true (write_frame c2 (w_start w) (c_aux_always c || c_aux_init c) w22)) false
    (okw_write_F _ _ (okw_write_frame _ _ _ (okw_keep _ O1))) (sim_write_F _ _ _ (sim_write_frame _ _ _ _ H2)) HTm) as K.
  destruct (outputs evolve c ts _ _ _) as [[w4 b] e]. destruct (outputs evolve2 c2 ts2 _ _ _) as [[w42 b2] e2]. destruct K as (_ & B & -> & ->).
  destruct e; [split; [exact B|reflexivity]|].
  assert (LEN : length (w_frames w42) = length (w_frames w4)).
  { pose proof (rw_frames _ _ _ _ _ _ _ _ B) as K. clear - K. induction K; cbn [length]; congruence. }
  rewrite LEN. destruct b; (split; [|reflexivity]); destruct B; constructor; try assumption; reflexivity.
Qed.
End Controller.
End Sim.
