(** Proofs about parallel runs, part 4: a run is determined, up to the value of the Courant number, by what
    its step does to the cells. *)
From Verif Require Import Base TimeModel BCModel BCSpec LimiterModel LimiterSpec
  Classic1DModel Classic1DSpec Classic1DProofs3 GeometrySpec ParallelModel ParallelSpec ParallelProofs3.

Lemma qltb_eq (a a' b b' : Q) : a == a' -> b == b' -> qltb a b = qltb a' b'.
Proof. intros H1 H2. destruct (qltb a b) eqn:E1, (qltb a' b') eqn:E2; try reflexivity; qprop; lra. Qed.

Section Sim.
Variables DQ DX E : Type.
Variable RS : sol DQ DX -> sol DQ DX -> Prop.
Hypothesis RS_t : forall a b, RS a b -> st a = st b.
Hypothesis RS_set : forall a b t, RS a b -> RS (mkSol (sq a) (sx a) t) (mkSol (sq b) (sx b) t).
Hypothesis RS_back : forall a b a' b', RS a b -> RS a' b' -> RS (mkSol (sq a) (sx a') (st a)) (mkSol (sq b) (sx b') (st b)).

Definition near (a b : solver E) : Prop :=
  exists c m, b = set_cfl c (set_st_cflmax m a) /\ cfl a == c /\ oeq (st_cflmax a) m.
Lemma near_dt a b : near a b -> dt b = dt a /\ dt_variable b = dt_variable a /\ cfl_max b = cfl_max a /\ cfl_desired b = cfl_desired a /\ max_steps b = max_steps a.
Proof. intros (c & m & -> & _). destruct a. auto. Qed.
Lemma near_cfl a b : near a b -> cfl a == cfl b.
Proof. intros (c & m & -> & H & _). destruct a. exact H. Qed.

Lemma get_dt_near t ts te a b : near a b -> near (get_dt get_dt_new t ts te a) (get_dt get_dt_new t ts te b).
Proof.
  intros (c & m & -> & Hc & Hm). destruct a as [d do dm dv cd cm cf ms s1 s2 s3 s4 ac ex].
  unfold set_cfl, set_st_cflmax.
  cbn [cfl st_cflmax dt dt_old dt_max dt_variable cfl_desired cfl_max max_steps st_dtmin st_dtmax st_numsteps accept_step ext] in *.
  assert (N : near (get_dt_choose get_dt_new (mkSolver d do dm dv cd cm cf ms s1 s2 s3 s4 ac ex))
                   (get_dt_choose get_dt_new (mkSolver d do dm dv cd cm c ms m s2 s3 s4 ac ex))).
  { unfold get_dt_choose. cbn [dt_variable dt_old cfl]. destruct (dv && _)%bool.
    - rewrite (qltb_eq 0 0 cf c) by (reflexivity || exact Hc). destruct (qltb 0 c).
      + unfold get_dt_new, set_dt, set_st_dt. cbn [dt dt_max cfl cfl_desired dt_old dt_variable cfl_max max_steps st_cflmax st_dtmin st_dtmax st_numsteps accept_step ext].
        assert (ER : Qred (d * cd / cf) = Qred (d * cd / c)) by (apply Qred_complete; rewrite Hc; reflexivity).
        rewrite ER. exists c, m. auto.
      + exists c, m. auto.
    - exists c, m. auto. }
  unfold get_dt. revert N. generalize (get_dt_choose get_dt_new (mkSolver d do dm dv cd cm cf ms s1 s2 s3 s4 ac ex)) (get_dt_choose get_dt_new (mkSolver d do dm dv cd cm c ms m s2 s3 s4 ac ex)).
  clear. intros a b N. unfold get_dt_clip. destruct te as [te|]; [|exact N].
  destruct N as (c & m & -> & Hc & Hm). destruct a as [d do dm dv cd cm cf ms s1 s2 s3 s4 ac ex].
  cbn [cfl st_cflmax] in *. unfold set_cfl, set_st_cflmax, set_dt.
  cbn [dt dt_max cfl cfl_desired dt_old dt_variable cfl_max max_steps st_cflmax st_dtmin st_dtmax st_numsteps accept_step ext].
  destruct (qltb te (t + d) && qltb ts te)%bool;
    cbn [dt dt_max cfl cfl_desired dt_old dt_variable cfl_max max_steps st_cflmax st_dtmin st_dtmax st_numsteps accept_step ext];
    match goal with |- near (if ?b then _ else _) _ => destruct b end; exists c, m; auto.
Qed.

Variable source : option (Q -> sol DQ DX -> DQ * DX).
Variables hyper1 hyper2 : Q -> sol DQ DX -> DQ * DX * Q.
Variable source_split : Z.
Variable before : sol DQ DX -> DQ * DX.
Hypothesis Hsrc : forall f, source = Some f -> forall d a b, RS a b -> RS (with_data a (f d a)) (with_data b (f d b)).
Hypothesis Hbef : forall a b, RS a b -> RS (with_data a (before a)) (with_data b (before b)).
Hypothesis Hhyp : forall d a b, RS a b ->
  RS (with_data a (fst (hyper1 d a))) (with_data b (fst (hyper2 d b))) /\ snd (hyper1 d a) == snd (hyper2 d b).
Notation step1 := (classic_step (E := E) source hyper1 source_split).
Notation step2 := (classic_step (E := E) source hyper2 source_split).

Lemma pymax_eq (a a' b b' : Q) : a == a' -> b == b' -> pymax a b == pymax a' b'.
Proof. intros. destruct (pymax_spec a b) as (A1 & A2 & A3), (pymax_spec a' b') as (B1 & B2 & B3). destruct A3 as [A3|A3], B3 as [B3|B3]; rewrite A3, B3 in *; lra. Qed.
Lemma qleb_eq (a a' b b' : Q) : a == a' -> b == b' -> qleb a b = qleb a' b'.
Proof. intros H1 H2. destruct (qleb a b) eqn:E1, (qleb a' b') eqn:E2; try reflexivity; qprop; lra. Qed.

Lemma near_set_cfl a b c c' : near a b -> c == c' -> near (set_cfl c a) (set_cfl c' b).
Proof. intros (k & m & -> & Hc & Hm) H. exists c', m. destruct a. auto. Qed.
Lemma near_set_accept a b v : near a b -> near (set_accept_step v a) (set_accept_step v b).
Proof. intros (k & m & -> & Hc & Hm). exists k, m. destruct a. auto. Qed.
Lemma near_cflmax a b c c' : near a b -> c == c' -> near (set_st_cflmax (omax c (st_cflmax a)) a) (set_st_cflmax (omax c' (st_cflmax b)) b).
Proof.
  intros (k & m & -> & Hc & Hm) H. exists k, (omax c' m). destruct a as [d do dm dv cd cm cf ms s1 s2 s3 s4 ac ex]. split; [reflexivity|]. split; [exact Hc|].
  unfold set_cfl, set_st_cflmax in *. cbn [st_cflmax] in *. unfold oeq in Hm. destruct s1 as [x|], m as [y|]; try contradiction; cbn [omax oeq]; [apply pymax_eq; assumption|exact H].
Qed.
Lemma near_numsteps a b : near a b -> near (set_numsteps (st_numsteps a + 1) a) (set_numsteps (st_numsteps b + 1) b).
Proof. intros (k & m & -> & Hc & Hm). exists k, m. destruct a. auto. Qed.
Lemma near_max_steps a b n : near a b -> near (set_max_steps n a) (set_max_steps n b).
Proof. intros (k & m & -> & Hc & Hm). exists k, m. destruct a. auto. Qed.

Lemma step_near ts te s s' a b : near s s' -> RS a b ->
  near (fst (step1 ts te s a)) (fst (step2 ts te s' b)) /\ RS (snd (step1 ts te s a)) (snd (step2 ts te s' b)).
Proof.
  intros HN HR. unfold classic_step. rewrite <- (RS_t a b HR).
  pose proof (get_dt_near (st a) ts te s s' HN) as N1.
  set (s1 := get_dt get_dt_new (st a) ts te s) in *. set (s1' := get_dt get_dt_new (st a) ts te s') in *.
  assert (N2 : near (set_cfl 0 s1) (set_cfl 0 s1')) by (apply near_set_cfl; [exact N1|reflexivity]).
  set (r := set_cfl 0 s1) in *. set (r' := set_cfl 0 s1') in *. cbv zeta.
  destruct (near_dt _ _ N2) as (Ed & _ & _). rewrite Ed.
  set (a1 := match source with Some src => if Z.eqb source_split 2 then with_data a (src (Qred (dt r / 2)) a) else a | None => a end).
  set (b1 := match source with Some src => if Z.eqb source_split 2 then with_data b (src (Qred (dt r / 2)) b) else b | None => b end).
  assert (R1 : RS a1 b1).
  { unfold a1, b1. destruct source as [f|] eqn:Es; [|exact HR]. destruct (Z.eqb source_split 2); [|exact HR]. apply (Hsrc f eq_refl); exact HR. }
  destruct (Hhyp (dt r) a1 b1 R1) as [R2 Hc].
  destruct (hyper1 (dt r) a1) as [[q2 x2] c]. destruct (hyper2 (dt r) b1) as [[q2' x2'] c']. unfold with_data in R2. cbn [fst snd] in R2, Hc.
  assert (N3 : near (set_cfl (pymax (cfl r) c) r) (set_cfl (pymax (cfl r') c') r')).
  { apply near_set_cfl; [exact N2|]. apply pymax_eq; [apply near_cfl; exact N2|exact Hc]. }
  set (u := set_cfl (pymax (cfl r) c) r) in *. set (u' := set_cfl (pymax (cfl r') c') r') in *.
  destruct (near_dt _ _ N3) as (Ed3 & _ & Em & _). rewrite Em. rewrite (qleb_eq (cfl_max u) (cfl_max u) (cfl u) (cfl u')) by (reflexivity || (apply near_cfl; exact N3)).
  destruct (qleb (cfl_max u) (cfl u')); [split; assumption|].
  destruct source as [f|] eqn:Es; [|split; assumption]. rewrite Ed3.
  destruct (Z.eqb source_split 2); [|destruct (Z.eqb source_split 1)]; (split; [exact N3|]); cbn [snd]; try exact R2; apply (Hsrc f eq_refl); exact R2.
Qed.

Definition revent (e e' : event DQ DX) : Prop :=
  ev_accepted e = ev_accepted e' /\ ev_dt e = ev_dt e' /\ ev_cfl e == ev_cfl e' /\ RS (ev_before e) (ev_before e') /\ RS (ev_after e) (ev_after e').

Lemma accept_near s s' : near s s' -> accept_reject_step s' = accept_reject_step s.
Proof.
  intros N. unfold accept_reject_step. destruct (near_dt _ _ N) as (_ & _ & -> & _).
  rewrite (qltb_eq (cfl_max s) (cfl_max s) (cfl s') (cfl s)); [reflexivity|reflexivity|]. symmetry. apply near_cfl. exact N.
Qed.

Lemma attempt_near ts te n s s' a b : near s s' -> RS a b ->
  let '(u, x, e, er) := attempt step1 accept_reject_step before ts te n s a in
  let '(u', x', e', er') := attempt step2 accept_reject_step before ts te n s' b in
  near u u' /\ RS x x' /\ revent e e' /\ er = er'.
Proof.
  intros HN HR. unfold attempt.
  pose proof (Hbef a b HR) as R1. unfold with_data in R1.
  destruct (step_near ts te s s' _ _ HN R1) as [N2 R2].
  destruct (step1 ts te s (mkSol (fst (before a)) (snd (before a)) (st a))) as [s1 a2].
  destruct (step2 ts te s' (mkSol (fst (before b)) (snd (before b)) (st b))) as [s1' b2].
  cbn [fst snd] in N2, R2. cbv zeta. rewrite (accept_near _ _ N2).
  assert (N3 : near (set_accept_step (accept_reject_step s1) s1) (set_accept_step (accept_reject_step s1) s1')) by (apply near_set_accept; exact N2).
  destruct (accept_reject_step s1).
  - assert (N4 := near_cflmax _ _ _ _ N3 (near_cfl _ _ N2)).
    set (u := set_st_cflmax _ (set_accept_step true s1)) in *. set (u' := set_st_cflmax _ (set_accept_step true s1')) in *.
    destruct (near_dt _ _ N4) as (Ed & Ev & _). rewrite Ev, Ed, <- (RS_t _ _ R2).
    assert (N5 := near_numsteps _ _ N4). destruct (near_dt _ _ N5) as (Ed5 & _).
    split; [exact N5|]. split; [|split; [|reflexivity]].
    + apply RS_set. exact R2.
    + unfold revent. cbn [ev_accepted ev_dt ev_cfl ev_before ev_after]. rewrite Ed5. split; [reflexivity|]. split; [reflexivity|].
      split; [apply near_cfl; exact N2|]. split; [exact HR|]. apply RS_set. exact R2.
  - destruct (near_dt _ _ N3) as (Ed & Ev & _). rewrite Ev. destruct (dt_variable (set_accept_step false s1)).
    + split; [exact N3|]. assert (R3 : RS (mkSol (sq a) (sx a2) (st a)) (mkSol (sq b) (sx b2) (st b))) by (apply RS_back; assumption).
      split; [exact R3|]. split; [|reflexivity].
      unfold revent. cbn [ev_accepted ev_dt ev_cfl ev_before ev_after]. rewrite Ed.
      split; [reflexivity|]. split; [reflexivity|]. split; [apply near_cfl; exact N2|]. auto.
    + assert (N4 := near_cflmax _ _ _ _ N3 (near_cfl _ _ N2)). split; [exact N4|]. split; [exact R2|]. split; [|reflexivity].
      destruct (near_dt _ _ N4) as (Ed4 & _).
      unfold revent. cbn [ev_accepted ev_dt ev_cfl ev_before ev_after]. rewrite Ed4.
      split; [reflexivity|]. split; [reflexivity|]. split; [apply near_cfl; exact N2|]. auto.
Qed.

Lemma loop_near ts te : forall k n s s' a b num tr tr', near s s' -> RS a b -> Forall2 revent tr tr' ->
  let '(u, x, m, t, e) := evolve_loop step1 accept_reject_step before k n ts te s a num tr in
  let '(u', x', m', t', e') := evolve_loop step2 accept_reject_step before k n ts te s' b num tr' in
  near u u' /\ RS x x' /\ m = m' /\ Forall2 revent t t' /\ e = e'.
Proof.
  induction k; intros n s s' a b num tr tr' HN HR HT; cbn [evolve_loop]; [auto|].
  pose proof (attempt_near ts te n s s' a b HN HR) as HA.
  destruct (attempt step1 _ _ _ _ _ _ _) as [[[u x] e] er]. destruct (attempt step2 _ _ _ _ _ _ _) as [[[u' x'] e'] er'].
  destruct HA as (N & R & V & <-). assert (Ea : ev_accepted e = ev_accepted e') by apply V. rewrite <- Ea.
  assert (HT' : Forall2 revent (e :: tr) (e' :: tr')) by (constructor; assumption).
  destruct er as [er|]; [auto|]. unfold finished. rewrite <- (RS_t _ _ R). destruct te as [te|]; [|auto]. destruct (qleb te (st x)); [auto|].
  apply IHk; assumption.
Qed.

Lemma setup_near ts te s s' : near s s' ->
  near (fst (evolve_setup ts te s)) (fst (evolve_setup ts te s')) /\ snd (evolve_setup ts te s) = snd (evolve_setup ts te s').
Proof.
  intros (c & m & -> & Hc & Hm). destruct s as [d do dm dv cd cm cf ms s1 s2 s3 s4 ac ex].
  unfold evolve_setup, set_cfl, set_st_cflmax, set_max_steps.
  cbn [dt dt_max cfl cfl_desired dt_old dt_variable cfl_max max_steps st_cflmax st_dtmin st_dtmax st_numsteps accept_step ext] in *.
  destruct dv; destruct te as [te|];
    try (destruct (qeqb d 0)); try (match goal with |- context [if qltb (tol5 * ?x) ?y then _ else _] => destruct (qltb (tol5 * x) y) end);
    cbn [dt dt_max cfl cfl_desired dt_old dt_variable cfl_max max_steps st_cflmax st_dtmin st_dtmax st_numsteps accept_step ext andb];
    repeat match goal with |- context [if ?b then _ else _] => destruct b end;
    (split; [exists c, m; auto|reflexivity]).
Qed.

Theorem classic_evolve_near s s' a b te : near s s' -> RS a b ->
  let r := classic_evolve source hyper1 source_split before s a te in
  let r' := classic_evolve source hyper2 source_split before s' b te in
  near (r_solver r) (r_solver r') /\ RS (r_sol r) (r_sol r') /\ Forall2 revent (r_trace r) (r_trace r') /\ r_err r = r_err r'.
Proof.
  intros HN HR. cbv zeta. unfold classic_evolve, evolve_to_time. rewrite <- (RS_t _ _ HR).
  destruct (setup_near (st a) te s s' HN) as [N1 E1].
  destruct (evolve_setup (st a) te s) as [s1 e1]. destruct (evolve_setup (st a) te s') as [s1' e1']. cbn [fst snd] in N1, E1. subst e1'.
  destruct e1 as [e1|]; [cbn [r_solver r_sol r_trace r_err]; auto|].
  destruct (near_dt _ _ N1) as (_ & _ & _ & _ & ->).
  pose proof (loop_near (st a) te (Z.to_nat (max_steps s1)) 0 s1 s1' a b 0 [] [] N1 HR (Forall2_nil _)) as HL.
  destruct (evolve_loop step1 _ _ _ _ _ _ _ _ _ _) as [[[[u x] n] t] e]. destruct (evolve_loop step2 _ _ _ _ _ _ _ _ _ _) as [[[[u' x'] n'] t'] e'].
  destruct HL as (N & R & <- & HT & <-).
  assert (HT' : Forall2 revent (rev t) (rev t')).
  { clear -HT. induction HT; cbn [rev]; [constructor|]. apply Forall2_app; [exact IHHT|]. constructor; [assumption|constructor]. }
  destruct e as [e|]; cbn [r_solver r_sol r_trace r_err]; [auto|].
  destruct (near_dt _ _ N) as (_ & Ev & _ & _ & Em). rewrite Ev, Em, <- (RS_t _ _ R). auto.
Qed.
End Sim.
