(** Proofs about parallel SharpClaw runs, part 2: a run is determined, up to the value of the Courant number, by what
    its slope and stages do to the cells. *)
From Verif Require Import Base TimeModel ParallelSpec ParallelProofs4.

Section Sim.
Variables DQ DX : Type.
Variable RS : sol DQ DX -> sol DQ DX -> Prop.
Variable RK : DQ -> DQ -> Prop.
Hypothesis RS_t : forall a b, RS a b -> st a = st b.
Hypothesis RS_set : forall a b t, RS a b -> RS (mkSol (sq a) (sx a) t) (mkSol (sq b) (sx b) t).
Hypothesis RS_back : forall a b a' b', RS a b -> RS a' b' -> RS (mkSol (sq a) (sx a') (st a)) (mkSol (sq b) (sx b') (st b)).

Definition knear (a b : solver DQ) : Prop :=
  exists c m k, b = set_ext k (set_cfl c (set_st_cflmax m a)) /\ cfl a == c /\ oeq (st_cflmax a) m /\ RK (ext a) k.
Lemma knear_fields a b : knear a b -> dt b = dt a /\ dt_variable b = dt_variable a /\ cfl_max b = cfl_max a /\
  cfl_desired b = cfl_desired a /\ max_steps b = max_steps a /\ accept_step b = accept_step a /\ dt_old b = dt_old a.
Proof. intros (c & m & k & -> & _). destruct a. auto 10. Qed.
Lemma knear_cfl a b : knear a b -> cfl a == cfl b.
Proof. intros (c & m & k & -> & H & _). destruct a. exact H. Qed.
Lemma knear_ext a b : knear a b -> RK (ext a) (ext b).
Proof. intros (c & m & k & -> & _ & _ & H). destruct a. exact H. Qed.

Ltac fields := cbn [dt dt_max cfl cfl_desired dt_old dt_variable cfl_max max_steps st_cflmax st_dtmin st_dtmax st_numsteps accept_step ext] in *.
Lemma get_dt_knear t ts te a b : knear a b -> knear (get_dt sharp_get_dt_new t ts te a) (get_dt sharp_get_dt_new t ts te b).
Proof.
  intros (c & m & k & -> & Hc & Hm & Hk). destruct a as [d do dm dv cd cm cf ms s1 s2 s3 s4 ac ex].
  unfold set_ext, set_cfl, set_st_cflmax. fields.
  assert (N : knear (get_dt_choose sharp_get_dt_new (mkSolver d do dm dv cd cm cf ms s1 s2 s3 s4 ac ex))
                    (get_dt_choose sharp_get_dt_new (mkSolver d do dm dv cd cm c ms m s2 s3 s4 ac k))).
  { unfold get_dt_choose. fields. destruct (dv && _)%bool.
    - rewrite (qltb_eq 0 0 cf c) by (reflexivity || exact Hc). destruct (qltb 0 c).
      + unfold sharp_get_dt_new, set_dt, set_dt_old, set_st_dt. fields.
        assert (ER : Qred (d * cd / cf) = Qred (d * cd / c)) by (apply Qred_complete; rewrite Hc; reflexivity).
        rewrite ER. exists c, m, k. auto.
      + exists c, m, k. auto.
    - exists c, m, k. auto. }
  unfold get_dt. revert N. generalize (get_dt_choose sharp_get_dt_new (mkSolver d do dm dv cd cm cf ms s1 s2 s3 s4 ac ex)) (get_dt_choose sharp_get_dt_new (mkSolver d do dm dv cd cm c ms m s2 s3 s4 ac k)).
  clear. intros a b N. unfold get_dt_clip. destruct te as [te|]; [|exact N].
  destruct N as (c & m & k & -> & Hc & Hm & Hk). destruct a as [d do dm dv cd cm cf ms s1 s2 s3 s4 ac ex].
  unfold set_ext, set_cfl, set_st_cflmax, set_dt. fields.
  destruct (qltb te (t + d) && qltb ts te)%bool; fields;
    match goal with |- knear (if ?b then _ else _) _ => destruct b end; exists c, m, k; auto.
Qed.

Lemma knear_set_cfl a b c c' : knear a b -> c == c' -> knear (set_cfl c a) (set_cfl c' b).
Proof. intros (k & m & e & -> & Hc & Hm & He) H. exists c', m, e. destruct a. auto. Qed.
Lemma knear_set_ext a b k k' : knear a b -> RK k k' -> knear (set_ext k a) (set_ext k' b).
Proof. intros (c & m & e & -> & Hc & Hm & He) H. exists c, m, k'. destruct a. auto. Qed.
Lemma knear_dt_old a b d : knear a b -> knear (set_dt_old d a) (set_dt_old d b).
Proof. intros (k & m & e & -> & Hc & Hm & He). exists k, m, e. destruct a. auto. Qed.
Lemma knear_accept a b v : knear a b -> knear (set_accept_step v a) (set_accept_step v b).
Proof. intros (k & m & e & -> & Hc & Hm & He). exists k, m, e. destruct a. auto. Qed.
Lemma knear_cflmax a b c c' : knear a b -> c == c' -> knear (set_st_cflmax (omax c (st_cflmax a)) a) (set_st_cflmax (omax c' (st_cflmax b)) b).
Proof.
  intros (k & m & e & -> & Hc & Hm & He) H. exists k, (omax c' m), e. destruct a as [d do dm dv cd cm cf ms s1 s2 s3 s4 ac ex].
  split; [reflexivity|]. split; [exact Hc|]. split; [|exact He].
  unfold set_ext, set_cfl, set_st_cflmax in *. fields. unfold oeq in Hm. destruct s1 as [x|], m as [y|]; try contradiction; cbn [omax oeq]; [apply pymax_eq; assumption|exact H].
Qed.
Lemma knear_numsteps a b : knear a b -> knear (set_numsteps (st_numsteps a + 1) a) (set_numsteps (st_numsteps b + 1) b).
Proof. intros (k & m & e & -> & Hc & Hm & He). exists k, m, e. destruct a. auto. Qed.

Variables slope1 slope2 : Q -> sol DQ DX -> DQ * DX * Q.
Variables stages1 stages2 : Q -> DQ -> sol DQ DX -> DQ * DX * Q.
Variable before : sol DQ DX -> DQ * DX.
Hypothesis Hbef : forall a b, RS a b -> RS (with_data a (before a)) (with_data b (before b)).
Hypothesis Hslope : forall d a b, RS a b ->
  RK (fst (fst (slope1 d a))) (fst (fst (slope2 d b))) /\
  RS (mkSol (sq a) (snd (fst (slope1 d a))) (st a)) (mkSol (sq b) (snd (fst (slope2 d b))) (st b)) /\
  snd (slope1 d a) == snd (slope2 d b).
Hypothesis Hstages : forall d k k' a b, RK k k' -> RS a b ->
  RS (with_data a (fst (stages1 d k a))) (with_data b (fst (stages2 d k' b))) /\ snd (stages1 d k a) == snd (stages2 d k' b).
Notation step1 := (sharp_step slope1 stages1).
Notation step2 := (sharp_step slope2 stages2).

Lemma step_knear ts te s s' a b : knear s s' -> RS a b ->
  knear (fst (step1 ts te s a)) (fst (step2 ts te s' b)) /\ RS (snd (step1 ts te s a)) (snd (step2 ts te s' b)).
Proof.
  intros HN HR. unfold sharp_step.
  destruct (knear_fields _ _ HN) as (Ed & _ & _ & _ & _ & Ea & _). rewrite Ea, Ed.
  set (p1 := if accept_step s then _ else (s, a)).
  set (p2 := if accept_step s then _ else (s', b)).
  assert (P : knear (fst p1) (fst p2) /\ RS (snd p1) (snd p2)).
  { unfold p1, p2. destruct (accept_step s); [|auto]. destruct (Hslope (dt s) a b HR) as (A & B & D).
    destruct (slope1 (dt s) a) as [[k x] c]. destruct (slope2 (dt s) b) as [[k' x'] c']. cbn [fst snd] in *. split; [|exact B].
    apply knear_set_ext; [|exact A]. apply knear_set_cfl; [exact HN|]. apply pymax_eq; [reflexivity|exact D]. }
  destruct p1 as [s1 a1], p2 as [s1' b1]. cbn [fst snd] in P. destruct P as [N1 R1]. cbv zeta.
  rewrite <- (RS_t a1 b1 R1). pose proof (get_dt_knear (st a1) ts te s1 s1' N1) as N2.
  set (s2 := get_dt sharp_get_dt_new (st a1) ts te s1) in *. set (s2' := get_dt sharp_get_dt_new (st a1) ts te s1') in *.
  destruct (knear_fields _ _ N2) as (Ed2 & _ & _ & _ & _ & _ & Eo).
  assert (Eov : dt_old_val s2' = dt_old_val s2) by (unfold dt_old_val; rewrite Eo; reflexivity). rewrite Ed2, Eov.
  assert (N3 : knear (set_dt_old (Some (dt s2)) (set_cfl (dt s2 / dt_old_val s2 * cfl s2) s2))
                     (set_dt_old (Some (dt s2)) (set_cfl (dt s2 / dt_old_val s2 * cfl s2') s2'))).
  { apply knear_dt_old. apply knear_set_cfl; [exact N2|]. rewrite (knear_cfl _ _ N2). reflexivity. }
  set (s3 := set_dt_old _ (set_cfl (dt s2 / dt_old_val s2 * cfl s2) s2)) in *. set (s3' := set_dt_old _ (set_cfl _ s2')) in *.
  destruct (knear_fields _ _ N3) as (Ed3 & _). rewrite Ed3.
  destruct (Hstages (dt s3) (ext s3) (ext s3') a1 b1 (knear_ext _ _ N3) R1) as [R4 H4].
  destruct (stages1 (dt s3) (ext s3) a1) as [[q x] c]. destruct (stages2 (dt s3) (ext s3') b1) as [[q' x'] c'].
  unfold with_data in R4. cbn [fst snd] in *. split; [|rewrite <- (RS_t a1 b1 R1) in R4; exact R4].
  apply knear_set_cfl; [exact N3|]. apply pymax_eq; [apply knear_cfl; exact N3|exact H4].
Qed.

Definition kevent (e e' : event DQ DX) : Prop :=
  ev_accepted e = ev_accepted e' /\ ev_dt e = ev_dt e' /\ ev_cfl e == ev_cfl e' /\ RS (ev_before e) (ev_before e') /\ RS (ev_after e) (ev_after e').

Lemma accept_knear s s' : knear s s' -> accept_reject_step s' = accept_reject_step s.
Proof.
  intros N. unfold accept_reject_step. destruct (knear_fields _ _ N) as (_ & _ & -> & _).
  rewrite (qltb_eq (cfl_max s) (cfl_max s) (cfl s') (cfl s)); [reflexivity|reflexivity|]. symmetry. apply knear_cfl. exact N.
Qed.

Lemma attempt_knear ts te n s s' a b : knear s s' -> RS a b ->
  let '(u, x, e, er) := attempt step1 accept_reject_step before ts te n s a in
  let '(u', x', e', er') := attempt step2 accept_reject_step before ts te n s' b in
  knear u u' /\ RS x x' /\ kevent e e' /\ er = er'.
Proof.
  intros HN HR. unfold attempt.
  pose proof (Hbef a b HR) as R1. unfold with_data in R1.
  destruct (step_knear ts te s s' _ _ HN R1) as [N2 R2].
  destruct (step1 ts te s (mkSol (fst (before a)) (snd (before a)) (st a))) as [s1 a2].
  destruct (step2 ts te s' (mkSol (fst (before b)) (snd (before b)) (st b))) as [s1' b2].
  cbn [fst snd] in N2, R2. cbv zeta. rewrite (accept_knear _ _ N2).
  assert (N3 : knear (set_accept_step (accept_reject_step s1) s1) (set_accept_step (accept_reject_step s1) s1')) by (apply knear_accept; exact N2).
  destruct (accept_reject_step s1).
  - assert (N4 := knear_cflmax _ _ _ _ N3 (knear_cfl _ _ N2)).
    set (u := set_st_cflmax _ (set_accept_step true s1)) in *. set (u' := set_st_cflmax _ (set_accept_step true s1')) in *.
    destruct (knear_fields _ _ N4) as (Ed & Ev & _). rewrite Ev, Ed, <- (RS_t _ _ R2).
    assert (N5 := knear_numsteps _ _ N4). destruct (knear_fields _ _ N5) as (Ed5 & _).
    split; [exact N5|]. split; [|split; [|reflexivity]].
    + apply RS_set. exact R2.
    + unfold kevent. cbn [ev_accepted ev_dt ev_cfl ev_before ev_after]. rewrite Ed5. split; [reflexivity|]. split; [reflexivity|].
      split; [apply knear_cfl; exact N2|]. split; [exact HR|]. apply RS_set. exact R2.
  - destruct (knear_fields _ _ N3) as (Ed & Ev & _). rewrite Ev. destruct (dt_variable (set_accept_step false s1)).
    + split; [exact N3|]. assert (R3 : RS (mkSol (sq a) (sx a2) (st a)) (mkSol (sq b) (sx b2) (st b))) by (apply RS_back; assumption).
      split; [exact R3|]. split; [|reflexivity].
      unfold kevent. cbn [ev_accepted ev_dt ev_cfl ev_before ev_after]. rewrite Ed.
      split; [reflexivity|]. split; [reflexivity|]. split; [apply knear_cfl; exact N2|]. auto.
    + assert (N4 := knear_cflmax _ _ _ _ N3 (knear_cfl _ _ N2)). split; [exact N4|]. split; [exact R2|]. split; [|reflexivity].
      destruct (knear_fields _ _ N4) as (Ed4 & _).
      unfold kevent. cbn [ev_accepted ev_dt ev_cfl ev_before ev_after]. rewrite Ed4.
      split; [reflexivity|]. split; [reflexivity|]. split; [apply knear_cfl; exact N2|]. auto.
Qed.

Lemma loop_knear ts te : forall k n s s' a b num tr tr', knear s s' -> RS a b -> Forall2 kevent tr tr' ->
  let '(u, x, m, t, e) := evolve_loop step1 accept_reject_step before k n ts te s a num tr in
  let '(u', x', m', t', e') := evolve_loop step2 accept_reject_step before k n ts te s' b num tr' in
  knear u u' /\ RS x x' /\ m = m' /\ Forall2 kevent t t' /\ e = e'.
Proof.
  induction k; intros n s s' a b num tr tr' HN HR HT; cbn [evolve_loop]; [auto|].
  pose proof (attempt_knear ts te n s s' a b HN HR) as HA.
  destruct (attempt step1 _ _ _ _ _ _ _) as [[[u x] e] er]. destruct (attempt step2 _ _ _ _ _ _ _) as [[[u' x'] e'] er'].
  destruct HA as (N & R & V & <-). assert (Ea : ev_accepted e = ev_accepted e') by apply V. rewrite <- Ea.
  assert (HT' : Forall2 kevent (e :: tr) (e' :: tr')) by (constructor; assumption).
  destruct er as [er|]; [auto|]. unfold finished. rewrite <- (RS_t _ _ R). destruct te as [te|]; [|auto]. destruct (qleb te (st x)); [auto|].
  apply IHk; assumption.
Qed.

Lemma setup_knear ts te s s' : knear s s' ->
  knear (fst (evolve_setup ts te s)) (fst (evolve_setup ts te s')) /\ snd (evolve_setup ts te s) = snd (evolve_setup ts te s').
Proof.
  intros (c & m & k & -> & Hc & Hm & Hk). destruct s as [d do dm dv cd cm cf ms s1 s2 s3 s4 ac ex].
  unfold evolve_setup, set_ext, set_cfl, set_st_cflmax, set_max_steps. fields.
  destruct dv; destruct te as [te|];
    try (destruct (qeqb d 0)); try (match goal with |- context [if qltb (tol5 * ?x) ?y then _ else _] => destruct (qltb (tol5 * x) y) end);
    cbn [dt dt_max cfl cfl_desired dt_old dt_variable cfl_max max_steps st_cflmax st_dtmin st_dtmax st_numsteps accept_step ext andb];
    repeat match goal with |- context [if ?b then _ else _] => destruct b end;
    (split; [exists c, m, k; auto|reflexivity]).
Qed.

Theorem sharp_evolve_knear s s' a b te : knear s s' -> RS a b ->
  let r := sharp_evolve slope1 stages1 before s a te in
  let r' := sharp_evolve slope2 stages2 before s' b te in
  knear (r_solver r) (r_solver r') /\ RS (r_sol r) (r_sol r') /\ Forall2 kevent (r_trace r) (r_trace r') /\ r_err r = r_err r'.
Proof.
  intros HN HR. cbv zeta. unfold sharp_evolve, evolve_to_time. rewrite <- (RS_t _ _ HR).
  destruct (setup_knear (st a) te s s' HN) as [N1 E1].
  destruct (evolve_setup (st a) te s) as [s1 e1]. destruct (evolve_setup (st a) te s') as [s1' e1']. cbn [fst snd] in N1, E1. subst e1'.
  destruct e1 as [e1|]; [cbn [r_solver r_sol r_trace r_err]; auto|].
  destruct (knear_fields _ _ N1) as (_ & _ & _ & _ & -> & _).
  pose proof (loop_knear (st a) te (Z.to_nat (max_steps s1)) 0 s1 s1' a b 0 [] [] N1 HR (Forall2_nil _)) as HL.
  destruct (evolve_loop step1 _ _ _ _ _ _ _ _ _ _) as [[[[u x] n] t] e]. destruct (evolve_loop step2 _ _ _ _ _ _ _ _ _ _) as [[[[u' x'] n'] t'] e'].
  destruct HL as (N & R & <- & HT & <-).
  assert (HT' : Forall2 kevent (rev t) (rev t')).
  { clear -HT. induction HT; cbn [rev]; [constructor|]. apply Forall2_app; [exact IHHT|]. constructor; [assumption|constructor]. }
  destruct e as [e|]; cbn [r_solver r_sol r_trace r_err]; [auto|].
  destruct (knear_fields _ _ N) as (_ & Ev & _ & _ & Em & _). rewrite Ev, Em, <- (RS_t _ _ R). auto.
Qed.
End Sim.
