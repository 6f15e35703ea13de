(** Proofs: invariants of the time loop and of the controller. *)
From Verif Require Import Base TimeModel TimeSpec TimeProofs TimeProofs2 ControllerModel RunSpec.

Section Keep.
Context {DQ DX E : Type}.
Variable stepf : Q -> option Q -> solver E -> sol DQ DX -> solver E * sol DQ DX.
Variable acceptf : solver E -> bool.
Variable before : sol DQ DX -> DQ * DX.
Variable Iq : DQ -> Prop.
Variable Ix : DX -> Prop.
Variable Is : solver E -> Prop.
Hypothesis Hfr : step_frame stepf.
Hypothesis Hb : forall so, Iq (sq so) -> Ix (sx so) -> Iq (fst (before so)) /\ Ix (snd (before so)).
(** [Is] depends only on these fields *)
Hypothesis His : forall s s', same_params s s' \/ (dt_variable s' = dt_variable s /\ dt_max s' = dt_max s /\ cfl_desired s' = cfl_desired s /\ cfl_max s' = cfl_max s) ->
  dt s' = dt s -> ext s' = ext s -> accept_step s' = accept_step s -> Is s -> Is s'.
Hypothesis Hstep : forall tstart tend s so s' so',
  Is s -> (forall te, tend = Some te -> tstart < te /\ st so < te) -> Iq (sq so) -> Ix (sx so) ->
  stepf tstart tend s so = (s', so') ->
  Is (set_accept_step (acceptf s') s') /\ Ix (sx so') /\ (acceptf s' = true -> Iq (sq so')).

Lemma attempt_keeps tstart tend n s so s' so' ev e :
  Is s -> (forall te, tend = Some te -> tstart < te /\ st so < te) -> Iq (sq so) -> Ix (sx so) ->
  attempt stepf acceptf before tstart tend n s so = (s', so', ev, e) ->
  Is s' /\ Ix (sx so') /\ (e <> Some ECflTooLarge -> Iq (sq so')).
Proof.
  intros HI Ht Hq Hx H.
  destruct (attempt_inv stepf acceptf before Hfr tstart tend n s so s' so' ev e H)
    as (s1 & so1 & Es & P1 & P2 & Est & Ed & _ & _ & Ee & _ & _ & _ & _ & _ & _ & _ & Ea & C).
  destruct (Hb so Hq Hx) as [B1 B2].
  destruct (Hstep tstart tend s (mkSol (fst (before so)) (snd (before so)) (st so)) s1 so1 HI Ht B1 B2 Es) as (S1 & S2 & S3).
  split.
  { apply (His (set_accept_step (acceptf s1) s1) s'); cbn; auto. right.
    destruct P1 as (A1 & A2 & A3 & A4 & _). destruct P2 as (D1 & D2 & D3 & D4 & _). repeat split; congruence. }
  destruct C as [(A & -> & _ & _ & ->)|[(A & _ & -> & _ & _ & ->)|(A & _ & -> & _ & _ & ->)]]; cbn [sx sq].
  - split; [exact S2|]. intros _. apply S3. exact A.
  - split; [exact S2|]. intros _. exact Hq.
  - split; [exact S2|]. intros K. destruct (K eq_refl).
Qed.

Lemma loop_keeps tstart tend : forall k n s so num tr s' so' num' tr' e,
  Is s -> (forall te, tend = Some te -> tstart < te /\ st so < te) -> Iq (sq so) -> Ix (sx so) ->
  evolve_loop stepf acceptf before k n tstart tend s so num tr = (s', so', num', tr', e) ->
  Is s' /\ Ix (sx so') /\ (e <> Some ECflTooLarge -> Iq (sq so')).
Proof.
  induction k as [|k IH]; intros n s so num tr s' so' num' tr' e HI Ht Hq Hx H; cbn [evolve_loop] in H.
  - injection H as <- <- <- <- <-. auto.
  - destruct (attempt stepf acceptf before tstart tend n s so) as [[[s1 so1] ev] e1] eqn:Ea.
    destruct (attempt_keeps _ _ _ _ _ _ _ _ _ HI Ht Hq Hx Ea) as (A & B & D).
    destruct e1 as [x|].
    + injection H as <- <- <- <- <-. auto.
    + destruct (finished tend so1) eqn:Ef.
      * injection H as <- <- <- <- <-. split; [exact A|]. split; [exact B|]. intros _. apply D. discriminate.
      * apply (IH _ _ _ _ _ _ _ _ _ _ A) in H; auto; [|apply D; discriminate].
        intros te ->. cbn [finished] in Ef. apply qleb_gt in Ef. split; [apply (Ht te eq_refl)|exact Ef].
Qed.

Lemma evolve_keeps s so tend r : Is s -> Iq (sq so) -> Ix (sx so) ->
  evolve_to_time stepf acceptf before s so tend = r ->
  Is (r_solver r) /\ Ix (sx (r_sol r)) /\ (r_err r <> Some ECflTooLarge -> Iq (sq (r_sol r))).
Proof.
  intros HI Hq Hx <-. unfold evolve_to_time. cbv zeta.
  destruct (evolve_setup (st so) tend s) as [s1 e1] eqn:Es.
  assert (K : Is s1 /\ (e1 = None -> max_steps s1 = 0%Z \/ forall te, tend = Some te -> st so < te)).
  { unfold evolve_setup in Es.
    assert (KI : forall m, Is (set_max_steps m s)) by (intros m; apply (His s); cbn; auto 10).
    assert (KI2 : forall m k, Is (set_max_steps k (set_max_steps m s))) by (intros m k; apply (His s); cbn; auto 10).
    destruct (dt_variable s) eqn:Ev.
    - rewrite Ev in Es. destruct (true && qltb (cfl_max s) (cfl_desired s))%bool; [injection Es as <- <-; split; [exact HI|discriminate]|].
      destruct tend as [te|]; [|injection Es as <- <-; split; [exact HI|]; intros _; right; discriminate].
      destruct (qleb te (st so)) eqn:El; injection Es as <- <-; [split; [apply KI|]; intros _; left; reflexivity|].
      split; [exact HI|]. intros _. right. intros x Ex. injection Ex as <-. apply qleb_gt in El. exact El.
    - destruct tend as [te|].
      + destruct (qeqb (dt s) 0); [injection Es as <- <-; split; [exact HI|discriminate]|].
        destruct (qltb _ _); [injection Es as <- <-; split; [apply KI|discriminate]|].
        cbn [set_max_steps dt_variable] in Es. rewrite Ev in Es. cbn [andb] in Es.
        destruct (qleb te (st so)) eqn:El; injection Es as <- <-; [split; [apply KI2|]; intros _; left; reflexivity|].
        split; [apply KI|]. intros _. right. intros x Ex. injection Ex as <-. apply qleb_gt in El. exact El.
      + cbn [set_max_steps dt_variable] in Es. rewrite Ev in Es. cbn [andb] in Es. injection Es as <- <-.
        split; [apply KI|]. intros _. right. discriminate. }
  destruct K as [K1 K2]. destruct e1 as [e|]; [cbn; auto|]. specialize (K2 eq_refl).
  destruct (evolve_loop stepf acceptf before (Z.to_nat (max_steps s1)) 0 (st so) tend s1 so 0 []) as [[[[s2 so2] num] tr] e2] eqn:El.
  assert (R : Is s2 /\ Ix (sx so2) /\ (e2 <> Some ECflTooLarge -> Iq (sq so2))).
  { destruct K2 as [K2|K2].
    - rewrite K2 in El. cbn [Z.to_nat evolve_loop] in El. injection El as <- <- <- <- <-. auto.
    - apply (loop_keeps _ _ _ _ _ _ _ _ _ _ _ _ _ K1) in El; auto. }
  destruct e2 as [e|]; cbn [r_solver r_sol r_err]; [exact R|].
  destruct R as (R1 & R2 & R3). split; [exact R1|]. split; [exact R2|]. intros _. apply R3. discriminate.
Qed.

(** The controller *)
Context {P F : Type}.
Variable setup : solver E -> solver E.
Variable valid : solver E -> sol DQ DX -> bool.
Variable c : controller DQ DX P F.
Notation evolve := (evolve_to_time stepf acceptf before).
Notation world := (world DQ DX E P F).
Definition I2 (u : sol DQ DX) : Prop := Iq (sq u) /\ Ix (sx u).
Definition fine (w0 w : world) : Prop :=
  Is (w_solver w) /\ (forall n a u, In (WriteQ n a u) (w_out w) -> In (WriteQ n a u) (w_out w0) \/ I2 u) /\
  (forall u, In u (w_frames w) -> In u (w_frames w0) \/ I2 u).

Lemma fine_frame w0 w k b : fine w0 w -> I2 (w_sol w) -> fine w0 (write_frame c k b w).
Proof.
  intros (A & B & D) HI. unfold write_frame. destruct (c_output c); [|split; auto].
  assert (G : forall l, (forall n a u, In (WriteQ n a u) (w_out w ++ l ++ [WriteQ k b (w_sol w)]) -> In (WriteQ n a u) (w_out w ++ l) \/ I2 u)).
  { intros l n a u H. rewrite app_assoc in H. apply in_app_or in H. destruct H as [H|[H|[]]]; [left; exact H|]. injection H as <- <- <-. right. exact HI. }
  destruct (c_p c) as [f|]; cbv zeta; unfold made_dir, put, fine; cbn [w_solver w_out w_frames w_sol]; (split; [exact A|split; [|exact D]]).
  - intros n a u H. rewrite <- app_assoc in H. apply G in H. destruct H as [H|H]; [|right; exact H].
    apply in_app_or in H. destruct H as [H|[H|[]]]; [apply (B _ _ _ H)|discriminate].
  - intros n a u H. apply (G []) in H. rewrite app_nil_r in H. destruct H as [H|H]; [apply (B _ _ _ H)|right; exact H].
Qed.
Lemma fine_F w0 w b : fine w0 w -> fine w0 (write_F c b w).
Proof.
  intros (A & B & D). unfold write_F. destruct (c_F c) as [f|]; [|split; auto]. split; [exact A|]. split; [|exact D].
  cbn [put w_out]. intros n a u H. apply in_app_or in H. destruct H as [H|[H|[]]]; [apply (B _ _ _ H)|discriminate].
Qed.
Lemma fine_keep w0 w : fine w0 w -> I2 (w_sol w) -> fine w0 (keep c w).
Proof.
  intros (A & B & D) HI. split; [exact A|]. split; [exact B|]. cbn [keep w_frames]. destruct (c_keep c); [|exact D].
  intros u H. apply in_app_or in H. destruct H as [H|[H|[]]]; [apply D; exact H|]. subst u. right. exact HI.
Qed.
Lemma sol_write k b w : w_sol (write_frame c k b w : world) = w_sol w.
Proof. unfold write_frame. destruct (c_output c); [|reflexivity]. destruct (c_p c); reflexivity. Qed.
Lemma sol_F b w : w_sol (write_F c b w : world) = w_sol w.
Proof. unfold write_F. destruct (c_F c); reflexivity. Qed.

(** After an exception the solution may be bad; otherwise it is not. *)
Definition state_ok (w : world) (e : option err) : Prop := Ix (sx (w_sol w)) /\ (e <> Some ECflTooLarge -> Iq (sq (w_sol w))).
Lemma world_keeps w0 w tend w' e : fine w0 w -> I2 (w_sol w) -> evolve_world evolve tend w = (w', e) -> fine w0 w' /\ state_ok w' e.
Proof.
  intros (A & B & D) [H1 H2] H. unfold evolve_world in H. injection H as <- <-.
  destruct (evolve_keeps (w_solver w) (w_sol w) tend _ A H1 H2 eq_refl) as (X & Y & Z0).
  split; [split; [exact X|split; [exact B|exact D]]|]. split; [exact Y|exact Z0].
Qed.
Lemma singles_keep w0 k : forall w b w' b' e, fine w0 w -> I2 (w_sol w) -> single_steps evolve k w b = (w', b', e) -> fine w0 w' /\ state_ok w' e.
Proof.
  induction k as [|k IH]; intros w b w' b' e Hf HI H; cbn [single_steps] in H.
  - injection H as <- <- <-. split; [exact Hf|]. split; [apply HI|]. intros _. apply HI.
  - destruct (evolve_world evolve None w) as [w1 e1] eqn:Ew. destruct (world_keeps _ _ _ _ _ Hf HI Ew) as [F1 [S1 S2]].
    destruct e1 as [x|]; [injection H as <- <- <-; split; [exact F1|split; assumption]|].
    apply (IH _ _ _ _ _ F1) in H; [exact H|]. split; [apply S2; discriminate|exact S1].
Qed.
Lemma output_keeps w0 t frame w b w' b' e : fine w0 w -> I2 (w_sol w) -> one_output evolve c t frame w b = (w', b', e) ->
  fine w0 w' /\ state_ok w' e.
Proof.
  intros Hf HI H. unfold one_output in H.
  destruct (if (c_style c <? 3)%Z then let '(w', e) := evolve_world evolve (Some t) w in (w', true, e) else single_steps evolve (Z.to_nat (c_nstepout c)) w b) as [[w1 b1] e1] eqn:E1.
  assert (K : fine w0 w1 /\ state_ok w1 e1).
  { destruct (c_style c <? 3)%Z.
    - destruct (evolve_world evolve (Some t) w) as [w2 e2] eqn:E2. injection E1 as <- <- <-. apply (world_keeps _ _ _ _ _ Hf HI E2).
    - apply (singles_keep _ _ _ _ _ _ _ Hf HI E1). }
  destruct K as [F1 [S1 S2]]. destruct e1 as [x|]; injection H as <- <- <-; [split; [exact F1|split; assumption]|].
  assert (HI1 : I2 (w_sol w1)) by (split; [apply S2; discriminate|exact S1]).
  split.
  - apply fine_F. apply fine_frame; [|exact HI1]. apply fine_keep; assumption.
  - unfold state_ok. rewrite sol_F, sol_write. cbn [keep w_sol]. split; [exact S1|]. intros _. apply HI1.
Qed.
Lemma outputs_keep w0 ts : forall frame w b w' b' e, fine w0 w -> I2 (w_sol w) -> outputs evolve c ts frame w b = (w', b', e) ->
  fine w0 w' /\ state_ok w' e.
Proof.
  induction ts as [|t ts IH]; intros frame w b w' b' e Hf HI H; cbn [outputs] in H.
  - injection H as <- <- <-. split; [exact Hf|]. split; [apply HI|]. intros _. apply HI.
  - destruct (one_output evolve c t frame w b) as [[w1 b1] e1] eqn:E1. destruct (output_keeps _ _ _ _ _ _ _ _ Hf HI E1) as [F1 [S1 S2]].
    destruct e1 as [x|]; [injection H as <- <- <-; split; [exact F1|split; assumption]|].
    apply (IH _ _ _ _ _ _ F1) in H; [exact H|]. split; [apply S2; discriminate|exact S1].
Qed.

Lemma run_keeps w w' o : Is (if w_set_up w then w_solver w else setup (w_solver w)) -> I2 (w_sol w) ->
  run evolve setup valid c w = (w', o) -> frames_keep I2 w w' o.
Proof.
  intros HI H2 H. unfold run in H. cbv zeta in H.
  set (w1 := if w_set_up w then w else _) in H.
  assert (W1 : fine w w1 /\ w_sol w1 = w_sol w).
  { unfold w1. destruct (w_set_up w); (split; [|reflexivity]); (split; [exact HI|]); split; cbn [w_out w_frames]; auto. }
  clearbody w1. destruct W1 as [F1 E1].
  assert (D : forall v x, fine w v -> I2 (w_sol v) -> frames_keep I2 w v x).
  { intros v x (_ & B & G) V. split; [exact B|]. split; [exact G|]. intros _. exact V. }
  destruct (negb _); [injection H as <- <-; apply D; [exact F1|rewrite E1; exact H2]|].
  destruct (output_times c w1) as [[|t ts]|x]; [injection H as <- <-; apply D; [exact F1|rewrite E1; exact H2]| |injection H as <- <-; apply D; [exact F1|rewrite E1; exact H2]].
  pose proof (fine_keep w w1 F1 ltac:(rewrite E1; exact H2)) as F2.
  assert (E2 : w_sol (keep c w1) = w_sol w) by exact E1.
  destruct (c_output c && _ && _)%bool; [injection H as <- <-; apply D; [exact F2|rewrite E2; exact H2]|].
  destruct (outputs _ _ _ _ _ _) as [[w4 b] e] eqn:Eo.
  apply (outputs_keep w) in Eo.
  2:{ apply fine_F. apply fine_frame; [exact F2|]. rewrite E2. exact H2. }
  2:{ rewrite sol_F, sol_write, E2. exact H2. }
  destruct Eo as [(F4 & B4 & G4) [S1 S2]].
  destruct e as [x|].
  - injection H as <- <-. split; [exact B4|]. split; [exact G4|]. intros K. split; [apply S2; congruence|exact S1].
  - destruct b; injection H as <- <-; (split; [exact B4|]); (split; [exact G4|]); intros K; (split; [apply S2; discriminate|exact S1]).
Qed.
End Keep.

(** ** Positive steps *)
Lemma get_dt_pos {E} new t tstart tend (s : solver E) :
  (forall s, dt_variable s = true -> 0 < cfl s -> sane s -> 0 < dt (new s)) ->
  sane s -> (forall te, tend = Some te -> tstart < te /\ t < te) -> 0 < dt (get_dt new t tstart tend s).
Proof.
  intros Hn HS Ht.
  assert (Hc : 0 < dt (get_dt_choose new s)).
  { unfold get_dt_choose. destruct (dt_variable s) eqn:Ev; cbn [andb]; [|cbn; apply HS].
    destruct (match dt_old s with Some _ => true | None => false end); [|cbn; apply HS].
    destruct (qltb 0 (cfl s)) eqn:Ec.
    - apply qltb_lt in Ec. cbn. apply Hn; assumption.
    - cbn. apply HS. exact Ev. }
  unfold get_dt, get_dt_clip. destruct tend as [te|]; [|exact Hc]. destruct (Ht te eq_refl) as [H1 H2]. cbv zeta.
  assert (HR : Qred (te - t) == te - t) by apply Qred_correct.
  destruct (qltb te (t + dt (get_dt_choose new s)) && qltb tstart te)%bool; destruct (qltb _ (eps14 * t)); cbn; rewrite ?HR; lra.
Qed.
Lemma base_new_sane {E} (s : solver E) : dt_variable s = true -> 0 < cfl s -> sane s -> 0 < dt (get_dt_new s).
Proof. intros Hv Hc [H1 H2]. destruct (H2 Hv). apply base_new_pos; [|exact Hc]. repeat split; assumption. Qed.
Lemma sharp_new_sane {DQ} (s : solver DQ) : dt_variable s = true -> 0 < cfl s -> sane s -> 0 < dt (sharp_get_dt_new s).
Proof. intros Hv Hc [H1 H2]. destruct (H2 Hv). apply sharp_new_pos; [|exact Hc]. repeat split; assumption. Qed.

(** ** The classic solver *)
Lemma classic_step_keeps {DQ DX E} (Iq : DQ -> Prop) (Ix : DX -> Prop) source hyper split before cmax :
  classic_keeps Iq Ix source hyper before cmax ->
  forall tstart tend (s : solver E) so s' so', sane s /\ cfl_max s = cmax ->
  (forall te, tend = Some te -> tstart < te /\ st so < te) -> Iq (sq so) -> Ix (sx so) ->
  classic_step source hyper split tstart tend s so = (s', so') ->
  (sane (set_accept_step (accept_reject_step s') s') /\ cfl_max s' = cmax) /\ Ix (sx so') /\ (accept_reject_step s' = true -> Iq (sq so')).
Proof.
  intros (KB & KS & KH) tstart tend s so s' so' [HS HM] Ht Hq Hx H.
  destruct (classic_frame source hyper split _ _ _ _ _ _ H) as ((P1 & P2 & P3 & P4 & _) & _).
  destruct (classic_dt source hyper split _ _ _ _ _ _ H) as (Ed & _).
  pose proof (get_dt_pos get_dt_new (st so) tstart tend s base_new_sane HS Ht) as Hd.
  assert (R1 : sane (set_accept_step (accept_reject_step s') s') /\ cfl_max s' = cmax).
  { split; [|congruence]. split; cbn [set_accept_step dt dt_variable dt_max cfl_desired]; [rewrite Ed; exact Hd|]. rewrite P1, P2, P3. apply HS. }
  split; [exact R1|]. clear R1 P1 P2 P3 Ed.
  unfold classic_step in H. cbv zeta in H. set (g := get_dt get_dt_new (st so) tstart tend s) in *.
  cbn [set_cfl dt cfl] in H.
  assert (Hh : 0 < Qred (dt g / 2)) by (rewrite Qred_correct; apply Qdiv_pos; lra).
  set (so1 := match source with Some src => if (split =? 2)%Z then with_data so (src (Qred (dt g / 2)) so) else so | None => so end) in *.
  assert (S1 : Iq (sq so1) /\ Ix (sx so1)).
  { unfold so1. destruct source as [f|]; [|auto]. destruct (split =? 2)%Z; [|auto]. cbn [with_data sq sx]. apply (KS f); auto. }
  destruct S1 as [S1 S2]. destruct (KH (dt g) so1 Hd S1 S2) as [H1 H2].
  destruct (hyper (dt g) so1) as [[q2 x2] c]. cbn [fst snd] in H1, H2.
  match type of H with context [if qleb ?x ?y then _ else _] => destruct (qleb x y) eqn:Eq end.
  { injection H as <- <-. cbn [sq sx]. split; [exact H1|]. intros A. apply H2. apply accept_base in A. cbn [set_cfl cfl cfl_max] in A, P4.
    destruct (pymax_spec 0 c) as (_ & X & _). rewrite P4, HM in A. lra. }
  apply qleb_gt in Eq. cbn [set_cfl cfl cfl_max] in Eq.
  assert (Eg : cfl_max g = cmax).
  { destruct (get_dt_frame get_dt_new (st so) tstart tend s base_new_frame) as ((_ & _ & _ & X & _) & _). unfold g. congruence. }
  rewrite Eg in Eq. destruct (pymax_spec 0 c) as (_ & X & _). specialize (H2 ltac:(lra)).
  destruct source as [f|]; [|injection H as <- <-; cbn [sq sx]; auto].
  destruct (split =? 2)%Z; [|destruct (split =? 1)%Z]; injection H as <- <-; cbn [with_data sq sx]; auto.
  - destruct (KS f (Qred (dt g / 2)) (mkSol q2 x2 (st so1)) eq_refl Hh H2 H1). auto.
  - destruct (KS f (dt g) (mkSol q2 x2 (st so1)) eq_refl Hd H2 H1). auto.
Qed.

Definition sane_at {E} (cmax : Q) (s : solver E) : Prop := sane s /\ cfl_max s = cmax.
Lemma sane_at_is {E} cmax (s s' : solver E) :
  same_params s s' \/ (dt_variable s' = dt_variable s /\ dt_max s' = dt_max s /\ cfl_desired s' = cfl_desired s /\ cfl_max s' = cfl_max s) ->
  dt s' = dt s -> sane_at cmax s -> sane_at cmax s'.
Proof.
  intros H Hd [[A B] D]. assert (K : dt_variable s' = dt_variable s /\ dt_max s' = dt_max s /\ cfl_desired s' = cfl_desired s /\ cfl_max s' = cfl_max s).
  { destruct H as [(H1 & H2 & H3 & H4 & _)|H]; auto. }
  destruct K as (K1 & K2 & K3 & K4). split; [|congruence]. split; [rewrite Hd; exact A|]. rewrite K1, K2, K3. exact B.
Qed.

(** ** SharpClaw with a Runge-Kutta integrator *)
Definition sharp_at {DQ} (Ik : DQ -> Prop) (s : solver DQ) : Prop := sane s /\ (accept_step s = false -> Ik (ext s)).
Lemma sharp_at_is {DQ} (Ik : DQ -> Prop) (s s' : solver DQ) :
  same_params s s' \/ (dt_variable s' = dt_variable s /\ dt_max s' = dt_max s /\ cfl_desired s' = cfl_desired s /\ cfl_max s' = cfl_max s) ->
  dt s' = dt s -> ext s' = ext s -> accept_step s' = accept_step s -> sharp_at Ik s -> sharp_at Ik s'.
Proof.
  intros H Hd He Ha [HS B]. split.
  - destruct (sane_at_is (cfl_max s) s s' H Hd (conj HS eq_refl)) as [K _]. exact K.
  - rewrite He, Ha. exact B.
Qed.
Lemma sharp_step_keeps {DQ DX} (Iq Ik : DQ -> Prop) (Ix : DX -> Prop) slope stages before :
  sharp_keeps Iq Ik Ix slope stages before ->
  forall tstart tend (s : solver DQ) so s' so', sharp_at Ik s ->
  (forall te, tend = Some te -> tstart < te /\ st so < te) -> Iq (sq so) -> Ix (sx so) ->
  sharp_step slope stages tstart tend s so = (s', so') ->
  sharp_at Ik (set_accept_step (accept_reject_step s') s') /\ Ix (sx so') /\ (accept_reject_step s' = true -> Iq (sq so')).
Proof.
  intros (KB & KS & KT) tstart tend s so s' so' [HS HK] Ht Hq Hx H.
  destruct (sharp_frame slope stages _ _ _ _ _ _ H) as ((P1 & P2 & P3 & P4 & _) & _).
  destruct (sharp_dt slope stages _ _ _ _ _ _ H) as (s1 & P & Ed1 & _ & _ & Ed & _).
  assert (HS1 : sane s1) by (destruct (sane_at_is (cfl_max s) s s1 (or_introl P) Ed1 (conj HS eq_refl)) as [K _]; exact K).
  pose proof (get_dt_pos sharp_get_dt_new (st so) tstart tend s1 sharp_new_sane HS1 Ht) as Hd. rewrite <- Ed in Hd.
  assert (SS : sane (set_accept_step (accept_reject_step s') s')).
  { split; cbn [set_accept_step dt dt_variable dt_max cfl_desired]; [exact Hd|]. rewrite P1, P2, P3. apply HS. }
  assert (K : forall k x, Ik k -> Ix x -> forall s2, ext s2 = k ->
    (let g := get_dt sharp_get_dt_new (st so) tstart tend s2 in
     let '(q', x', c') := stages (dt g) (ext g) (mkSol (sq so) x (st so)) in
     (set_cfl (pymax (dt g / dt_old_val g * cfl g) c') (set_dt_old (Some (dt g)) (set_cfl (dt g / dt_old_val g * cfl g) g)), mkSol q' x' (st so))) = (s', so') ->
    Ik (ext s') /\ Ix (sx so') /\ Iq (sq so')).
  { intros k x Kk Kx s2 E2. cbv zeta.
    destruct (get_dt_frame sharp_get_dt_new (st so) tstart tend s2 sharp_new_frame) as (_ & _ & _ & _ & Ee).
    set (g := get_dt sharp_get_dt_new (st so) tstart tend s2) in *. intros R.
    assert (Dg : dt g = dt s') by (destruct (stages _ _ _) as [[q' x'] c']; injection R as <- _; reflexivity).
    destruct (KT (dt g) (ext g) (mkSol (sq so) x (st so)) ltac:(rewrite Dg; exact Hd) Hq Kx ltac:(rewrite Ee, E2; exact Kk)) as [T1 T2].
    destruct (stages (dt g) (ext g) (mkSol (sq so) x (st so))) as [[q' x'] c']. cbn [fst snd] in T1, T2.
    injection R as <- <-. cbn [set_cfl set_dt_old ext sx sq]. rewrite Ee, E2. auto. }
  assert (G : Ik (ext s') /\ Ix (sx so') /\ Iq (sq so')).
  { unfold sharp_step in H. destruct (accept_step s) eqn:Ea.
    - destruct (KS (dt s) so ltac:(apply HS) Hq Hx) as [S1 S2]. destruct (slope (dt s) so) as [[k x1] c]. cbn [fst snd] in S1, S2.
      apply (K k x1 S1 S2 (set_ext k (set_cfl (pymax 0 c) s)) eq_refl H).
    - apply (K (ext s) (sx so) (HK eq_refl) Hx s eq_refl). rewrite <- H. destruct so. reflexivity. }
  destruct G as (G1 & G2 & G3). split; [|split; [exact G2|intros _; exact G3]]. split; [exact SS|]. intros _. exact G1.
Qed.
