(** Proofs about the time-stepping model, part 4: fixed time steps (C05, C09) and liveness (C07). *)
From Verif Require Import Base TimeModel TimeSpec TimeProofs TimeProofs2 TimeProofs3.

Lemma qfloor_unique x z : inject_Z z <= x -> x < inject_Z z + 1 -> qfloor x = z.
Proof.
  intros H1 H2. pose proof (qfloor_le x) as L. pose proof (qfloor_lt x) as U.
  assert (inject_Z (qfloor x) < inject_Z (z + 1)).
  { rewrite inject_Z_plus. change (inject_Z 1) with 1. lra. }
  assert (inject_Z z < inject_Z (qfloor x + 1)).
  { rewrite inject_Z_plus. change (inject_Z 1) with 1. lra. }
  rewrite <- Zlt_Qlt in *. lia.
Qed.

Section Fixed.
Context {DQ DX E : Type}.
Variable src : option (Q -> sol DQ DX -> DQ * DX).
Variable hyp : Q -> sol DQ DX -> DQ * DX * Q.
Variable sp : Z.
Variable before : sol DQ DX -> DQ * DX.
Notation att := (attempt (@classic_step DQ DX E src hyp sp) accept_reject_step before).
Notation solver := (solver E).

(** One fixed step on its own. *)
Definition fstep (s : solver) (so : sol DQ DX) := att (st so) None 0 s so.

Lemma classic_step_ext tstart tend tstart' tend' (s : solver) so :
  get_dt get_dt_new (st so) tstart tend s = get_dt get_dt_new (st so) tstart' tend' s ->
  classic_step src hyp sp tstart tend s so = classic_step src hyp sp tstart' tend' s so.
Proof. intros H. unfold classic_step. rewrite H. reflexivity. Qed.

Lemma set_dt_same (s : solver) : set_dt (dt s) s = s.
Proof. destruct s; reflexivity. Qed.

Lemma get_dt_fixed (s : solver) t tstart te n N :
  dt_variable s = false -> canonical (dt s) -> 0 < dt s ->
  te == tstart + inject_Z N * dt s -> t == tstart + inject_Z n * dt s -> (0 <= n < N)%Z ->
  eps14 * te <= dt s -> tstart < te ->
  get_dt get_dt_new t tstart (Some te) s = set_dt_old (Some (dt s)) s.
Proof.
  intros Hv Hc Hd HN Hn Hr He Hst. unfold get_dt, get_dt_choose, get_dt_clip. rewrite Hv. cbn [andb].
  cbn [dt set_dt_old]. cbv zeta.
  assert (Hle : inject_Z (n + 1) <= inject_Z N) by (apply inject_Z_le; lia).
  rewrite inject_Z_plus in Hle. change (inject_Z 1) with 1 in Hle.
  assert (K : t + dt s <= te) by (rewrite HN, Hn; nra).
  destruct (qltb te (t + dt s)) eqn:E1; [qprop; lra|]. cbn [andb].
  cbn [dt set_dt_old].
  destruct (qltb (te - t - dt s) (eps14 * t)) eqn:E2; [|reflexivity]. qprop.
  assert (Hcase : (n + 1 = N \/ n + 2 <= N)%Z) by lia. destruct Hcase as [Hl|Hl].
  - assert (HQ : Qred (te - t) = dt s).
    { rewrite <- Hc. apply Qred_complete. rewrite HN, Hn, <- Hl, inject_Z_plus.
      change (inject_Z 1) with 1. ring. }
    rewrite HQ. change (dt s) with (dt (set_dt_old (Some (dt s)) s)) at 1. apply set_dt_same.
  - exfalso. assert (Hl2 : inject_Z (n + 2) <= inject_Z N) by (apply inject_Z_le; lia).
    rewrite inject_Z_plus in Hl2. change (inject_Z 2) with 2 in Hl2.
    assert (dt s <= te - t - dt s) by (rewrite HN, Hn; nra).
    assert (t <= te) by lra. assert (0 < eps14) by (unfold eps14; lra).
    assert (eps14 * t <= eps14 * te) by nra. lra.
Qed.

Lemma attempt_fixed (s : solver) so tstart te n N :
  dt_variable s = false -> canonical (dt s) -> 0 < dt s ->
  te == tstart + inject_Z N * dt s -> st so == tstart + inject_Z n * dt s -> (0 <= n < N)%Z ->
  eps14 * te <= dt s -> tstart < te ->
  att tstart (Some te) n s so = fstep s so.
Proof.
  intros Hv Hc Hd HN Hn Hr He Hst. unfold fstep, attempt.
  set (so1 := mkSol (fst (before so)) (snd (before so)) (st so)).
  assert (HG : get_dt get_dt_new (st so1) tstart (Some te) s = set_dt_old (Some (dt s)) s).
  { apply (get_dt_fixed s (st so1) tstart te n N); assumption. }
  assert (HG0 : get_dt get_dt_new (st so1) (st so) None s = set_dt_old (Some (dt s)) s).
  { unfold get_dt, get_dt_clip, get_dt_choose. rewrite Hv. reflexivity. }
  rewrite (classic_step_ext tstart (Some te) (st so) None s so1) by congruence.
  destruct (classic_step src hyp sp (st so) None s so1) as [s1 so2] eqn:Hs.
  destruct (classic_frame _ _ _ _ _ _ _ _ _ Hs) as ((P1 & _) & _ & _ & _).
  destruct (classic_dt _ _ _ _ _ _ _ _ _ Hs) as (Hdt & _). rewrite HG0 in Hdt. simpl in Hdt.
  simpl. rewrite P1, Hv.
  destruct (accept_reject_step s1); [|reflexivity].
  assert (Qred (tstart + inject_Z (n + 1) * dt s1) = Qred (st so + inject_Z 1 * dt s1)) as ->; [|reflexivity].
  apply Qred_complete. rewrite Hn, inject_Z_plus, Hdt. change (inject_Z 1) with 1. ring.
Qed.

(** [k] fixed steps, stopping at a CFL failure. The history is newest first. *)
Fixpoint fiter (k : nat) (s : solver) (so : sol DQ DX) (tr : list (event DQ DX))
  : solver * sol DQ DX * list (event DQ DX) * option err :=
  match k with
  | O => (s, so, tr, None)
  | S k => let '(s', so', ev, e) := fstep s so in
           match e with
           | Some e => (s', so', ev :: tr, Some e)
           | None => fiter k s' so' (ev :: tr)
           end
  end.

(** What one fixed step does. *)
Lemma fstep_inv (s : solver) so s' so' ev e :
  dt_variable s = false -> fstep s so = (s', so', ev, e) ->
  same_params s s' /\ dt s' = dt s /\ ev_dt ev = dt s /\ ev_before ev = so /\ ev_after ev = so' /\
  ((e = None /\ ev_accepted ev = true /\ ev_cfl ev <= cfl_max s /\
    st so' = Qred (st so + inject_Z 1 * dt s)) \/
   (e = Some ECflTooLarge /\ ev_accepted ev = false /\ cfl_max s < ev_cfl ev /\ st so' = st so)).
Proof.
  intros Hv Hf. unfold fstep in Hf.
  destruct (attempt_inv _ _ _ (classic_frame src hyp sp) _ _ _ _ _ _ _ _ _ Hf)
    as (s2 & so2 & Hs & Hp1 & Hp2 & Htt & Hdt & Hcfl & Hdo & _ & _ & _ & Hb & Haf & Hed & Hec & Hea & Hacs & Hcase).
  destruct (classic_dt _ _ _ _ _ _ _ _ _ Hs) as (Hd2 & _).
  assert (HG0 : dt s2 = dt s).
  { rewrite Hd2. unfold get_dt, get_dt_clip, get_dt_choose. rewrite Hv. reflexivity. }
  split; [assumption|]. split; [congruence|]. split; [congruence|]. split; [assumption|].
  split; [assumption|].
  assert (Hm : cfl_max s2 = cfl_max s) by apply Hp1.
  destruct Hcase as [(Hc & -> & _ & _ & Hso)|[(Hc & Hx & _)|(Hc & _ & -> & _ & _ & Hso)]].
  - left. rewrite Hea, Hec. split; [reflexivity|]. split; [assumption|].
    apply accept_base in Hc. rewrite Hm in Hc. split; [assumption|].
    rewrite Hso, Hv. cbn [st]. rewrite HG0. reflexivity.
  - congruence.
  - right. rewrite Hea, Hec. split; [reflexivity|]. split; [assumption|].
    apply reject_base in Hc. rewrite Hm in Hc. split; [assumption|]. congruence.
Qed.

Lemma loop_fixed tstart te N : forall k n (s : solver) so num tr s' so' num' tr' e,
  dt_variable s = false -> canonical (dt s) -> 0 < dt s ->
  te == tstart + inject_Z N * dt s -> st so == tstart + inject_Z n * dt s ->
  (0 <= n)%Z -> (n + Z.of_nat k = N)%Z ->
  eps14 * te <= dt s -> tstart < te ->
  evolve_loop (classic_step src hyp sp) accept_reject_step before k n tstart (Some te) s so num tr
    = (s', so', num', tr', e) ->
  fiter k s so tr = (s', so', tr', e).
Proof.
  induction k as [|k IH]; intros n s so num tr s' so' num' tr' e Hv Hc Hd HN Hn Hn0 Hk He Hst Hl;
    cbn [evolve_loop fiter] in *.
  - inversion Hl; subst. reflexivity.
  - rewrite (attempt_fixed s so tstart te n N) in Hl by (try assumption; lia).
    destruct (fstep s so) as [[[s1 so1] ev] e1] eqn:Hf.
    destruct e1 as [x|]; [inversion Hl; subst; reflexivity|].
    destruct (fstep_inv _ _ _ _ _ _ Hv Hf) as ((P1 & _) & Hdt & _ & _ & _ & [(_ & _ & _ & Ht)|(Hx & _)]);
      [|discriminate].
    assert (Ht' : st so1 == tstart + inject_Z (n + 1) * dt s1).
    { rewrite Ht, Qred_correct, Hn, Hdt, inject_Z_plus. ring. }
    destruct (finished (Some te) so1) eqn:Hfin.
    + unfold finished in Hfin. qprop.
      assert (k = 0)%nat as ->.
      { destruct k as [|k]; [reflexivity|]. exfalso.
        assert (inject_Z (n + 2) <= inject_Z N) as H2 by (apply inject_Z_le; lia).
        rewrite inject_Z_plus in H2. change (inject_Z 2) with 2 in H2.
        rewrite HN, Ht', inject_Z_plus, Hdt in Hfin.
        change (inject_Z 1) with 1 in Hfin. nra. }
      inversion Hl; subst. reflexivity.
    + eapply (IH (n + 1)%Z s1 so1); try eassumption; try congruence; try lia; try (rewrite Hdt; assumption).
Qed.

Lemma fixed_setup (s : solver) tstart te N :
  dt_variable s = false -> tol10 < dt s -> te == tstart + inject_Z N * dt s -> (1 <= N)%Z ->
  evolve_setup tstart (Some te) s = (set_max_steps N s, None) /\ tstart < te.
Proof.
  intros Hv Hd HN HN1.
  assert (T : 0 < tol10) by (unfold tol10; lra).
  assert (Hm : qtrunc ((te - tstart + tol10) / dt s) = N).
  { assert (HE : (te - tstart + tol10) / dt s == inject_Z N + tol10 / dt s).
    { rewrite HN. field. lra. }
    assert (0 < tol10 / dt s) by (apply Qdiv_pos; lra).
    assert (tol10 / dt s < 1) by (apply Qlt_shift_div_r; lra).
    assert (1 <= inject_Z N) by (change 1 with (inject_Z 1); apply inject_Z_le; lia).
    rewrite qtrunc_floor by (rewrite HE; lra).
    apply qfloor_unique; rewrite HE; lra. }
  assert (HI : 1 <= inject_Z N) by (change 1 with (inject_Z 1); apply inject_Z_le; lia).
  assert (Hlt : tstart < te) by (rewrite HN; nra).
  split; [|assumption].
  unfold evolve_setup. rewrite Hv.
  destruct (qeqb (dt s) 0) eqn:E0; [qprop; lra|]. cbv zeta. rewrite Hm.
  destruct (qltb _ _) eqn:E1.
  - exfalso. qprop.
    assert (HZ : inject_Z N * dt s - (te - tstart) == 0) by (rewrite HN; ring).
    rewrite HZ in E1. change (Qabs 0) with 0 in E1. unfold tol5 in E1. lra.
  - cbn [dt_variable set_max_steps]. rewrite Hv. cbn [andb].
    destruct (qleb te tstart) eqn:E2; [qprop; lra|]. reflexivity.
Qed.

(** A fixed-step run over N steps is N single steps. *)
Lemma evolve_fixed (s : solver) so te N :
  dt_variable s = false -> canonical (dt s) -> tol10 < dt s ->
  te == st so + inject_Z N * dt s -> (1 <= N)%Z -> eps14 * te <= dt s ->
  exists s' so' tr e,
    fiter (Z.to_nat N) (set_max_steps N s) so [] = (s', so', tr, e) /\
    classic_evolve src hyp sp before s so (Some te) = mkResult s' so' (rev tr) e.
Proof.
  intros Hv Hc Hd HN HN1 He.
  destruct (fixed_setup s (st so) te N Hv Hd HN HN1) as [Hset Hlt].
  assert (T : 0 < tol10) by (unfold tol10; lra).
  unfold classic_evolve, evolve_to_time. cbv zeta. rewrite Hset.
  cbn [max_steps set_max_steps].
  destruct (evolve_loop _ _ _ (Z.to_nat N) 0 (st so) (Some te) (set_max_steps N s) so 0 [])
    as [[[[s2 so2] num] tr] e2] eqn:Hl.
  assert (HF : fiter (Z.to_nat N) (set_max_steps N s) so [] = (s2, so2, tr, e2)).
  { refine (loop_fixed (st so) te N _ 0 _ _ _ _ _ _ _ _ _ _ _ _ _ _ _ _ _ _ Hl); simpl; try assumption; try lra; try lia.
    change (inject_Z 0) with 0. lra. }
  exists s2, so2, tr, e2. split; [assumption|].
  destruct e2 as [x|]; [reflexivity|].
  destruct (dt_variable s2 && _ && _)%bool eqn:Et; [|reflexivity].
  exfalso. assert (Hv2 : dt_variable s2 = false).
  { clear - HF Hv. revert HF. generalize (Z.to_nat N) (@nil (event DQ DX)).
    assert (Hv' : dt_variable (set_max_steps N s) = false) by assumption.
    revert Hv'. generalize (set_max_steps N s). clear Hv. intros s0 Hv k.
    revert s0 so Hv. induction k as [|k IH]; intros s0 so Hv tr0 HF; cbn [fiter] in HF.
    - inversion HF; subst. assumption.
    - destruct (fstep s0 so) as [[[s1 so1] ev] e1] eqn:Hf. destruct e1; [discriminate|].
      destruct (fstep_inv _ _ _ _ _ _ Hv Hf) as ((P1 & _) & _).
      apply (IH s1 so1) in HF; congruence. }
  rewrite Hv2 in Et. discriminate.
Qed.

Lemma fiter_tr k : forall s so tr,
  fiter k s so tr = let '(s', so', tr', e) := fiter k s so [] in (s', so', tr' ++ tr, e).
Proof.
  induction k as [|k IH]; intros s so tr; cbn [fiter]; [reflexivity|].
  destruct (fstep s so) as [[[s1 so1] ev] [x|]]; [reflexivity|].
  rewrite IH. rewrite (IH _ _ [ev]).
  destruct (fiter k s1 so1 []) as [[[s2 so2] tr2] e2]. rewrite <- app_assoc. reflexivity.
Qed.

Lemma fiter_app a b : forall s so tr,
  fiter (a + b) s so tr =
  let '(s', so', tr', e) := fiter a s so tr in
  match e with Some x => (s', so', tr', Some x) | None => fiter b s' so' tr' end.
Proof.
  induction a as [|a IH]; intros s so tr; cbn [fiter Nat.add]; [reflexivity|].
  destruct (fstep s so) as [[[s1 so1] ev] [x|]]; [reflexivity|]. apply IH.
Qed.

Lemma fstep_max m s so :
  fstep (set_max_steps m s) so = let '(s', so', ev, e) := fstep s so in (set_max_steps m s', so', ev, e).
Proof.
  unfold fstep, attempt.
  assert (HS : forall so1, classic_step src hyp sp (st so) None (set_max_steps m s) so1 =
     let '(s', so') := classic_step src hyp sp (st so) None s so1 in (set_max_steps m s', so')).
  { intros so1. unfold classic_step.
    assert (HG : get_dt get_dt_new (st so1) (st so) None (set_max_steps m s)
               = set_max_steps m (get_dt get_dt_new (st so1) (st so) None s)).
    { unfold get_dt, get_dt_clip, get_dt_choose. simpl. destruct (dt_variable s && _)%bool; [|reflexivity].
      destruct (qltb 0 (cfl s)); reflexivity. }
    rewrite HG. set (g := get_dt _ _ _ _ _). simpl.
    match goal with |- context [hyp ?a ?b] => destruct (hyp a b) as [[q2 x2] c] end.
    destruct (qleb _ _); [reflexivity|].
    destruct src; [|reflexivity]. destruct (sp =? 2)%Z; [reflexivity|]. destruct (sp =? 1)%Z; reflexivity. }
  rewrite HS. destruct (classic_step _ _ _ _ _ s _) as [s1 so1]. simpl.
  change (accept_reject_step (set_max_steps m s1)) with (accept_reject_step s1).
  destruct (accept_reject_step s1); [reflexivity|]. destruct (dt_variable s1); reflexivity.
Qed.

Lemma fiter_max m k : forall s so tr,
  fiter k (set_max_steps m s) so tr =
  let '(s', so', tr', e) := fiter k s so tr in (set_max_steps m s', so', tr', e).
Proof.
  induction k as [|k IH]; intros s so tr; cbn [fiter]; [reflexivity|].
  rewrite fstep_max. destruct (fstep s so) as [[[s1 so1] ev] [x|]]; [reflexivity|]. apply IH.
Qed.

(** Everything a run of [k] fixed steps guarantees. *)
Lemma fiter_spec k : forall s so s' so' tr e,
  dt_variable s = false -> fiter k s so [] = (s', so', tr, e) ->
  same_params s s' /\ dt s' = dt s /\ chained so (rev tr) so' /\ (canonical (st so) -> canonical (st so')) /\
  (forall i ev, nth_error (rev tr) i = Some ev ->
     ev_dt ev = dt s /\ st (ev_before ev) == st so + inject_Z (Z.of_nat i) * dt s /\
     (ev_accepted ev = true ->
        st (ev_after ev) == st so + inject_Z (Z.of_nat i + 1) * dt s /\ ev_cfl ev <= cfl_max s)) /\
  ((e = None /\ length tr = k /\ (forall ev, In ev tr -> ev_accepted ev = true) /\
    st so' == st so + inject_Z (Z.of_nat k) * dt s) \/
   (e = Some ECflTooLarge /\ (length tr <= k)%nat /\
    exists ev tl, tr = ev :: tl /\ ev_accepted ev = false /\ cfl_max s < ev_cfl ev /\
      (forall ev, In ev tl -> ev_accepted ev = true))).
Proof.
  induction k as [|k IH]; intros s so s' so' tr e Hv HF; cbn [fiter] in HF.
  - inversion HF; subst. split; [apply same_params_refl|]. split; [reflexivity|].
    split; [reflexivity|]. split; [auto|]. split.
    + intros i ev H. destruct i; discriminate.
    + left. repeat split; auto; try contradiction. change (inject_Z (Z.of_nat 0)) with 0. lra.
  - destruct (fstep s so) as [[[s1 so1] ev] e1] eqn:Hf.
    destruct (fstep_inv _ _ _ _ _ _ Hv Hf) as (Hp & Hd & Hed & Hb & Haf & Hcase).
    destruct Hcase as [(-> & Hacc & Hcf & Ht)|(-> & Hacc & Hcf & Ht)].
    + rewrite fiter_tr in HF. destruct (fiter k s1 so1 []) as [[[s2 so2] tr2] e2] eqn:HF2.
      inversion HF; subst; clear HF.
      assert (Hv1 : dt_variable s1 = false) by (rewrite <- Hv; apply Hp).
      destruct (IH _ _ _ _ _ _ Hv1 HF2) as (I1 & I2 & I3 & I4 & I5 & I6).
      assert (Ht' : st (ev_after ev) == st (ev_before ev) + dt s).
      { rewrite Ht, Qred_correct. change (inject_Z 1) with 1. ring. }
      assert (Hcm : cfl_max s1 = cfl_max s) by apply Hp.
      split; [exact (same_params_trans _ _ _ Hp I1)|]. split; [congruence|].
      split; [rewrite rev_app_distr; cbn; auto|].
      split; [intros _; apply I4; unfold canonical; rewrite Ht; apply Qred_complete; apply Qred_correct|].
      split.
      * intros i ev0. rewrite rev_app_distr. cbn [rev app]. destruct i as [|i]; cbn [nth_error].
        -- intros H. inversion H; subst ev0. split; [assumption|].
           change (inject_Z (Z.of_nat 0)) with 0. change (inject_Z (Z.of_nat 0 + 1)) with 1.
           split; [lra|]. intros _. split; [lra|assumption].
        -- intros H. destruct (I5 _ _ H) as (J1 & J2 & J3). split; [congruence|].
           rewrite Nat2Z.inj_succ. unfold Z.succ.
           split; [rewrite J2, Hd, Ht', inject_Z_plus; change (inject_Z 1) with 1; ring|].
           intros Ha. destruct (J3 Ha) as [J4 J5]. rewrite Hcm in J5. split; [|assumption].
           rewrite J4, Hd, Ht', !inject_Z_plus. change (inject_Z 1) with 1. ring.
      * destruct I6 as [(-> & L & A & T)|(-> & L & (ev0 & tl & -> & A1 & A2 & A3))].
        -- left. split; [reflexivity|]. split; [rewrite app_length; cbn; lia|].
           split.
           ++ intros ev0 Hin. apply in_app_or in Hin. destruct Hin as [Hin|[<-|[]]]; auto.
           ++ rewrite T, Hd, Ht', Nat2Z.inj_succ. unfold Z.succ. rewrite inject_Z_plus.
              change (inject_Z 1) with 1. ring.
        -- right. split; [reflexivity|]. split; [rewrite app_length; cbn in *; lia|].
           exists ev0, (tl ++ [ev]). split; [reflexivity|]. split; [assumption|].
           split; [congruence|].
           intros ev1 Hin. apply in_app_or in Hin. destruct Hin as [Hin|[<-|[]]]; auto.
    + inversion HF; subst; clear HF. split; [assumption|]. split; [assumption|].
      split; [cbn; auto|]. split; [unfold canonical; congruence|].
      split.
      * intros i ev0. cbn [rev app]. destruct i as [|i]; cbn [nth_error].
        -- intros H. inversion H; subst ev0. split; [assumption|].
           change (inject_Z (Z.of_nat 0)) with 0. split; [lra|]. congruence.
        -- destruct i; discriminate.
      * right. split; [reflexivity|]. split; [cbn; lia|]. exists ev, []. repeat split; auto.
Qed.

End Fixed.

(** *** C07: liveness *)
Section Live.
Context {DQ DX E : Type}.
Variable src : option (Q -> sol DQ DX -> DQ * DX).
Variable hyp : Q -> sol DQ DX -> DQ * DX * Q.
Variable sp : Z.
Variable before : sol DQ DX -> DQ * DX.
Variable rate : Q -> DQ -> Q.
Variable R : Q.
Hypothesis HR0 : 0 < R.
Hypothesis Hrate : forall t q, 0 <= rate t q <= R.
Hypothesis Hcour : forall d so, 0 < d ->
  attempt_courant src hyp sp before d so == d * rate (st so) (sq so).
Notation att := (attempt (@classic_step DQ DX E src hyp sp) accept_reject_step before).
Notation solver := (solver E).

Lemma classic_cfl tstart tend (s : solver) so s' so' :
  classic_step src hyp sp tstart tend s (apply_before before so) = (s', so') ->
  0 < dt s' ->
  cfl s' == dt s' * rate (st so) (sq so).
Proof.
  intros Hs Hd. destruct (classic_dt _ _ _ _ _ _ _ _ _ Hs) as (Hdt & _).
  specialize (Hcour (dt s') so Hd). unfold attempt_courant in Hcour.
  rewrite Hdt in Hcour. rewrite Hdt. rewrite Hdt in Hd.
  unfold classic_step in Hs. cbv zeta in Hs. unfold with_data in Hs.
  unfold apply_source in Hcour.
  set (g := get_dt get_dt_new _ tstart tend s) in *.
  cbn [dt set_cfl] in Hs.
  assert (Hr : 0 <= rate (st so) (sq so)) by apply Hrate.
  match type of Hs with context [hyp (dt g) ?b] => set (soh := b) in * end.
  assert (Hc : snd (hyp (dt g) soh) == dt g * rate (st so) (sq so)) by exact Hcour.
  destruct (hyp (dt g) soh) as [[q2 x2] c]. cbn [snd] in Hc.
  assert (Hcfl : cfl s' = pymax 0 c).
  { destruct (qleb _ _); [inversion Hs; reflexivity|].
    destruct src; [destruct (sp =? 2)%Z; [|destruct (sp =? 1)%Z]|]; inversion Hs; reflexivity. }
  rewrite Hcfl. unfold pymax. qcase_lt 0 c Hlt; [assumption|]. nra.
Qed.

Variable s0 : solver.
Hypothesis Hv : dt_variable s0 = true.
Hypothesis Hcd : 0 < cfl_desired s0.
Hypothesis Hmax : 0 < dt_max s0.
Variable te : Q.
Hypothesis Hcm : cfl_desired s0 <= cfl_max s0.
Hypothesis Hslack : cfl_desired s0 + eps14 * te * R <= cfl_max s0.
(** every step after the first is at least this long, unless it reaches the end *)
Variable d : Q.
Hypothesis Hd0 : 0 < d.
Hypothesis Hd1 : d <= dt_max s0.
Hypothesis Hd2 : d * R <= cfl_desired s0.

Definition settled (s : solver) (so : sol DQ DX) : Prop :=
  dt_old s <> None /\ exists t q, cfl s == dt s * rate t q.
Definition rejected_at (s : solver) (so : sol DQ DX) : Prop :=
  dt_old s <> None /\ cfl s == dt s * rate (st so) (sq so) /\ cfl_max s < cfl s.

Lemma choose_ge (s : solver) so : Good s -> same_params s0 s -> settled s so ->
  d <= dt (get_dt_choose get_dt_new s).
Proof.
  intros HG (P1 & P2 & P3 & P4 & P5) (Ho & t & q & Hc).
  unfold get_dt_choose. rewrite P1, Hv. destruct (dt_old s); [|congruence]. cbn [andb].
  destruct (qltb 0 (cfl s)) eqn:Ec; cbn [dt set_st_dt set_dt]; [|rewrite P2; assumption].
  qprop. unfold get_dt_new. cbn [dt set_dt]. rewrite P2, P3.
  assert (Hr := Hrate t q). destruct HG as (_ & Hdt & _).
  pose proof (Qred_correct (dt s * cfl_desired s0 / cfl s)) as HQ.
  assert (Hge : d <= dt s * cfl_desired s0 / cfl s).
  { apply Qle_shift_div_l; [assumption|]. rewrite Hc.
    assert (dt s * (d * rate t q) <= dt s * cfl_desired s0).
    { assert (d * rate t q <= d * R) by nra. nra. }
    lra. }
  destruct (pymin_spec (dt_max s0) (Qred (dt s * cfl_desired s0 / cfl s))) as (_ & _ & [->| ->]); lra.
Qed.

Lemma get_dt_ge (s : solver) so tstart : Good s -> same_params s0 s -> settled s so ->
  tstart < te -> st so < te ->
  let d' := dt (get_dt get_dt_new (st so) tstart (Some te) s) in d <= d' \/ d' == te - st so.
Proof.
  intros HG HP HS H1 H2. cbv zeta.
  pose proof (get_dt_value get_dt_new (st so) tstart te s H1) as HV. cbv zeta in HV.
  pose proof (choose_ge s so HG HP HS) as HC.
  destruct HV as [[-> _]|[[H3 _]|[H3 _]]]; auto.
Qed.

(** the retry after a rejection is accepted *)
Lemma retry_accepted (s : solver) so tstart s' so' : Good s -> same_params s0 s -> rejected_at s so ->
  tstart < te -> st so < te ->
  classic_step src hyp sp tstart (Some te) s (apply_before before so) = (s', so') ->
  accept_reject_step s' = true.
Proof.
  intros HG HP (Ho & Hc & Hrej) Hst Ht Hs.
  destruct (classic_honours _ _ _ _ _ _ (apply_before before so) _ _ HG Hst Ht Hs) as [Hpos _].
  pose proof (classic_cfl _ _ _ _ _ _ Hs Hpos) as Hcf.
  destruct (classic_frame _ _ _ _ _ _ _ _ _ Hs) as (HP' & _).
  destruct (classic_dt _ _ _ _ _ _ _ _ _ Hs) as (Hdt & _).
  apply accept_base. destruct HP as (P1 & P2 & P3 & P4 & P5).
  assert (Hm : cfl_max s' = cfl_max s0) by (rewrite <- P4; apply HP').
  rewrite Hm, Hcf. rewrite P4 in Hrej.
  assert (Hr := Hrate (st so) (sq so)). set (rr := rate (st so) (sq so)) in *.
  assert (Hcpos : 0 < cfl s) by lra.
  pose proof (get_dt_retry get_dt_new base_new_bound (st so) tstart te s
     ltac:(rewrite P1; exact Hv) Ho Hcpos Hst) as HB.
  cbn [apply_before st] in Hdt. rewrite <- Hdt in HB. rewrite P3 in HB.
  unfold retry_bound in HB.
  assert (Hdtp : 0 < dt s) by apply HG.
  assert (Hrp : 0 < rr). { destruct (Qlt_le_dec 0 rr); [assumption|]. exfalso. nra. }
  assert (HE : dt s * cfl_desired s0 / cfl s == cfl_desired s0 / rr).
  { rewrite Hc. field. split; lra. }
  rewrite HE in HB.
  assert (HM : cfl_desired s0 / rr * rr == cfl_desired s0) by (field; lra).
  destruct HB as [HB|[HB1 HB2]].
  - assert (dt s' * rr <= cfl_desired s0 / rr * rr) by nra. lra.
  - assert (Hb : dt s' <= cfl_desired s0 / rr + eps14 * st so) by lra.
    assert (Hb2 : dt s' * rr <= cfl_desired s0 + eps14 * st so * rr).
    { assert (dt s' * rr <= (cfl_desired s0 / rr + eps14 * st so) * rr) by nra.
      lra. }
    assert (He : 0 < eps14) by (unfold eps14; lra).
    destruct (Qlt_le_dec (st so) 0) as [Hneg|Hnn].
    + assert (eps14 * st so <= 0) by nra. assert (eps14 * st so * rr <= 0) by nra. lra.
    + assert (0 <= eps14 * st so) by nra.
      assert (eps14 * st so <= eps14 * te) by nra.
      assert (eps14 * st so * rr <= eps14 * te * R) by nra. lra.
Qed.

(** After any attempt the solver is settled; after a rejection it is [rejected_at]. *)
Lemma attempt_settled tstart n (s : solver) so s' so' ev e :
  Good s -> same_params s0 s -> tstart < te -> st so < te ->
  att tstart (Some te) n s so = (s', so', ev, e) ->
  Good s' /\ same_params s0 s' /\ e = None /\ 0 < dt s' /\
  ((ev_accepted ev = true /\ settled s' so' /\ st so' == st so + dt s') \/
   (ev_accepted ev = false /\ rejected_at s' so' /\ settled s' so' /\ st so' = st so /\ sq so' = sq so)).
Proof.
  intros HG HP Hst Ht Ha.
  destruct (attempt_inv _ _ _ (classic_frame src hyp sp) _ _ _ _ _ _ _ _ _ Ha)
    as (s2 & so2 & Hs & Hp1 & Hp2 & Htt & Hdt & Hcfl & Hdo & _ & _ & _ & Hb & Haf & Hed & Hec & Hea & Hacs & Hcase).
  change (mkSol (fst (before so)) (snd (before so)) (st so)) with (apply_before before so) in Hs.
  destruct (classic_honours _ _ _ _ _ _ (apply_before before so) _ _ HG Hst Ht Hs) as [Hpos _].
  pose proof (classic_cfl _ _ _ _ _ _ Hs Hpos) as Hcf.
  pose proof (classic_old _ _ _ _ _ _ _ _ _ Hs) as Hold.
  assert (HG' : Good s') by (eapply Good_same; [exact HG|exact Hp2|rewrite Hdt; assumption]).
  assert (Hvs : dt_variable s = true) by apply HG.
  split; [assumption|]. split; [exact (same_params_trans _ _ _ HP Hp2)|].
  rewrite Hvs in Hcase. rewrite <- Hdt in Hpos, Hcf. rewrite <- Hcfl in Hcf. rewrite <- Hdo in Hold.
  destruct Hcase as [(Hc & -> & _ & _ & Hso)|[(Hc & _ & -> & _ & _ & Hso)|(_ & Hx & _)]]; [| |congruence].
  - split; [reflexivity|]. split; [assumption|]. left. rewrite Hea. split; [assumption|].
    split; [split; eauto|]. rewrite Hso. cbn [st]. rewrite Qred_correct, Hdt. lra.
  - split; [reflexivity|]. split; [assumption|]. right. rewrite Hea. split; [assumption|].
    assert (Hsq : st so' = st so /\ sq so' = sq so) by (rewrite Hso; auto).
    destruct Hsq as [H1 H2].
    split; [|split; [split; eauto|auto]].
    split; [assumption|]. rewrite H1, H2. split; [assumption|].
    apply reject_base in Hc. rewrite Hcfl.
    destruct Hp1 as (_ & _ & _ & M1 & _), Hp2 as (_ & _ & _ & M2 & _). rewrite M2, <- M1. assumption.
Qed.

Lemma attempt_dt tstart n (s : solver) so s' so' ev e :
  att tstart (Some te) n s so = (s', so', ev, e) ->
  dt s' = dt (get_dt get_dt_new (st so) tstart (Some te) s).
Proof.
  intros Ha.
  destruct (attempt_inv _ _ _ (classic_frame src hyp sp) _ _ _ _ _ _ _ _ _ Ha)
    as (s2 & so2 & Hs & Hp1 & Hp2 & Htt & Hdt & _).
  destruct (classic_dt _ _ _ _ _ _ _ _ _ Hs) as (Hd & _). rewrite Hdt. exact Hd.
Qed.

Lemma live_loop tstart : tstart < te -> forall k m n (s : solver) so num tr s' so' num' tr' e,
  Good s -> same_params s0 s -> st so < te ->
  evolve_loop (classic_step src hyp sp) accept_reject_step before k n tstart (Some te) s so num tr
    = (s', so', num', tr', e) ->
  ((settled s so /\ te - st so <= inject_Z (Z.of_nat m) * d /\ (2 * m <= k)%nat) \/
   (rejected_at s so /\ settled s so /\ te - st so <= inject_Z (Z.of_nat m) * d /\ (2 * m <= k + 1)%nat) \/
   (te - st so <= inject_Z (Z.of_nat m) * d /\ (2 * m + 1 <= k)%nat)) ->
  te <= st so' /\ e = None.
Proof.
  intros Hst k. induction k as [|k IH]; intros m n s so num tr s' so' num' tr' e HG HP Ht Hl HC.
  - exfalso. assert (m = 0)%nat as -> by lia.
    change (inject_Z (Z.of_nat 0)) with 0 in HC.
    destruct HC as [(_ & H & _)|[(_ & _ & H & _)|(H & _)]]; lra.
  - cbn [evolve_loop] in Hl.
    destruct (att tstart (Some te) n s so) as [[[s1 so1] ev] e1] eqn:Ha.
    destruct (attempt_settled _ _ _ _ _ _ _ _ HG HP Hst Ht Ha) as (HG1 & HP1 & -> & Hpos & Hcase).
    pose proof (attempt_dt _ _ _ _ _ _ _ _ Ha) as Hdt.
    destruct (finished (Some te) so1) eqn:Hf.
    { inversion Hl; subst. unfold finished in Hf. qprop. auto. }
    unfold finished in Hf. qprop.
    assert (Hm0 : (m <> 0)%nat).
    { intros ->. change (inject_Z (Z.of_nat 0)) with 0 in HC.
      destruct HC as [(_ & H & _)|[(_ & _ & H & _)|(H & _)]]; lra. }
    assert (Hdec : settled s so -> st so1 == st so + dt s1 ->
              te - st so <= inject_Z (Z.of_nat m) * d ->
              te - st so1 <= inject_Z (Z.of_nat (m - 1)) * d).
    { intros HS Ht1 Hle. pose proof (get_dt_ge s so tstart HG HP HS Hst Ht) as HD. cbv zeta in HD.
      rewrite <- Hdt in HD. destruct HD as [HD|HD]; [|exfalso; lra].
      replace (Z.of_nat (m - 1)) with (Z.of_nat m - 1)%Z by lia.
      unfold Z.sub. rewrite inject_Z_plus. change (inject_Z (- (1))) with (-(1)). lra. }
    destruct HC as [(HS & Hle & Hk)|[(HRj & HS & Hle & Hk)|(Hle & Hk)]].
    + destruct Hcase as [(Hacc & HS1 & Ht1)|(Hacc & HR1 & HS1 & Ht1 & Hq1)].
      * apply (IH (m - 1)%nat _ _ _ _ _ _ _ _ _ _ HG1 HP1 Hf Hl).
        left. split; [assumption|]. split; [auto|lia].
      * apply (IH m _ _ _ _ _ _ _ _ _ _ HG1 HP1 Hf Hl).
        right. left. split; [assumption|]. split; [assumption|]. rewrite Ht1. split; [assumption|lia].
    + destruct Hcase as [(Hacc & HS1 & Ht1)|(Hacc & HR1 & HS1 & Ht1 & Hq1)].
      * apply (IH (m - 1)%nat _ _ _ _ _ _ _ _ _ _ HG1 HP1 Hf Hl).
        left. split; [assumption|]. split; [auto|lia].
      * exfalso.
        destruct (attempt_inv _ _ _ (classic_frame src hyp sp) _ _ _ _ _ _ _ _ _ Ha)
          as (s2 & so2 & Hs & _ & _ & _ & _ & _ & _ & _ & _ & _ & _ & _ & _ & _ & Hea & _).
        rewrite Hacc in Hea.
        pose proof (retry_accepted _ _ _ _ _ HG HP HRj Hst Ht Hs). congruence.
    + destruct Hcase as [(Hacc & HS1 & Ht1)|(Hacc & HR1 & HS1 & Ht1 & Hq1)].
      * apply (IH m _ _ _ _ _ _ _ _ _ _ HG1 HP1 Hf Hl).
        left. split; [assumption|]. split; [lra|lia].
      * apply (IH m _ _ _ _ _ _ _ _ _ _ HG1 HP1 Hf Hl).
        right. left. split; [assumption|]. split; [assumption|]. rewrite Ht1. split; [assumption|lia].
Qed.

Lemma live (so : sol DQ DX) r m :
  0 < dt s0 -> te - st so <= inject_Z (Z.of_nat m) * d -> (2 * Z.of_nat m + 1 <= max_steps s0)%Z ->
  st so < te ->
  classic_evolve src hyp sp before s0 so (Some te) = r ->
  r_err r = None /\ st (r_sol r) == te.
Proof.
  intros Hdt Hm Hk Ht Hr.
  assert (HG : Good s0) by (repeat split; assumption).
  assert (Hle : st so <= te) by lra.
  destruct (evolve_variable _ _ _ (classic_frame src hyp sp) (classic_honours src hyp sp)
              s0 so te r HG Hle Hr) as (Hb & _).
  assert (HX : te <= st (r_sol r) /\ r_err r = None); [|destruct HX; split; [assumption|lra]].
  clear Hb. subst r. unfold classic_evolve, evolve_to_time. cbv zeta.
  destruct (evolve_setup (st so) (Some te) s0) as [s1 [e|]] eqn:Hset.
  - destruct (setup_err _ _ _ _ _ Hset Hv) as [-> ->]. exfalso.
    unfold evolve_setup in Hset. rewrite Hv in Hset. rewrite Hv in Hset. cbn [andb] in Hset.
    destruct (qltb (cfl_max s0) (cfl_desired s0)) eqn:Eq; [qprop; lra|].
    destruct (qleb te (st so)); discriminate.
  - destruct (setup_inv _ _ _ _ Hset Hv) as [_ Hs1].
    destruct (qleb te (st so)) eqn:Ete; [qprop; lra|]. subst s1.
    destruct (evolve_loop _ _ _ _ 0 (st so) (Some te) s0 so 0 []) as [[[[s2 so2] num] tr] e2] eqn:Hl.
    destruct (live_loop (st so) Ht _ m _ _ _ _ _ _ _ _ _ _ HG (same_params_refl s0) Ht Hl) as [H1 H2].
    { right. right. split; [assumption|lia]. }
    subst e2. cbn [r_err r_sol]. split; [assumption|].
    destruct (qltb (st so2) te) eqn:Eq; [qprop; lra|]. rewrite andb_false_r. reflexivity.
Qed.
End Live.
