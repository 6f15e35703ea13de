(** Proofs about the time-stepping model, part 5: status['dtmin'] and status['dtmax'] (C10). *)
From Verif Require Import Base TimeModel TimeSpec TimeProofs TimeProofs2 TimeProofs3.

Lemma get_dt_status {E} t tstart tend (s : solver E) :
  let s' := get_dt get_dt_new t tstart tend s in
  (dt_variable s = true -> dt_old s <> None -> 0 < cfl s ->
     st_dtmin s' = omin (dt (get_dt_new s)) (st_dtmin s) /\
     st_dtmax s' = omax (dt (get_dt_new s)) (st_dtmax s)) /\
  ((st_dtmin s' = st_dtmin s /\ st_dtmax s' = st_dtmax s) \/
   exists d, st_dtmin s' = omin d (st_dtmin s) /\ st_dtmax s' = omax d (st_dtmax s)).
Proof.
  cbv zeta. unfold get_dt.
  assert (Hclip : forall c : solver E, st_dtmin (get_dt_clip t tstart tend c) = st_dtmin c /\
                                       st_dtmax (get_dt_clip t tstart tend c) = st_dtmax c).
  { intros c. unfold get_dt_clip. destruct tend; [|auto]. cbv zeta.
    repeat match goal with |- context [if ?b then _ else _] => destruct b end; auto. }
  destruct (Hclip (get_dt_choose get_dt_new s)) as [-> ->].
  unfold get_dt_choose. destruct (dt_variable s) eqn:Hv; destruct (dt_old s) eqn:Ho; cbn [andb];
    try (split; [congruence|left; auto]; fail).
  - destruct (qltb 0 (cfl s)) eqn:Ec; qprop.
    + split; [intros; auto|]. right. exists (dt (get_dt_new s)). auto.
    + split; [intros; lra|]. left. auto.
Qed.

Lemma omin_le d m : dtmin_le (omin d m) d.
Proof. destruct m; cbn; [apply pymin_spec|lra]. Qed.
Lemma omax_ge d m : dtmax_ge (omax d m) d.
Proof. destruct m; cbn; [apply pymax_spec|lra]. Qed.
Lemma omin_mono d m x : dtmin_le m x -> dtmin_le (omin d m) x.
Proof.
  destruct m as [y|]; cbn; [|contradiction]. intros. destruct (pymin_spec d y) as (_ & ? & _). lra.
Qed.
Lemma omax_mono d m x : dtmax_ge m x -> dtmax_ge (omax d m) x.
Proof.
  destruct m as [y|]; cbn; [|contradiction]. intros. destruct (pymax_spec d y) as (_ & ? & _). lra.
Qed.

Section Status.
Context {DQ DX E : Type}.
Variable src : option (Q -> sol DQ DX -> DQ * DX).
Variable hyp : Q -> sol DQ DX -> DQ * DX * Q.
Variable sp : Z.
Variable before : sol DQ DX -> DQ * DX.
Notation solver := (solver E).

(** The size the CFL controller proposes after attempt [a]. *)
Definition proposal (dmax cd : Q) (a : event DQ DX) : Q :=
  pymin dmax (Qred (ev_dt a * cd / ev_cfl a)).

Lemma loop_dtstatus tstart tend (s0 : solver) : forall k n (s : solver) so num tr s' so' num' tr' e,
  dt_variable s0 = true -> same_params s0 s ->
  match tr with ev :: _ => dt s = ev_dt ev /\ cfl s = ev_cfl ev /\ dt_old s <> None | [] => True end ->
  (forall a b, adj tr a b -> 0 < ev_cfl a ->
     dtmin_le (st_dtmin s) (proposal (dt_max s0) (cfl_desired s0) a) /\
     dtmax_ge (st_dtmax s) (proposal (dt_max s0) (cfl_desired s0) a)) ->
  evolve_loop (classic_step src hyp sp) accept_reject_step before k n tstart tend s so num tr
    = (s', so', num', tr', e) ->
  (forall a b, adj tr' a b -> 0 < ev_cfl a ->
     dtmin_le (st_dtmin s') (proposal (dt_max s0) (cfl_desired s0) a) /\
     dtmax_ge (st_dtmax s') (proposal (dt_max s0) (cfl_desired s0) a)).
Proof.
  intros k. induction k as [|k IH]; intros n s so num tr s' so' num' tr' e Hv Hp Hhd Htr Hl;
    cbn [evolve_loop] in Hl.
  - inversion Hl; subst. assumption.
  - destruct (attempt _ _ _ tstart tend n s so) as [[[s1 so1] ev] e1] eqn:Ha.
    destruct (attempt_inv _ _ _ (classic_frame src hyp sp) _ _ _ _ _ _ _ _ _ Ha)
      as (s2 & so2 & Hs & Hp1 & Hp2 & Htt & Hdt & Hcfl & Hdo & _ & Hmin & Hmax & Hb & Haf & Hed & Hec & Hea & Hacs & _).
    destruct (classic_dt _ _ _ _ _ _ _ _ _ Hs) as (_ & _ & Hmn & Hmx & _). cbn [st] in Hmn, Hmx.
    pose proof (classic_old _ _ _ _ _ _ _ _ _ Hs) as Hold.
    pose proof (get_dt_status (st so) tstart tend s) as HST. cbv zeta in HST.
    rewrite <- Hmn, <- Hmx, <- Hmin, <- Hmax in HST. destruct HST as [HS1 HS2].
    destruct Hp as (P1 & P2 & P3 & P4 & P5).
    assert (HT : forall a b, adj (ev :: tr) a b -> 0 < ev_cfl a ->
     dtmin_le (st_dtmin s1) (proposal (dt_max s0) (cfl_desired s0) a) /\
     dtmax_ge (st_dtmax s1) (proposal (dt_max s0) (cfl_desired s0) a)).
    { intros a b Hab Hca. destruct (adj_cons _ _ _ _ Hab) as [[-> (tl & ->)]|Hab'].
      - destruct Hhd as (H1 & H2 & H3). rewrite <- H2 in Hca.
        destruct (HS1 ltac:(congruence) H3 Hca) as [-> ->].
        assert (HE : dt (get_dt_new s) = proposal (dt_max s0) (cfl_desired s0) a).
        { unfold proposal, get_dt_new. cbn [dt set_dt]. rewrite H1, H2, P2, P3. reflexivity. }
        rewrite HE. split; [apply omin_le|apply omax_ge].
      - destruct (Htr _ _ Hab' Hca) as [T1 T2].
        destruct HS2 as [[-> ->]|(d & -> & ->)]; [auto|].
        split; [apply omin_mono|apply omax_mono]; assumption. }
    destruct e1 as [x|]; [inversion Hl; subst; assumption|].
    destruct (finished tend so1); [inversion Hl; subst; assumption|].
    eapply (IH _ s1 so1 _ (ev :: tr)); try eassumption.
    + eapply same_params_trans; [|exact Hp2]. repeat split; assumption.
    + rewrite Hdt, Hcfl, Hed, Hec, Hdo. auto.
Qed.

Lemma evolve_dtstatus (s : solver) so tend r :
  dt_variable s = true -> classic_evolve src hyp sp before s so tend = r ->
  forall a b, consecutive (r_trace r) a b -> 0 < ev_cfl a ->
     dtmin_le (st_dtmin (r_solver r)) (proposal (dt_max s) (cfl_desired s) a) /\
     dtmax_ge (st_dtmax (r_solver r)) (proposal (dt_max s) (cfl_desired s) a).
Proof.
  intros Hv <-. unfold classic_evolve, evolve_to_time. cbv zeta.
  destruct (evolve_setup (st so) tend s) as [s1 e1] eqn:Hset.
  destruct (setup_frame _ _ _ _ _ Hset) as (F1 & F2 & F3 & _).
  destruct e1 as [e|].
  - intros a b (l1 & l2 & H). destruct l1; discriminate.
  - destruct (evolve_loop _ _ _ _ 0 (st so) tend s1 so 0 []) as [[[[s2 so2] num] tr] e2] eqn:Hl.
    assert (Hnil : forall a b, adj (@nil (event DQ DX)) a b -> 0 < ev_cfl a ->
      dtmin_le (st_dtmin s1) (proposal (dt_max s1) (cfl_desired s1) a) /\
      dtmax_ge (st_dtmax s1) (proposal (dt_max s1) (cfl_desired s1) a)).
    { intros a b (l1 & l2 & H). destruct l1; discriminate. }
    pose proof (loop_dtstatus (st so) tend s1 (Z.to_nat (max_steps s1)) 0 s1 so 0 [] s2 so2 num tr e2
                 (eq_trans F1 Hv) (same_params_refl s1) I Hnil Hl) as HL.
    rewrite F2, F3 in HL.
    destruct e2; cbn [r_trace r_solver]; intros a b Hab; apply (HL a b); apply consecutive_rev; assumption.
Qed.
End Status.
