(** Proofs about the time-stepping model. *)
From Verif Require Import Base TimeModel TimeSpec.

Section Generic.
Context {DQ DX E : Type}.
Notation solver := (solver E). Notation sol := (sol DQ DX). Notation event := (event DQ DX).

Definition same_params (a b : solver) : Prop :=
  dt_variable b = dt_variable a /\ dt_max b = dt_max a /\ cfl_desired b = cfl_desired a /\
  cfl_max b = cfl_max a /\ max_steps b = max_steps a.

Lemma same_params_refl a : same_params a a.
Proof. repeat split. Qed.
Lemma same_params_trans a b c : same_params a b -> same_params b c -> same_params a c.
Proof. unfold same_params. intuition congruence. Qed.

Definition step_frame (stepf : Q -> option Q -> solver -> sol -> solver * sol) : Prop :=
  forall tstart tend s so s' so', stepf tstart tend s so = (s', so') ->
    same_params s s' /\ st_cflmax s' = st_cflmax s /\ st_numsteps s' = st_numsteps s /\
    st so' = st so.

Definition new_frame (new : solver -> solver) : Prop :=
  forall s, same_params s (new s) /\ st_cflmax (new s) = st_cflmax s /\
            st_numsteps (new s) = st_numsteps s /\ cfl (new s) = cfl s /\
            st_dtmin (new s) = st_dtmin s /\ st_dtmax (new s) = st_dtmax s /\
            accept_step (new s) = accept_step s /\ ext (new s) = ext s.

Lemma get_dt_frame new t tstart tend s : new_frame new ->
  let s' := get_dt new t tstart tend s in
  same_params s s' /\ st_cflmax s' = st_cflmax s /\ st_numsteps s' = st_numsteps s /\
  cfl s' = cfl s /\ ext s' = ext s.
Proof.
  intros Hn. cbv zeta. unfold get_dt, get_dt_clip, get_dt_choose.
  destruct (Hn s) as [(? & ? & ? & ? & ?) (? & ? & ? & ? & ? & ? & ?)].
  destruct tend as [te|];
  destruct (dt_variable s && _)%bool; try destruct (qltb 0 (cfl s));
  cbv zeta;
  repeat match goal with |- context [if ?b then _ else _] => destruct b end;
  unfold same_params; simpl; intuition congruence.
Qed.

Lemma get_dt_dt_old new t tstart tend (s : solver) :
  (forall s, dt_old s <> None -> dt_old (new s) <> None) ->
  dt_old (get_dt new t tstart tend s) <> None.
Proof.
  intros Hn. unfold get_dt, get_dt_clip, get_dt_choose.
  destruct tend as [te|]; cbv zeta;
  destruct (dt_old s) as [d|] eqn:Ed; rewrite ?andb_true_r, ?andb_false_r;
  repeat match goal with |- context [if ?b then _ else _] => destruct b end;
  simpl; try congruence; try (apply Hn; congruence).
Qed.

(** *** The loop *)
Variable stepf : Q -> option Q -> solver -> sol -> solver * sol.
Variable acceptf : solver -> bool.
Variable before : sol -> DQ * DX.
Notation attempt := (attempt stepf acceptf before).
Notation loop := (evolve_loop stepf acceptf before).
Notation evolve := (evolve_to_time stepf acceptf before).

(** Invariant rule for the loop with an end time. *)
Lemma loop_rule te tstart (I : Z -> solver -> sol -> list event -> Prop)
    (G : err -> solver -> sol -> list event -> Prop) :
  (forall n s so tr s' so' ev e,
      I n s so tr -> finished (Some te) so = false ->
      attempt tstart (Some te) n s so = (s', so', ev, e) ->
      match e with
      | None => I (n + 1)%Z s' so' (ev :: tr)
      | Some x => G x s' so' (ev :: tr)
      end) ->
  forall k n s so num tr s' so' num' tr' e,
    I n s so tr -> finished (Some te) so = false ->
    loop k n tstart (Some te) s so num tr = (s', so', num', tr', e) ->
    match e with
    | None => exists n', I n' s' so' tr' /\
                (n' = (n + Z.of_nat k)%Z \/ finished (Some te) so' = true)
    | Some x => G x s' so' tr'
    end.
Proof.
  intros Hstep k. induction k as [|k IH]; intros n s so num tr s' so' num' tr' e HI Hf Hl.
  - cbn [evolve_loop] in Hl. inversion Hl; subst. exists n. split; [assumption|]. left. lia.
  - cbn [evolve_loop] in Hl.
    destruct (attempt tstart (Some te) n s so) as [[[s1 so1] ev] e1] eqn:Ha.
    specialize (Hstep _ _ _ _ _ _ _ _ HI Hf Ha).
    destruct e1 as [x|].
    + inversion Hl; subst. exact Hstep.
    + destruct (finished (Some te) so1) eqn:Hf1.
      * inversion Hl; subst. exists (n + 1)%Z. split; [assumption|]. right. assumption.
      * specialize (IH _ _ _ _ _ _ _ _ _ _ Hstep Hf1 Hl).
        destruct e as [x|]; [assumption|].
        destruct IH as (n' & HI' & Hn'). exists n'. split; [assumption|].
        destruct Hn' as [->|?]; [left; lia | right; assumption].
Qed.

(** The counters the loop keeps agree with the history. *)
Lemma accepted_count_app (a b : list event) :
  accepted_count (a ++ b) = (accepted_count a + accepted_count b)%Z.
Proof. induction a as [|x a IH]; cbn [accepted_count app]; [reflexivity|rewrite IH; lia]. Qed.
Lemma accepted_count_rev (a : list event) : accepted_count (rev a) = accepted_count a.
Proof.
  induction a as [|x a IH]; [reflexivity|].
  cbn [rev]. rewrite accepted_count_app, IH. cbn [accepted_count]. lia.
Qed.
Lemma accepted_count_nonneg (a : list event) : (0 <= accepted_count a)%Z.
Proof. induction a as [|x a IH]; cbn [accepted_count]; [lia|destruct (ev_accepted x); lia]. Qed.
Lemma accepted_count_len (a : list event) : (accepted_count a <= Z.of_nat (length a))%Z.
Proof. induction a as [|x a IH]; cbn [accepted_count length]; [lia|destruct (ev_accepted x); lia]. Qed.

Lemma loop_num tend tstart : forall k n s so num tr s' so' num' tr' e,
  loop k n tstart tend s so num tr = (s', so', num', tr', e) ->
  (num' - accepted_count tr' = num - accepted_count tr)%Z.
Proof.
  induction k as [|k IH]; intros n s so num tr s' so' num' tr' e Hl; cbn [evolve_loop] in Hl.
  - inversion Hl; subst. lia.
  - destruct (attempt tstart tend n s so) as [[[s1 so1] ev] e1] eqn:Ha.
    destruct e1 as [x|].
    + inversion Hl; subst. cbn [accepted_count]. destruct (ev_accepted ev); lia.
    + destruct (finished tend so1).
      * inversion Hl; subst. cbn [accepted_count]. destruct (ev_accepted ev); lia.
      * apply IH in Hl. cbn [accepted_count] in Hl. destruct (ev_accepted ev); lia.
Qed.

(** What one attempt does, case by case. *)
Lemma attempt_inv (Hfr : step_frame stepf) tstart tend n s so s' so' ev e :
  attempt tstart tend n s so = (s', so', ev, e) ->
  exists s1 so1,
    stepf tstart tend s (mkSol (fst (before so)) (snd (before so)) (st so)) = (s1, so1) /\
    same_params s s1 /\ same_params s s' /\ st so1 = st so /\ dt s' = dt s1 /\ cfl s' = cfl s1 /\
    dt_old s' = dt_old s1 /\ ext s' = ext s1 /\
    st_dtmin s' = st_dtmin s1 /\ st_dtmax s' = st_dtmax s1 /\
    ev_before ev = so /\ ev_after ev = so' /\ ev_dt ev = dt s1 /\ ev_cfl ev = cfl s1 /\
    ev_accepted ev = acceptf s1 /\ accept_step s' = acceptf s1 /\
    ( (acceptf s1 = true /\ e = None /\
       st_cflmax s' = omax (cfl s1) (st_cflmax s) /\ st_numsteps s' = (st_numsteps s + 1)%Z /\
       so' = mkSol (sq so1) (sx so1)
              (Qred (if dt_variable s then st so + dt s1 else tstart + inject_Z (n + 1) * dt s1)))
    \/ (acceptf s1 = false /\ dt_variable s = true /\ e = None /\
        st_cflmax s' = st_cflmax s /\ st_numsteps s' = st_numsteps s /\
        so' = mkSol (sq so) (sx so1) (st so))
    \/ (acceptf s1 = false /\ dt_variable s = false /\ e = Some ECflTooLarge /\
        st_cflmax s' = omax (cfl s1) (st_cflmax s) /\ st_numsteps s' = st_numsteps s /\
        so' = so1)).
Proof.
  intros H. unfold TimeModel.attempt in H. cbv zeta in H.
  destruct (stepf tstart tend s _) as [s1 so1] eqn:Hs.
  destruct (Hfr _ _ _ _ _ _ Hs) as (Hp & Hc & Hn & Ht). simpl in Ht.
  assert (Hv : dt_variable s1 = dt_variable s) by apply Hp.
  assert (Hp' := Hp).
  destruct Hp' as (P1 & P2 & P3 & P4 & P5).
  exists s1, so1. split; [reflexivity|]. split; [exact Hp|].
  destruct (acceptf s1) eqn:Ha.
  - simpl in H. inversion H; subst; clear H. simpl. rewrite Hv, Ht, Hc, Hn.
    unfold same_params; simpl. intuition congruence.
  - simpl in H. rewrite Hv in H. destruct (dt_variable s) eqn:Hv'; inversion H; subst; clear H; simpl;
    unfold same_params; simpl; rewrite ?Hc, ?Hn;
    repeat match goal with |- _ /\ _ => split end; try congruence; intuition congruence.
Qed.

Lemma chained_app (a b : list event) : forall s m f,
  chained s a m -> chained m b f -> chained s (a ++ b) f.
Proof.
  induction a as [|x a IH]; intros s m f Ha Hb; simpl in *.
  - subst. assumption.
  - destruct Ha as [H1 H2]. split; [assumption|]. eapply IH; eassumption.
Qed.

(** Set-up phase: what it changes. *)
Lemma setup_inv tstart te (s s1 : solver) :
  evolve_setup tstart (Some te) s = (s1, None) ->
  dt_variable s = true ->
  cfl_desired s <= cfl_max s /\
  s1 = (if qleb te tstart then set_max_steps 0 s else s).
Proof.
  unfold evolve_setup. intros H Hv. rewrite Hv in H. rewrite Hv in H. simpl in H.
  destruct (qltb (cfl_max s) (cfl_desired s)) eqn:E1; [discriminate|].
  apply qltb_ge in E1. split; [assumption|].
  destruct (qleb te tstart); inversion H; reflexivity.
Qed.

Lemma setup_err tstart te (s s1 : solver) e :
  evolve_setup tstart (Some te) s = (s1, Some e) ->
  dt_variable s = true -> s1 = s /\ e = ECflDesired.
Proof.
  unfold evolve_setup. intros H Hv. rewrite Hv in H. rewrite Hv in H. simpl in H.
  destruct (qltb (cfl_max s) (cfl_desired s)) eqn:E1.
  - inversion H. auto.
  - destruct (qleb te tstart); discriminate.
Qed.

Definition Good (s : solver) : Prop :=
  dt_variable s = true /\ 0 < dt s /\ 0 < dt_max s /\ 0 < cfl_desired s.

(** A step that honours get_dt: positive dt, not past the end. *)
Definition honours (stepf : Q -> option Q -> solver -> sol -> solver * sol) : Prop :=
  forall tstart te s so s' so', Good s -> tstart < te -> st so < te ->
    stepf tstart (Some te) s so = (s', so') -> 0 < dt s' /\ st so + dt s' <= te.

Lemma get_dt_honours new (Hn : new_frame new)
  (Hpos : forall s, Good s -> 0 < cfl s -> 0 < dt (new s)) :
  forall tstart te t s, Good s -> tstart < te -> t < te ->
    let s' := get_dt new t tstart (Some te) s in 0 < dt s' /\ t + dt s' <= te.
Proof.
  intros tstart te t s HG Hst Ht. cbv zeta.
  assert (Hc : 0 < dt (get_dt_choose new s)).
  { unfold get_dt_choose. destruct (dt_variable s && _)%bool.
    - destruct (qltb 0 (cfl s)) eqn:Ec.
      + apply qltb_lt in Ec. cbn. apply Hpos; assumption.
      + cbn. apply HG.
    - cbn. apply HG. }
  unfold get_dt, get_dt_clip. cbv zeta.
  assert (HR : Qred (te - t) == te - t) by apply Qred_correct.
  destruct (qltb te (t + dt (get_dt_choose new s)) && qltb tstart te)%bool eqn:E1.
  - qprop. destruct (qltb _ (eps14 * t)); cbn; rewrite HR; split; lra.
  - assert (t + dt (get_dt_choose new s) <= te).
    { apply andb_false_iff in E1. destruct E1 as [E1|E1]; qprop; lra. }
    destruct (qltb _ (eps14 * t)); cbn; rewrite ?HR; split; lra.
Qed.

(** Full description of a variable-step run to [te]. *)
Definition ev_ok (te cmax : Q) (ev : event) : Prop :=
  0 < ev_dt ev /\ st (ev_before ev) + ev_dt ev <= te /\
  (if ev_accepted ev then st (ev_after ev) == st (ev_before ev) + ev_dt ev
   else st (ev_after ev) = st (ev_before ev) /\ sq (ev_after ev) = sq (ev_before ev)).

Lemma Good_same s s' : Good s -> same_params s s' -> 0 < dt s' -> Good s'.
Proof.
  intros (G1 & G2 & G3 & G4) (P1 & P2 & P3 & P4 & P5) Hd. unfold Good.
  rewrite P1, P2, P3. auto.
Qed.

(** The central lemma: every variable-step run with an end time. *)
Lemma evolve_variable (Hfr : step_frame stepf) (Hh : honours stepf) s so te r :
  Good s -> st so <= te -> evolve s so (Some te) = r ->
  st so <= st (r_sol r) <= te /\ chained so (r_trace r) (r_sol r) /\
  Forall (ev_ok te (cfl_max s)) (r_trace r).
Proof.
  intros HG Hle <-. unfold evolve_to_time. cbv zeta.
  destruct (evolve_setup (st so) (Some te) s) as [s1 [e|]] eqn:Hset.
  - simpl. split; [lra|]. split; [reflexivity|constructor].
  - destruct HG as (G1 & G2 & G3 & G4).
    destruct (setup_inv _ _ _ _ Hset G1) as [Hcd Hs1].
    destruct (qleb te (st so)) eqn:Ete.
    + subst s1. simpl. split; [lra|]. split; [reflexivity|constructor].
    + subst s1. apply qleb_gt in Ete.
      set (I := fun (n : Z) (s' : solver) (so' : sol) (tr : list event) =>
                  Good s' /\ st so <= st so' <= te /\ chained so (rev tr) so' /\
                  Forall (ev_ok te (cfl_max s)) tr).
      assert (Hstep : forall n s0 so0 tr s' so' ev e,
        I n s0 so0 tr -> finished (Some te) so0 = false ->
        attempt (st so) (Some te) n s0 so0 = (s', so', ev, e) ->
        match e with None => I (n + 1)%Z s' so' (ev :: tr) | Some x => False end).
      { intros n s0 so0 tr s' so' ev e (HG0 & Ht0 & Hch & Hall) Hf Ha.
        unfold finished in Hf. apply qleb_gt in Hf.
        destruct (attempt_inv Hfr _ _ _ _ _ _ _ _ _ Ha)
          as (s2 & so2 & Hst & Hp1 & Hp2 & Htt & Hdt & Hcfl & _ & _ & _ & _ & Hb & Haf & Hed & Hec & Hacc & _ & Hcase).
        destruct (Hh _ _ _ (mkSol (fst (before so0)) (snd (before so0)) (st so0)) _ _ HG0 Ete Hf Hst) as [Hd1 Hd2]. simpl in Hd2.
        assert (HG' : Good s').
        { eapply Good_same; [exact HG0|exact Hp2|]. rewrite Hdt. assumption. }
        assert (Hv0 : dt_variable s0 = true) by apply HG0.
        assert (Hch' : chained so (rev (ev :: tr)) so').
        { cbn [rev]. eapply chained_app; [exact Hch|]. simpl. rewrite Hb, Haf. auto. }
        destruct Hcase as [(Hc & -> & _ & _ & Hso')|[(Hc & _ & -> & _ & _ & Hso')|(Hc & Hv & _)]].
        - rewrite Hv0 in Hso'.
          assert (Hq : st so' == st so0 + dt s2) by (rewrite Hso'; simpl; apply Qred_correct).
          unfold I. split; [assumption|]. split; [lra|]. split; [assumption|].
          constructor; [|assumption]. unfold ev_ok. rewrite Hed, Hb, Hacc, Hc, Haf.
          repeat split; lra.
        - unfold I. split; [assumption|].
          assert (st so' = st so0) as Hq by (rewrite Hso'; reflexivity).
          split; [rewrite Hq; lra|]. split; [assumption|].
          constructor; [|assumption]. unfold ev_ok. rewrite Hed, Hb, Hacc, Hc, Haf.
          rewrite Hso'; simpl. repeat split; lra.
        - congruence. }
      assert (HI0 : I 0%Z s so []).
      { unfold I. repeat split; try assumption; try lra; simpl; try reflexivity. constructor. }
      assert (Hf0 : finished (Some te) so = false) by (unfold finished; apply qleb_gt; assumption).
      destruct (loop (Z.to_nat (max_steps s)) 0 (st so) (Some te) s so 0 [])
        as [[[[s2 so2] num] tr] e2] eqn:Hl.
      pose proof (loop_rule te (st so) I (fun _ _ _ _ => False) Hstep _ _ _ _ _ _ _ _ _ _ _ HI0 Hf0 Hl) as HL.
      destruct e2 as [x|]; [contradiction|].
      destruct HL as (n' & (HG' & Ht' & Hch' & Hall') & _).
      simpl. split; [assumption|]. split; [assumption|].
      apply Forall_rev. assumption.
Qed.

(** C04 invariant, for fixed and variable steps and with or without end time. *)
Lemma is_cflmax_step old (tr : list event) m ev :
  is_cflmax old tr m ->
  is_cflmax old (ev :: tr) (if ev_accepted ev then omax (ev_cfl ev) m else m).
Proof.
  intros H. destruct (ev_accepted ev) eqn:Ea.
  - unfold omax. destruct m as [c|]; cbn [is_cflmax] in *.
    + destruct H as (H1 & H2 & H3).
      destruct (pymax_spec (ev_cfl ev) c) as (M1 & M2 & M3).
      split; [|split].
      * intros e [<-|Hin] Hacc; [assumption|]. specialize (H1 _ Hin Hacc). lra.
      * intros o Ho. specialize (H2 _ Ho). lra.
      * destruct M3 as [->| ->].
        -- right. exists ev. simpl. auto.
        -- destruct H3 as [H3|(e & He & Hacc & Heq)]; [left; assumption|].
           right. exists e. simpl. auto.
    + destruct H as [H1 H2]. split; [|split].
      * intros e [<-|Hin] Hacc; [lra|].
        exfalso. clear - H2 Hin Hacc. induction tr as [|a tr IH]; [contradiction|].
        cbn [accepted_count] in H2. pose proof (accepted_count_nonneg tr).
        destruct Hin as [->|Hin].
        -- rewrite Hacc in H2. lia.
        -- apply IH; [|assumption]. destruct (ev_accepted a); lia.
      * intros o Ho. congruence.
      * right. exists ev. simpl. auto.
  - destruct m as [c|]; cbn [is_cflmax] in *.
    + destruct H as (H1 & H2 & H3). split; [|split].
      * intros e [<-|Hin] Hacc; [congruence|]. auto.
      * assumption.
      * destruct H3 as [H3|(e & He & Hacc & Heq)]; [left; assumption|].
        right. exists e. simpl. auto.
    + cbn [accepted_count]. rewrite Ea. destruct H as [H1 H2]. split; [assumption|lia].
Qed.

Lemma is_cflmax_rev old (tr : list event) m : is_cflmax old tr m -> is_cflmax old (rev tr) m.
Proof.
  unfold is_cflmax. destruct m as [c|].
  - intros (H1 & H2 & H3). split; [|split].
    + intros e Hin. rewrite <- in_rev in Hin. auto.
    + assumption.
    + destruct H3 as [H3|(e & He & Hx)]; [left; assumption|].
      right. exists e. rewrite <- in_rev. auto.
  - rewrite accepted_count_rev. auto.
Qed.

Lemma loop_status (Hfr : step_frame stepf) tend tstart s0 :
  (forall s, same_params s0 s -> acceptf s = true -> cfl s <= cfl_max s) ->
  forall k n s so num tr s' so' num' tr' e,
  same_params s0 s ->
  is_cflmax (st_cflmax s0) tr (st_cflmax s) ->
  (st_numsteps s = st_numsteps s0 + accepted_count tr)%Z ->
  Forall (fun ev => ev_accepted ev = true -> ev_cfl ev <= cfl_max s0) tr ->
  loop k n tstart tend s so num tr = (s', so', num', tr', e) ->
  same_params s0 s' /\
  (st_numsteps s' = st_numsteps s0 + accepted_count tr')%Z /\
  Forall (fun ev => ev_accepted ev = true -> ev_cfl ev <= cfl_max s0) tr' /\
  (e = None -> is_cflmax (st_cflmax s0) tr' (st_cflmax s')) /\
  (e <> None -> e = Some ECflTooLarge /\ dt_variable s0 = false /\
     exists ev tl, tr' = ev :: tl /\ ev_accepted ev = false).
Proof.
  intros Hacc k. induction k as [|k IH];
  intros n s so num tr s' so' num' tr' e Hp Hm Hn HF Hl; cbn [evolve_loop] in Hl.
  - inversion Hl; subst. repeat split; auto; try apply Hp; try congruence.
  - destruct (attempt tstart tend n s so) as [[[s1 so1] ev] e1] eqn:Ha.
    destruct (attempt_inv Hfr _ _ _ _ _ _ _ _ _ Ha)
      as (s2 & so2 & Hst & Hp1 & Hp2 & Htt & Hdt & Hcfl & _ & _ & _ & _ & Hb & Haf & Hed & Hec & Hea & _ & Hcase).
    assert (Hp01 : same_params s0 s1) by exact (same_params_trans _ _ _ Hp Hp2).
    assert (Hp02 : same_params s0 s2) by exact (same_params_trans _ _ _ Hp Hp1).
    assert (HF' : Forall (fun ev => ev_accepted ev = true -> ev_cfl ev <= cfl_max s0) (ev :: tr)).
    { constructor; [|assumption]. intros Hx. rewrite Hec. rewrite Hea in Hx.
      specialize (Hacc _ Hp02 Hx). replace (cfl_max s0) with (cfl_max s2); [assumption|].
      apply Hp02. }
    assert (Hn' : (st_numsteps s1 = st_numsteps s0 + accepted_count (ev :: tr))%Z).
    { cbn [accepted_count]. rewrite Hea.
      destruct Hcase as [(Hc & _ & _ & Hns & _)|[(Hc & _ & _ & _ & Hns & _)|(Hc & _ & _ & _ & Hns & _)]];
      rewrite Hc, Hns; lia. }
    destruct e1 as [x|].
    + inversion Hl; subst; clear Hl.
      destruct Hcase as [(Hc & Hx & _)|[(Hc & _ & Hx & _)|(Hc & Hv & Hx & _)]]; try discriminate.
      split; [assumption|]. split; [assumption|]. split; [assumption|].
      split; [discriminate|]. intros _. inversion Hx; subst.
      split; [reflexivity|]. split; [rewrite <- Hv; symmetry; apply Hp|].
      exists ev, tr. rewrite Hea. auto.
    + assert (Hm' : is_cflmax (st_cflmax s0) (ev :: tr) (st_cflmax s1)).
      { pose proof (is_cflmax_step _ _ _ ev Hm) as HH. rewrite Hea, Hec in HH.
        destruct Hcase as [(Hc & _ & Hm1 & _)|[(Hc & _ & _ & Hm1 & _)|(Hc & _ & Hx & _)]];
        [| |discriminate]; rewrite Hc in HH; rewrite Hm1; assumption. }
      destruct (finished tend so1).
      * inversion Hl; subst. repeat split; auto; try apply Hp01; congruence.
      * exact (IH _ _ _ _ _ _ _ _ _ _ Hp01 Hm' Hn' HF' Hl).
Qed.

Lemma setup_frame tstart tend (s s1 : solver) e :
  evolve_setup tstart tend s = (s1, e) ->
  dt_variable s1 = dt_variable s /\ dt_max s1 = dt_max s /\ cfl_desired s1 = cfl_desired s /\
  cfl_max s1 = cfl_max s /\ st_cflmax s1 = st_cflmax s /\ st_numsteps s1 = st_numsteps s /\
  dt s1 = dt s /\ dt_old s1 = dt_old s /\ cfl s1 = cfl s /\ accept_step s1 = accept_step s /\
  ext s1 = ext s /\ st_dtmin s1 = st_dtmin s /\ st_dtmax s1 = st_dtmax s.
Proof.
  unfold evolve_setup. destruct (dt_variable s) eqn:Hv.
  - destruct (qltb _ _); destruct tend; rewrite ?Hv; simpl;
    repeat match goal with |- context [if ?b then _ else _] => destruct b end;
    intros H; inversion H; subst; simpl; auto 20.
  - destruct tend; cbv zeta; rewrite ?Hv; simpl;
    repeat (match goal with |- context [if ?b then _ else _] => destruct b end; simpl; rewrite ?Hv; simpl);
    intros H; inversion H; subst; simpl; rewrite ?Hv; auto 20.
Qed.

Lemma evolve_status (Hfr : step_frame stepf) s so tend r :
  (forall s', cfl_max s' = cfl_max s -> acceptf s' = true -> cfl s' <= cfl_max s') ->
  evolve s so tend = r ->
  (forall ev, In ev (r_trace r) -> ev_accepted ev = true -> ev_cfl ev <= cfl_max s) /\
  (st_numsteps (r_solver r) = st_numsteps s + accepted_count (r_trace r))%Z /\
  (r_err r <> Some ECflTooLarge -> is_cflmax (st_cflmax s) (r_trace r) (st_cflmax (r_solver r))).
Proof.
  intros Hacc <-. unfold evolve_to_time. cbv zeta.
  assert (Hnil : forall m, is_cflmax m (@nil event) m).
  { intros [c|]; simpl; repeat split; auto; try contradiction. intros o Ho. inversion Ho. lra. }
  destruct (evolve_setup (st so) tend s) as [s1 e1] eqn:Hset.
  destruct (setup_frame _ _ _ _ _ Hset) as (F1 & F2 & F3 & F4 & F5 & F6 & _).
  destruct e1 as [e|].
  - simpl. split; [contradiction|]. split; [rewrite F6; lia|]. intros _. rewrite F5. apply Hnil.
  - destruct (loop _ 0 (st so) tend s1 so 0 []) as [[[[s2 so2] num] tr] e2] eqn:Hl.
    assert (HA : forall s', same_params s1 s' -> acceptf s' = true -> cfl s' <= cfl_max s').
    { intros s' Hp. apply Hacc. rewrite <- F4. apply Hp. }
    assert (Hz : (st_numsteps s1 = st_numsteps s1 + accepted_count (@nil event))%Z) by (simpl; lia).
    destruct (loop_status Hfr tend (st so) s1 HA _ _ _ _ _ _ _ _ _ _ _
                (same_params_refl _) (Hnil _) Hz (Forall_nil _) Hl) as (H1 & H2 & H3 & H4 & H5).
    rewrite Forall_forall in H3. rewrite F4 in H3.
    destruct e2 as [x|]; cbn [r_trace r_solver r_err].
      * split; [intros ev Hin; rewrite <- in_rev in Hin; auto|].
        split; [rewrite accepted_count_rev, <- F6; assumption|].
        intros Hne. destruct H5 as [H5 _]; [discriminate|]. congruence.
      * split; [intros ev Hin; rewrite <- in_rev in Hin; auto|].
        split; [rewrite accepted_count_rev, <- F6; assumption|].
        intros _. apply is_cflmax_rev. rewrite <- F5. auto.
Qed.

End Generic.
