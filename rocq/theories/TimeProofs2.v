(** Proofs about the time-stepping model, part 2: classic and SharpClaw instances. *)
From Verif Require Import Base TimeModel TimeSpec TimeProofs.

Lemma base_new_frame {E} : @new_frame E get_dt_new.
Proof. intros s. unfold get_dt_new, same_params. simpl. auto 20. Qed.
Lemma sharp_new_frame {DQ} : @new_frame DQ sharp_get_dt_new.
Proof. intros s. unfold sharp_get_dt_new, same_params. simpl. auto 20. Qed.

Lemma classic_frame {DQ DX E} src hyp sp : step_frame (@classic_step DQ DX E src hyp sp).
Proof.
  intros tstart tend s so s' so' H. unfold classic_step in H. cbv zeta in H.
  pose proof (get_dt_frame get_dt_new (st so) tstart tend s base_new_frame) as HF. cbv zeta in HF.
  set (g := get_dt get_dt_new (st so) tstart tend s) in *.
  destruct HF as ((P1 & P2 & P3 & P4 & P5) & F2 & F3 & _ & _).
  assert (HS : forall c c', same_params s (set_cfl c (set_cfl c' g))).
  { intros; unfold same_params; simpl; auto. }
  match type of H with context [hyp ?a ?b] => destruct (hyp a b) as [[q2 x2] c] end.
  destruct (qleb _ _).
  - inversion H; subst. split; [apply HS|]. simpl. repeat split; auto.
    destruct src; [destruct (sp =? 2)%Z|]; reflexivity.
  - destruct src as [src|].
    + destruct (sp =? 2)%Z; [|destruct (sp =? 1)%Z]; inversion H; subst;
      (split; [apply HS|]); simpl; repeat split; auto.
    + inversion H; subst. split; [apply HS|]. simpl. auto.
Qed.

Lemma classic_dt {DQ DX E} src hyp sp tstart tend s so s' so' :
  @classic_step DQ DX E src hyp sp tstart tend s so = (s', so') ->
  dt s' = dt (get_dt get_dt_new (st so) tstart tend s) /\
  dt_old s' = dt_old (get_dt get_dt_new (st so) tstart tend s) /\
  st_dtmin s' = st_dtmin (get_dt get_dt_new (st so) tstart tend s) /\
  st_dtmax s' = st_dtmax (get_dt get_dt_new (st so) tstart tend s) /\
  0 <= cfl s'.
Proof.
  intros H. unfold classic_step in H. cbv zeta in H.
  match type of H with context [hyp ?a ?b] => destruct (hyp a b) as [[q2 x2] c] end.
  assert (HP : 0 <= pymax 0 c) by apply pymax_spec.
  destruct (qleb _ _).
  - inversion H; subst; simpl; auto.
  - destruct src as [src|].
    + destruct (sp =? 2)%Z; [|destruct (sp =? 1)%Z]; inversion H; subst; simpl; auto.
    + inversion H; subst; simpl; auto.
Qed.

Lemma base_new_pos {E} (s : solver E) : Good s -> 0 < cfl s -> 0 < dt (get_dt_new s).
Proof.
  intros (G1 & G2 & G3 & G4) Hc. unfold get_dt_new. simpl.
  assert (0 < dt s * cfl_desired s / cfl s).
  { apply Qdiv_pos; [apply Qmul_pos; assumption|assumption]. }
  pose proof (Qred_correct (dt s * cfl_desired s / cfl s)).
  destruct (pymin_spec (dt_max s) (Qred (dt s * cfl_desired s / cfl s))) as (_ & _ & [->| ->]); lra.
Qed.

Lemma classic_honours {DQ DX E} src hyp sp : honours (@classic_step DQ DX E src hyp sp).
Proof.
  intros tstart te s so s' so' HG Hst Ht H.
  destruct (classic_dt _ _ _ _ _ _ _ _ _ H) as (-> & _).
  apply (get_dt_honours get_dt_new base_new_frame base_new_pos); assumption.
Qed.

(** SharpClaw *)
Lemma sharp_frame {DQ DX} slope stages : step_frame (@sharp_step DQ DX slope stages).
Proof.
  intros tstart tend s so s' so' H. unfold sharp_step in H.
  destruct (accept_step s) eqn:Ea.
  - destruct (slope (dt s) so) as [[k x1] c].
    cbv zeta in H.
    match type of H with context [get_dt sharp_get_dt_new ?t tstart tend ?s0] =>
      pose proof (get_dt_frame sharp_get_dt_new t tstart tend s0 sharp_new_frame) as HF;
      set (g := get_dt sharp_get_dt_new t tstart tend s0) in * end.
    destruct HF as ((P1 & P2 & P3 & P4 & P5) & F2 & F3 & _). simpl in *.
    match type of H with context [stages ?a ?b ?c] => destruct (stages a b c) as [[q' x'] c'] end.
    inversion H; subst. unfold same_params. simpl. auto 20.
  - cbv zeta in H.
    match type of H with context [get_dt sharp_get_dt_new ?t tstart tend ?s0] =>
      pose proof (get_dt_frame sharp_get_dt_new t tstart tend s0 sharp_new_frame) as HF;
      set (g := get_dt sharp_get_dt_new t tstart tend s0) in * end.
    destruct HF as ((P1 & P2 & P3 & P4 & P5) & F2 & F3 & _). simpl in *.
    match type of H with context [stages ?a ?b ?c] => destruct (stages a b c) as [[q' x'] c'] end.
    inversion H; subst. unfold same_params. simpl. auto 20.
Qed.

Lemma sharp_new_pos {DQ} (s : solver DQ) : Good s -> 0 < cfl s -> 0 < dt (sharp_get_dt_new s).
Proof.
  intros (G1 & G2 & G3 & G4) Hc. unfold sharp_get_dt_new. simpl.
  rewrite Qred_correct. apply Qdiv_pos; [apply Qmul_pos; assumption|assumption].
Qed.

(** The solver on which SharpClaw calls get_dt. *)
Lemma sharp_dt {DQ DX} slope stages tstart tend s so s' so' :
  @sharp_step DQ DX slope stages tstart tend s so = (s', so') ->
  exists s1, same_params s s1 /\ dt s1 = dt s /\ dt_old s1 = dt_old s /\
    (accept_step s = false -> s1 = s) /\
    dt s' = dt (get_dt sharp_get_dt_new (st so) tstart tend s1) /\
    dt_old s' = Some (dt s').
Proof.
  intros H. unfold sharp_step in H.
  destruct (accept_step s) eqn:Ea.
  - destruct (slope (dt s) so) as [[k x1] c]. cbv zeta in H.
    exists (set_ext k (set_cfl (pymax 0 c) s)).
    match type of H with context [stages ?a ?b ?c] => destruct (stages a b c) as [[q' x'] c'] end.
    inversion H; subst. simpl. unfold same_params; simpl. repeat split; auto. discriminate.
  - cbv zeta in H. exists s.
    match type of H with context [stages ?a ?b ?c] => destruct (stages a b c) as [[q' x'] c'] end.
    inversion H; subst. simpl. unfold same_params; simpl. repeat split; auto.
Qed.

Lemma sharp_honours {DQ DX} slope stages : honours (@sharp_step DQ DX slope stages).
Proof.
  intros tstart te s so s' so' HG Hst Ht H.
  destruct (sharp_dt _ _ _ _ _ _ _ _ H) as (s1 & Hp & Hd & _ & _ & -> & _).
  apply (get_dt_honours sharp_get_dt_new sharp_new_frame sharp_new_pos); try assumption.
  eapply Good_same; [exact HG|exact Hp|]. rewrite Hd. apply HG.
Qed.

Lemma accept_base {E} (s : solver E) : accept_reject_step s = true <-> cfl s <= cfl_max s.
Proof.
  unfold accept_reject_step. destruct (qltb (cfl_max s) (cfl s)) eqn:H; qprop; split; intros; try lra; congruence.
Qed.
Lemma reject_base {E} (s : solver E) : accept_reject_step s = false <-> cfl_max s < cfl s.
Proof.
  unfold accept_reject_step. destruct (qltb (cfl_max s) (cfl s)) eqn:H; qprop; split; intros; try lra; congruence.
Qed.

(** *** C02: what a normal return means *)
Section Return.
Context {DQ DX E : Type}.
Variable stepf : Q -> option Q -> solver E -> sol DQ DX -> solver E * sol DQ DX.
Variable acceptf : solver E -> bool.
Variable before : sol DQ DX -> DQ * DX.

Lemma loop_length te tstart : step_frame stepf ->
  forall k n s so num tr s' so' num' tr',
  evolve_loop stepf acceptf before k n tstart (Some te) s so num tr = (s', so', num', tr', None) ->
  (length tr' <= length tr + k)%nat /\
  (length tr' = (length tr + k)%nat \/ finished (Some te) so' = true) /\ same_params s s'.
Proof.
  intros Hfr k. induction k as [|k IH]; intros n s so num tr s' so' num' tr' Hl; cbn [evolve_loop] in Hl.
  - inversion Hl; subst. split; [lia|]. split; [left; lia|]. apply same_params_refl.
  - destruct (attempt stepf acceptf before tstart (Some te) n s so) as [[[s1 so1] ev] e1] eqn:Ha.
    destruct (attempt_inv _ _ _ Hfr _ _ _ _ _ _ _ _ _ Ha) as (s2 & so2 & _ & _ & Hp2 & _).
    destruct e1 as [x|]; [discriminate|].
    destruct (finished (Some te) so1) eqn:Hf.
    + inversion Hl; subst. cbn [length]. split; [lia|]. split; [right; assumption|assumption].
    + apply IH in Hl. cbn [length] in Hl. destruct Hl as (L1 & L2 & L3). split; [lia|].
      split; [destruct L2; [left; lia|right; assumption]|].
      exact (same_params_trans _ _ _ Hp2 L3).
Qed.

Lemma all_accepted (tr : list (event DQ DX)) :
  (forall ev, In ev tr -> ev_accepted ev = true) -> accepted_count tr = Z.of_nat (length tr).
Proof.
  induction tr as [|a tr IH]; intros H; [reflexivity|].
  cbn [accepted_count length]. rewrite (H a (or_introl eq_refl)), IH; [lia|].
  intros ev Hin. apply H. right. assumption.
Qed.
Lemma some_rejected (tr : list (event DQ DX)) :
  (accepted_count tr < Z.of_nat (length tr))%Z -> exists ev, In ev tr /\ ev_accepted ev = false.
Proof.
  induction tr as [|a tr IH]; intros H; cbn [accepted_count length] in H; [lia|].
  destruct (ev_accepted a) eqn:Ea.
  - destruct IH as (ev & Hin & He); [lia|]. exists ev. split; [right|]; assumption.
  - exists a. split; [left; reflexivity|assumption].
Qed.

Lemma normal_return (Hfr : step_frame stepf) s so te r :
  dt_variable s = true -> (0 <= max_steps s)%Z ->
  evolve_to_time stepf acceptf before s so (Some te) = r ->
  r_err r = None ->
  te <= st (r_sol r) \/
  (Z.of_nat (length (r_trace r)) = max_steps s /\
   exists ev, In ev (r_trace r) /\ ev_accepted ev = false).
Proof.
  intros Hv Hm <- Herr. unfold evolve_to_time in *. cbv zeta in *.
  destruct (evolve_setup (st so) (Some te) s) as [s1 [e|]] eqn:Hset; [discriminate|].
  destruct (setup_inv _ _ _ _ Hset Hv) as [Hcd Hs1].
  destruct (qleb te (st so)) eqn:Ete.
  - subst s1. qprop. left. simpl. assumption.
  - subst s1.
    destruct (evolve_loop _ _ _ _ 0 (st so) (Some te) s so 0 []) as [[[[s2 so2] num] tr] e2] eqn:Hl.
    destruct e2 as [x|]; [discriminate|]. cbn [r_err r_sol r_trace] in *.
    destruct (loop_length _ _ Hfr _ _ _ _ _ _ _ _ _ _ Hl) as (L1 & L2 & L3).
    apply loop_num in Hl. cbn in Hl, L1, L2.
    destruct L2 as [L2|L2].
    + destruct (dt_variable s2 && qltb (st so2) te && (num =? max_steps s2)%Z)%bool eqn:Et;
      [discriminate|].
      destruct L3 as (P1 & _ & _ & _ & P5). rewrite P1, Hv, P5 in Et. simpl in Et.
      apply andb_false_iff in Et. destruct Et as [Et|Et]; [qprop; left; assumption|].
      apply Z.eqb_neq in Et. right. rewrite rev_length. split; [lia|].
      destruct (some_rejected tr) as (ev & Hin & He).
      { pose proof (accepted_count_len tr). lia. }
      exists ev. rewrite <- in_rev. auto.
    + left. unfold finished in L2. qprop. assumption.
Qed.

(** *** C06: single step *)
Lemma single_step (Hfr : step_frame stepf) s so r :
  dt_variable s = true -> (1 <= max_steps s)%Z -> cfl_desired s <= cfl_max s ->
  evolve_to_time stepf acceptf before s so None = r ->
  exists s1 so1 ev,
    stepf (st so) None s (apply_before before so) = (s1, so1) /\
    r_trace r = [ev] /\ r_err r = None /\ ev_before ev = so /\ ev_after ev = r_sol r /\
    ev_dt ev = dt s1 /\ ev_accepted ev = acceptf s1 /\ max_steps (r_solver r) = max_steps s /\
    (acceptf s1 = true -> r_sol r = mkSol (sq so1) (sx so1) (Qred (st so + dt s1))) /\
    (acceptf s1 = false -> st (r_sol r) = st so /\ sq (r_sol r) = sq so).
Proof.
  intros Hv Hm Hc <-. unfold evolve_to_time. cbv zeta.
  assert (Hset : evolve_setup (st so) None s = (s, None)).
  { unfold evolve_setup. rewrite Hv. rewrite Hv. destruct (qltb (cfl_max s) (cfl_desired s)) eqn:E1; [qprop; lra|reflexivity]. }
  rewrite Hset.
  destruct (Z.to_nat (max_steps s)) as [|k] eqn:Ek; [lia|].
  cbn [evolve_loop].
  destruct (attempt stepf acceptf before (st so) None 0 s so) as [[[s1 so1] ev] e1] eqn:Ha.
  destruct (attempt_inv _ _ _ Hfr _ _ _ _ _ _ _ _ _ Ha)
    as (s2 & so2 & Hst & Hp1 & Hp2 & Htt & Hdt & Hcfl & _ & _ & _ & _ & Hb & Haf & Hed & Hec & Hacc & _ & Hcase).
  rewrite Hv in Hcase.
  destruct Hcase as [(Hca & -> & _ & _ & Hso')|[(Hca & _ & -> & _ & _ & Hso')|(Hca & Hx & _)]];
    [| |discriminate]; cbn [finished r_trace r_sol r_err r_solver rev app];
  exists s2, so2, ev; (split; [exact Hst|]); repeat split; auto; try congruence;
  try apply Hp2; try (rewrite Hso'; reflexivity).
Qed.

End Return.
