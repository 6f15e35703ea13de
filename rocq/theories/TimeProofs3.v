(** Proofs about the time-stepping model, part 3: relations between consecutive attempts (C03, C10,
    C11) and operator splitting (C12). *)
From Verif Require Import Base TimeModel TimeSpec TimeProofs TimeProofs2.

Section Adj.
Context {DQ DX E : Type}.
Notation event := (event DQ DX).

(** Adjacent pairs in a newest-first history: [adj tr a b] when [b] directly follows [a] in time. *)
Definition adj (tr : list event) (a b : event) : Prop := exists l1 l2, tr = l1 ++ b :: a :: l2.

Lemma adj_cons tr x a b :
  adj (x :: tr) a b -> (b = x /\ exists tl, tr = a :: tl) \/ adj tr a b.
Proof.
  intros (l1 & l2 & H). destruct l1 as [|y l1]; simpl in H; inversion H; subst.
  - left. eauto.
  - right. exists l1, l2. reflexivity.
Qed.

Lemma consecutive_rev tr a b : consecutive (rev tr) a b -> adj tr a b.
Proof.
  intros (l1 & l2 & H). exists (rev l2), (rev l1).
  rewrite <- (rev_involutive tr), H, rev_app_distr. simpl.
  rewrite <- !app_assoc. reflexivity.
Qed.

Variable stepf : Q -> option Q -> solver E -> sol DQ DX -> solver E * sol DQ DX.
Variable acceptf : solver E -> bool.
Variable before : sol DQ DX -> DQ * DX.

(** Facts available about the solver after the attempt recorded as [ev]. *)
Definition after_ev (s : solver E) (so : sol DQ DX) (tr : list event) : Prop :=
  match tr with
  | [] => True
  | ev :: _ => dt s = ev_dt ev /\ cfl s = ev_cfl ev /\ accept_step s = ev_accepted ev /\
               dt_old s <> None /\ so = ev_after ev /\
               (ev_accepted ev = true -> cfl s <= cfl_max s) /\
               (ev_accepted ev = false -> cfl_max s < cfl s) /\ 0 < dt s
  end.

(** A relation [R] between a solver state before a step and the outcome of the step holds between
    every attempt and its successor. *)
Lemma loop_adj (Hfr : step_frame stepf) (Hold : forall tstart tend s so s' so',
     stepf tstart tend s so = (s', so') -> dt_old s' <> None)
  (Hh : honours stepf)
  (Hacc : forall s, acceptf s = true <-> cfl s <= cfl_max s)
  s0 te tstart (R : event -> event -> Prop)
  (HR : forall s so s' so' a b tl, Good s -> same_params s0 s -> tstart < te -> st so < te ->
     after_ev s so (a :: tl) ->
     stepf tstart (Some te) s (mkSol (fst (before so)) (snd (before so)) (st so)) = (s', so') ->
     ev_dt b = dt s' -> ev_cfl b = cfl s' -> ev_before b = so ->  R a b) :
  forall k n s so num tr s' so' num' tr' e,
    Good s -> same_params s0 s -> tstart < te -> st so < te -> after_ev s so tr ->
    (forall a b, adj tr a b -> R a b) ->
    evolve_loop stepf acceptf before k n tstart (Some te) s so num tr = (s', so', num', tr', e) ->
    forall a b, adj tr' a b -> R a b.
Proof.
  induction k as [|k IH]; intros n s so num tr s' so' num' tr' e HG Hp Hst Ht Haft HRtr Hl;
    cbn [evolve_loop] in Hl.
  - inversion Hl; subst. assumption.
  - destruct (attempt stepf acceptf before tstart (Some te) n s so) as [[[s1 so1] ev] e1] eqn:Ha.
    destruct (attempt_inv _ _ _ Hfr _ _ _ _ _ _ _ _ _ Ha)
      as (s2 & so2 & Hs & Hp1 & Hp2 & Htt & Hdt & Hcfl & Hdo & _ & _ & _ & Hb & Haf & Hed & Hec & Hea & Hacs & Hcase).
    destruct (Hh _ _ _ (mkSol (fst (before so)) (snd (before so)) (st so)) _ _ HG Hst Ht Hs) as [Hd1 Hd2].
    simpl in Hd2.
    assert (HRtr' : forall a b, adj (ev :: tr) a b -> R a b).
    { intros a b Hab. destruct (adj_cons _ _ _ _ Hab) as [[-> (tl & ->)]|Hab']; [|auto].
      eapply HR; try eassumption. }
    assert (HG1 : Good s1) by (eapply Good_same; [exact HG|exact Hp2|rewrite Hdt; assumption]).
    assert (Haft' : after_ev s1 so1 (ev :: tr)).
    { cbn. rewrite Hdt, Hcfl, Hed, Hec, Hacs, Hea, Haf, Hdo.
      assert (cfl_max s1 = cfl_max s2) as HM.
      { destruct Hp1 as (_ & _ & _ & M1 & _), Hp2 as (_ & _ & _ & M2 & _). congruence. }
      rewrite HM. repeat split; auto.
      - apply (Hold _ _ _ _ _ _ Hs).
      - apply Hacc.
      - intros Hx. apply Qnot_le_lt. intros K. apply Hacc in K. congruence. }
    destruct e1 as [x|].
    + inversion Hl; subst. assumption.
    + destruct (finished (Some te) so1) eqn:Hf.
      * inversion Hl; subst. assumption.
      * unfold finished in Hf. qprop.
        exact (IH _ _ _ _ _ _ _ _ _ _ HG1 (same_params_trans _ _ _ Hp Hp2) Hst Hf Haft' HRtr' Hl).
Qed.

Lemma evolve_adj (Hfr : step_frame stepf) (Hold : forall tstart tend s so s' so',
     stepf tstart tend s so = (s', so') -> dt_old s' <> None)
  (Hh : honours stepf)
  (Hacc : forall s, acceptf s = true <-> cfl s <= cfl_max s)
  s so te r (R : event -> event -> Prop)
  (HR : forall s1 so1 s' so' a b tl, Good s1 -> same_params s s1 -> st so < te -> st so1 < te ->
     after_ev s1 so1 (a :: tl) ->
     stepf (st so) (Some te) s1 (mkSol (fst (before so1)) (snd (before so1)) (st so1)) = (s', so') ->
     ev_dt b = dt s' -> ev_cfl b = cfl s' -> ev_before b = so1 -> R a b) :
  Good s -> evolve_to_time stepf acceptf before s so (Some te) = r ->
  forall a b, consecutive (r_trace r) a b -> R a b.
Proof.
  intros HG <-. unfold evolve_to_time. cbv zeta.
  assert (Hnil : forall a b, consecutive (@nil event) a b -> R a b).
  { intros a b (l1 & l2 & H). destruct l1; discriminate. }
  destruct (evolve_setup (st so) (Some te) s) as [s1 [e|]] eqn:Hset; [exact Hnil|].
  destruct (setup_inv _ _ _ _ Hset (proj1 HG)) as [Hcd Hs1].
  destruct (qleb te (st so)) eqn:Ete; subst s1; [simpl; exact Hnil|].
  qprop.
  destruct (evolve_loop _ _ _ _ 0 (st so) (Some te) s so 0 []) as [[[[s2 so2] num] tr] e2] eqn:Hl.
  assert (HRn : forall a b, adj (@nil event) a b -> R a b).
  { intros a b (l1 & l2 & H). destruct l1; discriminate. }
  pose proof (loop_adj Hfr Hold Hh Hacc s te (st so) R HR _ _ _ _ _ _ _ _ _ _ _
     HG (same_params_refl s) Ete Ete (I : after_ev s so []) HRn Hl) as HL.
  destruct e2; cbn [r_trace]; intros a b Hab; apply HL; apply consecutive_rev; assumption.
Qed.
End Adj.

(** *** get_dt, quantitatively *)
Lemma get_dt_value {E} new t tstart te (s : solver E) :
  tstart < te ->
  let base := dt (get_dt_choose new s) in
  let d := dt (get_dt new t tstart (Some te) s) in
  (d = base /\ t + base <= te) \/
  (d == te - t /\ te - t < base) \/
  (d == te - t /\ te - t - base < eps14 * t).
Proof.
  intros Hst. cbv zeta. unfold get_dt, get_dt_clip. cbv zeta.
  set (c := get_dt_choose new s).
  assert (HR : Qred (te - t) == te - t) by apply Qred_correct.
  destruct (qltb te (t + dt c) && qltb tstart te)%bool eqn:E1.
  - qprop. right. left. destruct (qltb _ (eps14 * t)); simpl; rewrite HR; lra.
  - destruct (qltb (te - t - dt c) (eps14 * t)) eqn:E2.
    + qprop. right. right. simpl. rewrite HR. lra.
    + left. split; [reflexivity|].
      apply andb_false_iff in E1. destruct E1 as [E1|E1]; qprop; lra.
Qed.

Lemma choose_pos_cfl {E} new (s : solver E) :
  dt_variable s = true -> dt_old s <> None -> 0 < cfl s -> dt (get_dt_choose new s) = dt (new s).
Proof.
  intros Hv Ho Hc. unfold get_dt_choose. rewrite Hv. destruct (dt_old s); [|congruence]. simpl.
  destruct (qltb 0 (cfl s)) eqn:E1; [reflexivity|]. qprop. lra.
Qed.

Definition retry_bound (te cd : Q) (d c t d' : Q) : Prop :=
  d' <= d * cd / c \/ (te - t - d * cd / c < eps14 * t /\ d' == te - t).

Lemma get_dt_retry {E} new (Hnew : forall s : solver E, dt (new s) <= dt s * cfl_desired s / cfl s)
  t tstart te s :
  dt_variable s = true -> dt_old s <> None -> 0 < cfl s -> tstart < te ->
  retry_bound te (cfl_desired s) (dt s) (cfl s) t (dt (get_dt new t tstart (Some te) s)).
Proof.
  intros Hv Ho Hc Hst. unfold retry_bound.
  pose proof (get_dt_value new t tstart te s Hst) as HV. cbv zeta in HV.
  rewrite (choose_pos_cfl new s Hv Ho Hc) in HV. specialize (Hnew s).
  destruct HV as [[-> _]|[[H1 H2]|[H1 H2]]]; [left; lra|left; lra|right; split; [lra|assumption]].
Qed.

Lemma base_new_bound {E} (s : solver E) : dt (get_dt_new s) <= dt s * cfl_desired s / cfl s.
Proof.
  unfold get_dt_new. simpl. pose proof (Qred_correct (dt s * cfl_desired s / cfl s)) as HR.
  destruct (pymin_spec (dt_max s) (Qred (dt s * cfl_desired s / cfl s))) as (_ & H & _). lra.
Qed.
Lemma sharp_new_bound {DQ} (s : solver DQ) : dt (sharp_get_dt_new s) <= dt s * cfl_desired s / cfl s.
Proof. unfold sharp_get_dt_new. simpl. rewrite Qred_correct. lra. Qed.

Lemma classic_old {DQ DX E} src hyp sp tstart tend s so s' so' :
  @classic_step DQ DX E src hyp sp tstart tend s so = (s', so') -> dt_old s' <> None.
Proof.
  intros H. destruct (classic_dt _ _ _ _ _ _ _ _ _ H) as (_ & -> & _).
  apply get_dt_dt_old. intros s0 H0. exact H0.
Qed.
Lemma sharp_old {DQ DX} slope stages tstart tend s so s' so' :
  @sharp_step DQ DX slope stages tstart tend s so = (s', so') -> dt_old s' <> None.
Proof.
  intros H. destruct (sharp_dt _ _ _ _ _ _ _ _ H) as (s1 & _ & _ & _ & _ & _ & ->). discriminate.
Qed.

Lemma quotient_shrinks d cd cm c : 0 < d -> 0 < cd -> cd <= cm -> cm < c ->
  d * cd / c < d * cd / cm /\ d * cd / cm <= d.
Proof.
  intros Hd Hcd Hcm Hc.
  assert (0 < d * cd) by (apply Qmul_pos; assumption).
  split.
  - apply Qlt_shift_div_l; [lra|].
    setoid_replace (d * cd / c * cm) with (d * cd * (cm / c)) by (field; lra).
    assert (cm / c < 1) by (apply Qlt_shift_div_r; lra).
    nra.
  - apply Qle_shift_div_r; [lra|]. nra.
Qed.

(** C03 for any step built on get_dt. *)
Definition retry_rel {DQ DX} (te cd cm : Q) (a b : event DQ DX) : Prop :=
  ev_accepted a = false ->
  st (ev_before b) = st (ev_after a) /\
  (ev_dt b < ev_dt a * cd / cm \/
   (te - st (ev_after a) - ev_dt a * cd / ev_cfl a < eps14 * st (ev_after a) /\
    ev_dt b == te - st (ev_after a))).

Lemma retry_rel_intro {DQ DX E} (s1 : solver E) (so1 : sol DQ DX) te (a b : event DQ DX) tl :
  Good s1 -> cfl_desired s1 <= cfl_max s1 -> after_ev s1 so1 (a :: tl) ->
  ev_before b = so1 ->
  (ev_accepted a = false ->
   retry_bound te (cfl_desired s1) (dt s1) (cfl s1) (st so1) (ev_dt b)) ->
  retry_rel te (cfl_desired s1) (cfl_max s1) a b.
Proof.
  intros (G1 & G2 & G3 & G4) Hcd (A1 & A2 & A3 & A4 & A5 & A6 & A7 & A8) Hb Hrb Hrej.
  specialize (A7 Hrej). specialize (Hrb Hrej).
  rewrite Hb, A5. split; [reflexivity|].
  rewrite A1, A2, A5 in Hrb.
  destruct (quotient_shrinks (dt s1) (cfl_desired s1) (cfl_max s1) (cfl s1)) as [Q1 Q2]; try assumption.
  rewrite A1, A2 in Q1.
  destruct Hrb as [H|H]; [left; lra|right; assumption].
Qed.

Lemma classic_retry {DQ DX E} src hyp sp before (s : solver E) (so : sol DQ DX) te r :
  Good s -> cfl_desired s <= cfl_max s ->
  classic_evolve src hyp sp before s so (Some te) = r ->
  forall a b, consecutive (r_trace r) a b -> retry_rel te (cfl_desired s) (cfl_max s) a b.
Proof.
  intros HG Hcd Hr. unfold classic_evolve in Hr.
  eapply (evolve_adj _ _ _ (classic_frame src hyp sp) (classic_old src hyp sp)
            (classic_honours src hyp sp) (fun s => accept_base s) s so te r); [|exact HG|exact Hr].
  intros s1 so1 s' so' a b tl HG1 Hp Hst Ht Haft Hs Hd Hc Hb.
  destruct Hp as (P1 & P2 & P3 & P4 & P5). rewrite <- P3, <- P4.
  eapply retry_rel_intro; try eassumption; [rewrite P3, P4; assumption|].
  intros Hrej. destruct Haft as (A1 & A2 & A3 & A4 & A5 & A6 & A7 & A8).
  specialize (A7 Hrej).
  destruct (classic_dt _ _ _ _ _ _ _ _ _ Hs) as (Hds & _). rewrite Hd, Hds.
  apply get_dt_retry; try assumption; [apply base_new_bound|apply HG1|].
  destruct HG1 as (_ & _ & _ & Hpos). rewrite P3, P4 in *. lra.
Qed.

Lemma sharp_retry {DQ DX} slope stages before (s : solver DQ) (so : sol DQ DX) te r :
  Good s -> cfl_desired s <= cfl_max s ->
  sharp_evolve slope stages before s so (Some te) = r ->
  forall a b, consecutive (r_trace r) a b -> retry_rel te (cfl_desired s) (cfl_max s) a b.
Proof.
  intros HG Hcd Hr. unfold sharp_evolve in Hr.
  eapply (evolve_adj _ _ _ (sharp_frame slope stages) (sharp_old slope stages)
            (sharp_honours slope stages) (fun s => accept_base s) s so te r); [|exact HG|exact Hr].
  intros s1 so1 s' so' a b tl HG1 Hp Hst Ht Haft Hs Hd Hc Hb.
  destruct Hp as (P1 & P2 & P3 & P4 & P5). rewrite <- P3, <- P4.
  eapply retry_rel_intro; try eassumption; [rewrite P3, P4; assumption|].
  intros Hrej. destruct Haft as (A1 & A2 & A3 & A4 & A5 & A6 & A7 & A8).
  specialize (A7 Hrej). rewrite Hrej in A3.
  destruct (sharp_dt _ _ _ _ _ _ _ _ Hs) as (s2 & _ & _ & _ & Heq & Hds & _).
  rewrite (Heq A3) in Hds. rewrite Hd, Hds.
  apply get_dt_retry; try assumption; [apply sharp_new_bound|apply HG1|].
  destruct HG1 as (_ & _ & _ & Hpos). rewrite P3, P4 in *. lra.
Qed.

(** C11 for the classic solvers, and C10's true part. *)
Definition dtmax_rel {DQ DX} (te dmax : Q) (a b : event DQ DX) : Prop :=
  ev_dt b <= dmax \/ (ev_dt b == te - st (ev_before b) /\
                      ev_dt b < dmax + eps14 * st (ev_before b)).

Lemma choose_le_dtmax {E} (s : solver E) :
  dt_variable s = true -> dt_old s <> None -> dt (get_dt_choose get_dt_new s) <= dt_max s.
Proof.
  intros Hv Ho. unfold get_dt_choose. rewrite Hv. destruct (dt_old s); [|congruence]. simpl.
  destruct (qltb 0 (cfl s)); simpl; [|lra].
  apply pymin_spec.
Qed.

Lemma classic_dtmax {DQ DX E} src hyp sp before (s : solver E) (so : sol DQ DX) te r :
  Good s -> classic_evolve src hyp sp before s so (Some te) = r ->
  forall a b, consecutive (r_trace r) a b -> dtmax_rel te (dt_max s) a b.
Proof.
  intros HG Hr. unfold classic_evolve in Hr.
  eapply (evolve_adj _ _ _ (classic_frame src hyp sp) (classic_old src hyp sp)
            (classic_honours src hyp sp) (fun s => accept_base s) s so te r); [|exact HG|exact Hr].
  intros s1 so1 s' so' a b tl HG1 Hp Hst Ht Haft Hs Hd Hc Hb.
  destruct (classic_dt _ _ _ _ _ _ _ _ _ Hs) as (Hds & _). cbn [st] in Hds.
  destruct Haft as (A1 & A2 & A3 & A4 & A5 & A6 & A7 & A8).
  pose proof (choose_le_dtmax s1 (proj1 HG1) A4) as HM.
  destruct Hp as (P1 & P2 & P3 & P4 & P5). rewrite P2 in HM.
  pose proof (get_dt_value get_dt_new (st so1) (st so) te s1 Hst) as HV. cbv zeta in HV.
  unfold dtmax_rel. rewrite Hd, Hds, Hb.
  destruct HV as [[-> _]|[[H1 H2]|[H1 H2]]]; [left; lra|left; lra|right; split; [assumption|lra]].
Qed.

(** C12 *)
Lemma classic_split {DQ DX E} src hyp sp before (s : solver E) (so : sol DQ DX) tend r ev :
  (sp = 1 \/ sp = 2)%Z ->
  classic_evolve (Some src) hyp sp before s so tend = r ->
  In ev (r_trace r) -> ev_accepted ev = true -> ev_cfl ev < cfl_max s ->
  same_data (ev_after ev)
    ((if Z.eqb sp 2 then strang src hyp else godunov src hyp)
       (ev_dt ev) (apply_before before (ev_before ev))).
Proof.
  intros Hsp Hr.
  set (P := fun ev : event DQ DX => ev_accepted ev = true -> ev_cfl ev < cfl_max s ->
     same_data (ev_after ev)
    ((if Z.eqb sp 2 then strang src hyp else godunov src hyp)
       (ev_dt ev) (apply_before before (ev_before ev)))).
  assert (Hatt : forall tstart n (s1 : solver E) so1 (s' : solver E) so' e1 err, cfl_max s1 = cfl_max s ->
    attempt (classic_step (Some src) hyp sp) accept_reject_step before tstart tend n s1 so1
      = (s', so', e1, err) -> P e1 /\ cfl_max s' = cfl_max s).
  { intros tstart n s1 so1 s' so' e1 er Hcm Ha.
    destruct (attempt_inv _ _ _ (classic_frame (Some src) hyp sp) _ _ _ _ _ _ _ _ _ Ha)
      as (s2 & so2 & Hs & Hp1 & Hp2 & Htt & Hdt & Hcfl & Hdo & _ & _ & _ & Hb & Haf & Hed & Hec & Hea & Hacs & Hcase).
    split; [|rewrite <- Hcm; apply Hp2].
    unfold P. intros Hac Hlt. rewrite Hea in Hac. rewrite Hec in Hlt. rewrite Haf, Hed, Hb.
    assert (Hdata : same_data so' so2).
    { destruct Hcase as [(_ & _ & _ & _ & ->)|[(Hc & _)|(Hc & _)]]; [split; reflexivity| |]; congruence. }
    assert (Hmax : cfl_max s2 = cfl_max s) by (rewrite <- Hcm; apply Hp1).
    clear Ha Hcase.
    unfold classic_step in Hs. cbv zeta in Hs.
    set (g := set_cfl 0 (get_dt get_dt_new _ _ _ _)) in Hs.
    destruct Hdata as [Hd1 Hd2]. unfold same_data. rewrite Hd1, Hd2.
    destruct Hsp as [-> | ->]; cbn [Z.eqb Pos.eqb] in *.
    - unfold godunov, apply_source, apply_hyper, apply_before.
      destruct (hyp (dt g) _) as [[q2 x2] c] eqn:Hh.
      destruct (qleb _ _) eqn:Ecmp.
      + inversion Hs; subst. qprop. cbn [cfl_max set_cfl cfl] in Hmax, Ecmp, Hlt. rewrite Hmax in Ecmp. change (cfl g) with 0 in Ecmp. lra.
      + inversion Hs; subst. simpl in *. rewrite Hh. simpl. auto.
    - unfold strang, apply_source, apply_hyper, apply_before. unfold with_data in Hs.
      destruct (hyp (dt g) _) as [[q2 x2] c] eqn:Hh.
      destruct (qleb _ _) eqn:Ecmp.
      + inversion Hs; subst. qprop. cbn [cfl_max set_cfl cfl] in Hmax, Ecmp, Hlt. rewrite Hmax in Ecmp. change (cfl g) with 0 in Ecmp. lra.
      + inversion Hs; subst. simpl in *. rewrite Hh. simpl. auto. }
  assert (Hloop : forall tstart k n (s1 : solver E) so1 num tr (s' : solver E) so' num' tr' e, cfl_max s1 = cfl_max s ->
    Forall P tr ->
    evolve_loop (classic_step (Some src) hyp sp) accept_reject_step before k n tstart tend s1 so1 num tr
      = (s', so', num', tr', e) -> Forall P tr').
  { induction k as [|k IH]; intros n s1 so1 num tr s' so' num' tr' e Hcm HP Hl; cbn [evolve_loop] in Hl.
    - inversion Hl; subst. assumption.
    - destruct (attempt _ _ _ tstart tend n s1 so1) as [[[s2 so2] ev1] e1] eqn:Ha.
      destruct (Hatt _ _ _ _ _ _ _ _ Hcm Ha) as [Hev Hcm2].
      assert (Forall P (ev1 :: tr)) by (constructor; assumption).
      destruct e1; [inversion Hl; subst; assumption|].
      destruct (finished tend so2); [inversion Hl; subst; assumption|].
      exact (IH _ _ _ _ _ _ _ _ _ _ Hcm2 H Hl). }
  assert (HAll : Forall P (r_trace r)).
  { subst r. unfold classic_evolve, evolve_to_time. cbv zeta.
    destruct (evolve_setup (st so) tend s) as [s1 e1] eqn:Hset.
    destruct (setup_frame _ _ _ _ _ Hset) as (_ & _ & _ & F4 & _).
    destruct e1 as [e|]; [constructor|].
    destruct (evolve_loop _ _ _ _ 0 (st so) tend s1 so 0 []) as [[[[s2 so2] num] tr] e2] eqn:Hl.
    pose proof (Hloop _ _ _ _ _ _ _ _ _ _ _ _ F4 (Forall_nil _) Hl) as HL.
    destruct e2; cbn [r_trace]; apply Forall_rev; assumption. }
  intros Hin. rewrite Forall_forall in HAll. exact (HAll _ Hin).
Qed.
