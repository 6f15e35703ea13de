(** Equilibria of two- and three-dimensional problems with SharpClaw: proofs. *)
From Verif Require Import Base BCModel BCSpec BCProofs LimiterModel Classic1DModel Classic1DSpec Classic1DProofs Classic1DProofs2 Classic1DProofs3 Classic1DProps
  TimeModel SimSpec SymSpec SymProps CapaSpec CapaProofs SharpModel WenoModel SemiModel SemiSpec SemiProofs SemiProps ReconModel
  SweepModel SweepSpec SweepProofs MSemiModel MSemiSpec MSemiProofs MSemiProofs2 MSemiProps EquilSpec EquilProofs EquilProofs2 MEquilSpec.

(** One line *)
Section Line.
Variable C : settings.
Notation ng := (Z.of_nat (c_ng C)).
Notation mx := (ncells (c_bc C)).
Notation neq := (c_neq C).
Hypothesis Hng : (1 <= c_ng C)%nat.
Hypothesis HF : fit_dim (c_ng C) (Nat.ltb 0 (c_naux C)) (Z.of_nat (c_neq C)) (c_bc C).
Hypothesis HR : regular C.
Hypothesis HA : at_rest C.
Hypothesis HN : c_capa C = None.
Lemma line_rest r tf q aux qbc0 auxbc0 : tfluct_at_rest C tf ->
  (forall q a, (forall i, (0 <= i <= mx)%Z ->
      balanced neq (c_nw C) (c_rp C (vec neq q i) (vec neq q (i + 1)) (vec (c_naux C) a i) (vec (c_naux C) a (i + 1)))) ->
    forall m, (0 <= m < Z.of_nat neq)%Z ->
    (forall i, (1 <= i <= mx + 1)%Z -> fst (r q a) m i == q m i) /\ (forall i, (0 <= i <= mx)%Z -> snd (r q a) m i == q m i)) ->
  equilibrium C q aux ->
  exists d cfl, dq_hyperbolic (FRecon r tf) C q aux qbc0 auxbc0 = DQ d cfl /\ forall m i, (0 <= m < Z.of_nat neq)%Z -> (0 <= i < mx)%Z -> d m i == 0.
Proof.
  intros HT HS EQ. destruct (semi_ok (FRecon r tf) C q aux qbc0 auxbc0 Hng HF) as (qbc & auxbc & Hq & Ha & ->).
  assert (HB : forall j, (ng - 1 <= j < ng + mx)%Z ->
    balanced neq (c_nw C) (c_rp C (vec neq qbc j) (vec neq qbc (j + 1)) (vec (c_naux C) auxbc j) (vec (c_naux C) auxbc (j + 1)))).
  { intros j Hj. specialize (EQ (j - ng)%Z). rewrite <- !(vec_at C q qbc _ Hq), <- !(vec_aux_at C HF aux auxbc _ Ha) in EQ by lia.
    replace (j - ng + 1 + ng)%Z with (j + 1)%Z in EQ by lia. replace (j - ng + ng)%Z with j in EQ by lia. apply EQ. unfold cells. lia. }
  cbv zeta. set (fq := fun m i => qbc m (i + ng - 1)%Z). set (fa := fun m i => auxbc m (i + ng - 1)%Z). set (e := r fq fa).
  assert (HE : forall m, (0 <= m < Z.of_nat neq)%Z ->
    (forall i, (1 <= i <= mx + 1)%Z -> fst e m i == fq m i) /\ (forall i, (0 <= i <= mx)%Z -> snd e m i == fq m i)).
  { intros m Hm. apply (HS fq fa); [|exact Hm]. intros i Hi. specialize (HB (i + ng - 1)%Z ltac:(lia)).
    replace (i + ng - 1 + 1)%Z with (i + 1 + ng - 1)%Z in HB by lia. exact HB. }
  destruct (f_semi tf C e fa) as [d cfl] eqn:E. exists (fun m i => d m (i + 1)%Z), cfl. split; [reflexivity|]. intros m i Hm Hi.
  change d with (fst (d, cfl)). rewrite <- E. unfold fa. rewrite f_semi_form by (exact HN || lia).
  apply (semi_balanced C HR qbc auxbc (shift_edges C e) HB); try assumption; try lia.
  - intros k j Hk Hj. cbn [shift_edges fst]. unfold shift_arr. rewrite (proj1 (HE k Hk)) by lia. unfold fq. replace (j - ng + 1 + ng - 1)%Z with j by lia. reflexivity.
  - intros k j Hk Hj. cbn [shift_edges snd]. unfold shift_arr. rewrite (proj2 (HE k Hk)) by lia. unfold fq. replace (j - ng + 1 + ng - 1)%Z with j by lia. reflexivity.
Qed.
End Line.

Section Grid.
Variable S : msettings.
Hypothesis Hg2 : (2 <= n_ng S)%nat.
Hypothesis HF : Forall (fit_dim (n_ng S) (Nat.ltb 0 (n_naux S)) (Z.of_nat (n_neq S))) (n_bcs S).
Hypothesis HR : mregular S.
Lemma Hg : (1 <= n_ng S)%nat. Proof. lia. Qed.
Lemma fit_of d D : In (d, D) (dims S) -> fit_dim (n_ng S) (Nat.ltb 0 (n_naux S)) (Z.of_nat (n_neq S)) D.
Proof. intros H. rewrite Forall_forall in HF. apply HF. apply dims_nth in H. apply nth_error_In in H. exact H. Qed.
Lemma mequil_same q0 q aux : same_mcells S (fun x => q0 (fst x) (snd x)) (fun x => q (fst x) (snd x)) -> mequilibrium S q0 aux -> mequilibrium S q aux.
Proof.
  intros HS EQ d D ix Hd Hx.
  refine (equil_agree (line_settings S d D) Hg2 (fit_of d D Hd) (HR d D Hd) (line d ix q0) (line d ix aux) _ _ _ (EQ d D ix Hd Hx)).
  split; intros m i Hm Hi; [|reflexivity]. unfold line. cbn [hd]. rewrite put_put.
  apply (HS m (put d i ix) Hm). apply (domain_put S Hg d D); assumption.
Qed.
Lemma grid_rest {W} (recon : nat -> W -> (Z -> Z -> Q) -> (Z -> Z -> Q) -> W * edges) tfluct w0 q aux qbc0 auxbc0 :
  mat_rest S tfluct -> n_capa S = None -> determined S recon -> rests S recon -> mequilibrium S q aux ->
  exists dq cfl, mdq_hyperbolic recon tfluct Fortran S w0 q aux qbc0 auxbc0 = MDQ dq cfl /\
  forall m ix, (0 <= m < Z.of_nat (n_neq S))%Z -> in_domain (n_bcs S) ix -> dq m ix == 0.
Proof.
  intros HA HN HD HS EQ. assert (Hk : mcapa_in_aux S) by (intros k E; congruence).
  destruct (C87_sum_of_lines W recon tfluct S w0 q aux qbc0 auxbc0 Hg HF Hk HD) as (dq & cfl & E & H).
  exists dq, cfl. split; [exact E|]. intros m ix Hm Hx. destruct (H w0 qbc0 auxbc0 ix Hx) as [_ H2]. rewrite H2. clear H2 H.
  assert (K : forall ds, (forall x, In x ds -> In x (dims S)) ->
    qsum (map (fun dD => dq_of (along recon tfluct S w0 q aux qbc0 auxbc0 dD ix) m (get (fst dD) ix)) ds) == 0).
  { induction ds as [|[d D] ds IH]; intros Hds; cbn [map]; [reflexivity|].
    change (qsum (?x :: ?l)) with (x + qsum l). rewrite IH by (intros x X; apply Hds; right; exact X).
    pose proof (Hds (d, D) (or_introl eq_refl)) as Hd. destruct (HA d D Hd) as [HA1 HA2].
    destruct (line_rest (line_settings S d D) Hg (fit_of d D Hd) (HR d D Hd) HA1 HN (fun q a => snd (recon d w0 q a)) (option_map (fun tf => tf d) tfluct)
      (line d ix q) (line d ix aux) qbc0 auxbc0 HA2) as (d1 & c1 & E1 & Z1).
    - intros q1 a1 HB k Hkx. exact (HS d D w0 q1 a1 Hd HB k Hkx).
    - exact (EQ d D ix Hd Hx).
    - unfold along. rewrite E1. cbn [dq_of fst]. rewrite (Z1 m (get d ix) Hm); [ring|].
      apply dims_domain in Hx. destruct Hx as [_ Hx]. apply Hx. exact Hd. }
  apply K. auto.
Qed.
End Grid.

(** Wave-based TVD *)
Lemma slice_size_dim S d D : In (d, D) (dims S) -> slice_size S d = ncells D.
Proof. intros H. apply dims_nth in H. unfold slice_size. rewrite H. reflexivity. Qed.
Lemma mtvd_rests ml un S : (1 <= n_ng S)%nat -> rests S (mtvd ml un S).
Proof.
  intros Hg d D w q a Hd HB m Hm. unfold mtvd. cbn [snd]. rewrite (slice_size_dim S d D Hd). unfold tvd_wave_recon. cbv zeta. cbn [undummy fst snd].
  set (g := Z.of_nat (n_ng S)).
  assert (K : forall i, (1 <= i <= ncells D + 1)%Z -> forall p, (0 <= p < Z.of_nat (n_nw S))%Z ->
    wave (dummy_wave (n_rpn S d) (n_neq S) (n_naux S) g q a) m p (i + g)%Z == 0).
  { intros i Hi p Hp. cbn [dummy_wave wave solve_rps]. replace (i + g - g + -1)%Z with (i - 1)%Z by lia.
    destruct (HB (i - 1)%Z ltac:(lia) m Hm) as (_ & _ & X). apply X. exact Hp. }
  split; intros i Hi.
  - match goal with |- fst (tvd2_wave ?a ?b ?c ?d ?f ?g ?h ?k ?w ?s ?q2) _ _ == _ => destruct (tvd2_wave_rest a b c d f g h k w s q2 m (i + c)%Z) as (E1 & _) end;
      [unfold g; lia|apply K; lia|]. rewrite E1. unfold dummy. replace (i + g - g)%Z with i by lia. reflexivity.
  - match goal with |- snd (tvd2_wave ?a ?b ?c ?d ?f ?g ?h ?k ?w ?s ?q2) _ _ == _ => destruct (tvd2_wave_rest a b c d f g h k w s q2 m (i + 1 + c)%Z) as (_ & E1) end;
      [unfold g; lia|apply K; lia|]. replace (i + 1 + g - 1)%Z with (i + g)%Z in E1 by lia. rewrite E1. unfold dummy. replace (i + g - g)%Z with i by lia. reflexivity.
Qed.
Lemma mtvd_determined ml un S : (3 <= n_ng S)%nat -> determined S (mtvd ml un S).
Proof.
  intros Hg d D Hd w w' q q' a a' g HQ HA e e' m Hm. unfold e, e', mtvd. cbn [snd]. rewrite (slice_size_dim S d D Hd). unfold tvd_wave_recon. cbv zeta. cbn [undummy fst snd].
  fold g. set (R := dummy_wave (n_rpn S d) (n_neq S) (n_naux S) g q a). set (R' := dummy_wave (n_rpn S d) (n_neq S) (n_naux S) g q' a').
  assert (O : forall j, (2 <= j <= ncells D + 2 * g)%Z -> (forall k p, wave R k p j = wave R' k p j) /\ (forall p, spd R p j = spd R' p j)).
  { intros j Hj. unfold R, R'. cbn [dummy_wave wave spd solve_rps].
    assert (V : forall i, (1 - g <= i <= ncells D + g)%Z -> vec (n_neq S) q i = vec (n_neq S) q' i /\ vec (n_naux S) a i = vec (n_naux S) a' i).
    { intros i Hi. split; apply Classic1DProofs2.vec_ext; intros k Hk; [apply HQ|apply HA]; assumption. }
    destruct (V (j - g + -1)%Z ltac:(lia)) as [-> ->]. destruct (V (j - g + -1 + 1)%Z ltac:(lia)) as [-> ->]. split; reflexivity. }
  assert (L : forall p j, (1 + g <= j <= ncells D + 1 + g)%Z ->
    wave_slope (n_neq S) g (ncells D + 2 * g) ml un (wave R) (spd R) m p j = wave_slope (n_neq S) g (ncells D + 2 * g) ml un (wave R') (spd R') m p j).
  { intros p j Hj. unfold wave_slope, wave_dot.
    destruct (O j ltac:(unfold g in *; lia)) as [A0 B0]. destruct (O (j + 1)%Z ltac:(unfold g in *; lia)) as [A1 _]. destruct (O (j - 1)%Z ltac:(unfold g in *; lia)) as [A2 _].
    assert (E0 : zsum 0 (n_neq S) (fun m => wave R m p (j + 0)%Z * wave R m p j) = zsum 0 (n_neq S) (fun m => wave R' m p (j + 0)%Z * wave R' m p j)).
    { apply zsum_ext. intros k _. replace (j + 0)%Z with j by lia. rewrite !A0. reflexivity. }
    assert (E1 : zsum 0 (n_neq S) (fun m => wave R m p j * wave R m p (j + 1)%Z) = zsum 0 (n_neq S) (fun m => wave R' m p j * wave R' m p (j + 1)%Z)).
    { apply zsum_ext. intros k _. rewrite A0, A1. reflexivity. }
    assert (E2 : zsum 0 (n_neq S) (fun m => wave R m p (j - 1)%Z * wave R m p j) = zsum 0 (n_neq S) (fun m => wave R' m p (j - 1)%Z * wave R' m p j)).
    { apply zsum_ext. intros k _. rewrite A0, A2. reflexivity. }
    rewrite E0, E1, E2, A0, B0. reflexivity. }
  unfold tvd2_wave. cbn [fst snd]. split; intros i Hi; rewrite in_slice_true by (unfold g in *; lia); unfold dummy; replace (i + g - g)%Z with i by lia;
    rewrite (HQ m i Hm) by (unfold g in *; lia); f_equal; apply zsum_ext; intros p _; apply L; lia.
Qed.
