(** Proofs about the multi-dimensional classic solvers, part 4: sweeps and the one-dimensional solver. *)
From Verif Require Import Base BCModel BCSpec BCProofs LimiterModel LimiterProofs Classic1DModel Classic1DSpec
  Classic1DProofs Classic1DProofs2 ParallelProofs2 SweepModel SweepSpec SweepProofs SweepProofs2 SweepProofs3.

Section L.
Variables (neq nw naux : nat) (ng mx : Z).
Variable fwave : bool.
Variable order : Z.
Variable mthlim : Z -> Z.
Variable undef : Q -> Q -> Z -> Q.
Variable rp : rpsolver.
Variable rpt : rptsolver.
Variables (q a a1 a3 : Z -> Z -> Q) (d : Z -> Q).
Notation R := (solve_rps rp neq naux (-1) q a).
Notation F := (flux2 neq nw naux ng mx fwave order (-1) mthlim undef rp rpt q d a1 a a3).
Notation K := (f_kernel neq nw mx fwave order mthlim undef d R q).

(** flux2 computes what the one-dimensional Fortran kernel computes. *)
Lemma flux2_1d m i : (1 <= ng)%Z -> (1 <= i <= mx)%Z ->
  q m i + qadd F m i - d i * (fadd F m (i + 1)%Z - fadd F m i) == fst K m i.
Proof.
  intros Hg Hi. rewrite qadd_at by lia. unfold flux2. change (Z.leb (-1) 0) with true. cbn [fadd].
  unfold f_kernel. cbv zeta. destruct (Z.eqb order 1); cbn [negb andb fst].
  - unfold f_godunov. rewrite !in_slice_true by lia. ring.
  - rewrite !in_slice_true by lia. unfold f_godunov. rewrite !in_slice_true by lia.
    assert (FE : forall e, (1 <= e <= mx + 1)%Z ->
      (1 # 2) * f_cqxx nw fwave d (spd R) (if any_limiter nw mthlim then f_limiter neq mx mthlim undef (wave R) (spd R) else wave R) m e ==
      f_flux nw mx fwave d (spd R) (if any_limiter nw mthlim then f_limiter neq mx mthlim undef (wave R) (spd R) else wave R) m e).
    { intros e He. unfold f_flux, f_cqxx. rewrite in_slice_true by lia. rewrite <- zsum_scale. apply zsum_eq. intros mw _. cbv zeta.
      destruct fwave; ring. }
    rewrite !FE by lia. ring.
Qed.
Lemma cfl_1d : cfl1d F = snd K.
Proof.
  unfold flux2. change (Z.leb (-1) 0) with true. cbn [cfl1d]. unfold f_kernel. cbv zeta. destruct (Z.eqb order 1); reflexivity.
Qed.

Lemma update_ext nw' sec p fc fc' dd dd' R1 R2 u u' m i :
  (forall j, dd j == dd' j) -> (forall mw j, fc mw j = fc' mw j) ->
  (forall m mw j, wave R1 m mw j = wave R2 m mw j) -> (forall mw j, spd R1 mw j = spd R2 mw j) ->
  (forall m j, amdq R1 m j = amdq R2 m j) -> (forall m j, apdq R1 m j = apdq R2 m j) -> u m i = u' m i ->
  update nw' sec p fc dd R1 u m i == update nw' sec p fc' dd' R2 u' m i.
Proof.
  intros H1 H2 H3 H4 H5 H6 H7. unfold update. rewrite H7, H5, H6.
  assert (Cc : forall e, corr nw' p fc dd R1 m e == corr nw' p fc' dd' R2 m e).
  { intros e. unfold corr. apply zsum_eq. intros mw _. rewrite H2, H3, H4. rewrite (H1 e), (H1 (e - 1)%Z). reflexivity. }
  destruct sec; [rewrite !Cc|]; rewrite (H1 i); reflexivity.
Qed.
Lemma f_factor_ext w w' s s' lim i : (forall m j, w m j = w' m j) -> (forall j, s j = s' j) ->
  f_factor neq undef w s lim i = f_factor neq undef w' s' lim i.
Proof.
  intros Hw Hs. unfold f_factor. rewrite Hs.
  rewrite (zsum_ext 0 neq (fun m => w m i * w m i) (fun m => w' m i * w' m i)) by (intros; rewrite Hw; reflexivity).
  rewrite (zsum_ext 0 neq (fun m => w m (i - 1)%Z * w m i) (fun m => w' m (i - 1)%Z * w' m i)) by (intros; rewrite !Hw; reflexivity).
  rewrite (zsum_ext 0 neq (fun m => w m i * w m (i + 1)%Z) (fun m => w' m i * w' m (i + 1)%Z)) by (intros; rewrite !Hw; reflexivity).
  reflexivity.
Qed.

(** Nothing happens along a slice without waves and fluctuations. *)
Lemma flux2_still m i : (0 <= m < Z.of_nat neq)%Z -> (1 <= i <= mx)%Z ->
  (forall e, (i <= e <= i + 1)%Z -> amdq R m e == 0 /\ apdq R m e == 0 /\
     forall mw, (0 <= mw < Z.of_nat nw)%Z -> wave R m mw e == 0) ->
  qadd F m i == 0 /\ fadd F m i == 0 /\ fadd F m (i + 1)%Z == 0.
Proof.
  intros Hm Hi H. split; [|].
  - rewrite qadd_at by lia. destruct (H i ltac:(lia)) as (_ & A & _). destruct (H (i + 1)%Z ltac:(lia)) as (B & _). rewrite A, B. ring.
  - assert (E : forall e, (i <= e <= i + 1)%Z -> fadd F m e == 0).
    { intros e He. unfold flux2. change (Z.leb (-1) 0) with true. cbn [fadd].
      destruct (negb (Z.eqb order 1) && in_slice (2 - ng) (mx + ng + 1) e)%bool; [|reflexivity].
      assert (Z0 : f_cqxx nw fwave d (spd R) (if any_limiter nw mthlim then f_limiter neq mx mthlim undef (wave R) (spd R) else wave R) m e == 0).
      { unfold f_cqxx. apply zsum_zero. intros mw Hmw. destruct (H e He) as (_ & _ & W). specialize (W mw ltac:(lia)).
        assert (L : (if any_limiter nw mthlim then f_limiter neq mx mthlim undef (wave R) (spd R) else wave R) m mw e == 0).
        { destruct (any_limiter nw mthlim); [|exact W]. unfold f_limiter. destruct (Z.eqb (mthlim mw) 0); [exact W|].
          replace (Z.to_nat (mx + 2)) with (Datatypes.S (Z.to_nat (mx + 1))) by lia.
          rewrite f_limiter_exact by lia. unfold f_lim_at. destruct (qeqb _ 0); rewrite W; [reflexivity|ring]. }
        destruct fwave; rewrite L; ring. }
      rewrite Z0. reflexivity. }
    split; apply E; lia.
Qed.
End L.

Section S.
Variable pow : Q -> Q -> Q.
Variable undef : Q -> Q -> Z -> Q.
Variable S : msettings.
Notation neq := (n_neq S).
Notation g := (Z.of_nat (n_ng S)).
Notation ns := (map ncells (n_bcs S)).
Notation mxd d := (nth d ns 0%Z).
Hypothesis Hg : (1 <= n_ng S)%nat.
Hypothesis Hn : Forall (fun n => 0 <= n)%Z ns.

Lemma visited_swept d ix : (d < length (n_bcs S))%nat -> visited S d ix <->
  length ix = length ns /\ swept S (layers S) d ix = true.
Proof.
  intros Hd. pose proof (layers_nonneg S) as Hl. unfold visited, swept. rewrite ?map_length, andb_true_iff, existsb_exists. split.
  - intros [HL H]. split; [exact HL|]. split.
    + exists (put d 0 ix). split; [|apply zlist_eqb_refl]. apply lines_in; [exact Hl|exact Hn|]. rewrite put_length. split; [rewrite map_length; exact HL|].
      intros j Hj. rewrite map_length in Hj. specialize (H j Hj). cbv zeta in H. destruct (Nat.eqb_spec j d) as [E|Hne]; [subst j; apply get_put; lia|].
      rewrite get_put_other by lia. exact H.
    + specialize (H d Hd). cbv zeta in H. rewrite Nat.eqb_refl in H. unfold in_slice. lia.
  - intros [HL [(b & Hb & E) Hi]]. split; [exact HL|]. intros j Hj. cbv zeta. apply zlist_eqb_eq in E. subst b.
    apply lines_in in Hb; [|exact Hl|exact Hn]. destruct Hb as [_ Hb]. rewrite map_length in Hb. specialize (Hb j Hj).
    destruct (Nat.eqb_spec j d) as [E|Hne]; [subst j; unfold in_slice in Hi; lia|]. rewrite get_put_other in Hb by lia. exact Hb.
Qed.

Lemma line_change_1d d base auxbc q m i : (1 <= i <= mxd d)%Z ->
  line_change S d (line_flux undef S d base auxbc q) (slice (n_ng S) d base auxbc) (slice (n_ng S) d base q m i) m i ==
  fst (f_kernel neq (n_nw S) (mxd d) (n_fwave S) (n_order S) (n_mthlim S) undef (line_dtdx S d (slice (n_ng S) d base auxbc))
    (solve_rps (n_rpn S d) neq (n_naux S) (-1) (slice (n_ng S) d base q) (slice (n_ng S) d base auxbc)) (slice (n_ng S) d base q)) m i.
Proof.
  intros Hi. set (F := line_flux undef S d base auxbc q). set (s := slice (n_ng S) d base q). set (a := slice (n_ng S) d base auxbc).
  assert (E : s m i + qadd F m i - line_dtdx S d a i * (fadd F m (i + 1)%Z - fadd F m i) ==
    fst (f_kernel neq (n_nw S) (mxd d) (n_fwave S) (n_order S) (n_mthlim S) undef (line_dtdx S d a) (solve_rps (n_rpn S d) neq (n_naux S) (-1) s a) s) m i).
  { unfold F, line_flux. cbv zeta. fold s a. apply flux2_1d; lia. }
  rewrite <- E. unfold line_change, line_dtdx. destruct (n_capa S) as [k|]; [|ring]. unfold Qdiv. ring.
Qed.

(** ** A sweep is the one-dimensional solver on every slice *)
Theorem sweep_1d d alias auxbc q m ix D q1 c1 :
  (d < length (n_bcs S))%nat -> visited S d ix -> ncells D = mxd d -> (0 <= m < Z.of_nat neq)%Z ->
  kernel pow undef Fortran (line_settings S d D) (fun m i => q m (put d i ix)) (fun m i => auxbc m (put d i ix)) = Some (q1, c1) ->
  fst (sweep undef S (layers S) alias d auxbc q q) m ix == q1 m (get d ix).
Proof.
  intros Hd HV HD Hm HK. destruct (sweep_at undef S Hg Hn (layers S) alias d auxbc q (layers_nonneg S) Hd) as [A _].
  rewrite A by exact Hm. unfold sweep_value. pose proof (proj1 (visited_swept d ix Hd) HV) as [HL Hs]. rewrite Hs.
  unfold kernel, line_settings in HK. cbn [c_neq c_nw c_naux c_ng c_fwave c_order c_mthlim c_rp c_dx c_dt c_capa c_bc c_funs] in HK.
  rewrite HD in HK.
  destruct (f_dtdx _ _ _ _ _) as [dd|] eqn:Ed; [|discriminate].
  destruct (f_kernel _ _ _ _ _ _ _ _ _ _) as [qf cf] eqn:Ek. injection HK as <- <-.
  assert (I : (1 <= get d ix - g + 1 <= mxd d)%Z).
  { destruct HV as [_ HV]. specialize (HV d Hd). cbv zeta in HV. rewrite Nat.eqb_refl in HV. lia. }
  set (base := put d 0 ix). set (i := (get d ix - g + 1)%Z) in *.
  set (s := slice (n_ng S) d base q). set (a := slice (n_ng S) d base auxbc).
  assert (V0 : q m ix = s m i).
  { unfold s, slice, base, i. rewrite put_put. replace (get d ix - g + 1 + g - 1)%Z with (get d ix) by lia. rewrite put_get. reflexivity. }
  assert (Ls : forall m j, q m (put d (j + g - 1) ix) = s m j) by (intros; unfold s, slice, base; rewrite put_put; reflexivity).
  assert (La : forall m j, auxbc m (put d (j + g - 1) ix) = a m j) by (intros; unfold a, slice, base; rewrite put_put; reflexivity).
  assert (VE : forall e, vec neq s e = vec neq (fun m i => q m (put d (i + g - 1) ix)) e) by (intros; apply vec_ext; intros; symmetry; apply Ls).
  assert (VA : forall e, vec (n_naux S) a e = vec (n_naux S) (fun m i => auxbc m (put d (i + g - 1) ix)) e) by (intros; apply vec_ext; intros; symmetry; apply La).
  assert (Dd : forall j, dd j == line_dtdx S d a j).
  { intros j. unfold f_dtdx in Ed. unfold line_dtdx. destruct (n_capa S) as [k|]; cbn [option_map] in Ed.
    - destruct (forallb _ _); [|discriminate]. injection Ed as <-. rewrite La. unfold Qdiv. rewrite Qinv_mult_distr. ring.
    - injection Ed as <-. reflexivity. }
  rewrite V0. etransitivity; [apply line_change_1d; exact I|].
  replace qf with (fst (qf, cf)) by reflexivity. rewrite <- Ek. fold i.
  fold s a. rewrite !f_kernel_interior by lia.
  apply update_ext.
  - intros j. symmetry. apply Dd.
  - intros mw j. unfold f_fac. destruct (any_limiter _ _); [|reflexivity]. destruct (Z.eqb _ 0); [reflexivity|].
    assert (E : forall m mw e, wave (solve_rps (n_rpn S d) neq (n_naux S) (-1) s a) m mw e =
       wave (solve_rps (n_rpn S d) neq (n_naux S) (-1) (fun m i => q m (put d (i + g - 1) ix)) (fun m i => auxbc m (put d (i + g - 1) ix))) m mw e).
    { intros. cbn [solve_rps wave]. rewrite !VE, !VA. reflexivity. }
    assert (E2 : forall mw e, spd (solve_rps (n_rpn S d) neq (n_naux S) (-1) s a) mw e =
       spd (solve_rps (n_rpn S d) neq (n_naux S) (-1) (fun m i => q m (put d (i + g - 1) ix)) (fun m i => auxbc m (put d (i + g - 1) ix))) mw e).
    { intros. cbn [solve_rps spd]. rewrite !VE, !VA. reflexivity. }
    apply f_factor_ext; [intros; apply E|intros; apply E2].
  - intros. cbn [f_shift solve_rps wave]. rewrite !VE, !VA. reflexivity.
  - intros. cbn [f_shift solve_rps spd]. rewrite !VE, !VA. reflexivity.
  - intros. cbn [f_shift solve_rps amdq]. rewrite !VE, !VA. reflexivity.
  - intros. cbn [f_shift solve_rps apdq]. rewrite !VE, !VA. reflexivity.
  - symmetry. apply Ls.
Qed.

(** Slices that look the same give the same values. *)
Lemma sweep_value_same d ext auxbc q m ix ix' : mcapa_in_aux S -> (d < length (n_bcs S))%nat -> (0 <= m < Z.of_nat neq)%Z ->
  swept S ext d ix = true -> swept S ext d ix' = true -> get d ix = get d ix' ->
  (forall v c, (0 <= c < Z.of_nat neq)%Z -> (g - reach (n_nw S) (n_order S) (n_mthlim S) <= v < g + mxd d + reach (n_nw S) (n_order S) (n_mthlim S))%Z ->
     q c (put d v ix) = q c (put d v ix')) ->
  (forall v c, (0 <= c < Z.of_nat (n_naux S))%Z -> (g - reach (n_nw S) (n_order S) (n_mthlim S) <= v < g + mxd d + reach (n_nw S) (n_order S) (n_mthlim S))%Z ->
     auxbc c (put d v ix) = auxbc c (put d v ix')) ->
  sweep_value undef S ext d auxbc q (q m ix) m ix = sweep_value undef S ext d auxbc q (q m ix') m ix'.
Proof.
  intros Hk Hd Hm H1 H2 HG HQ HA. unfold sweep_value. rewrite H1, H2, <- HG. set (i := (get d ix - g + 1)%Z).
  assert (I : (1 <= i <= mxd d)%Z).
  { unfold swept in H1. apply andb_true_iff in H1. destruct H1 as [_ H1]. unfold in_slice in H1. unfold i. lia. }
  pose proof (reach_1 (n_nw S) (n_order S) (n_mthlim S)) as R1. set (r := reach (n_nw S) (n_order S) (n_mthlim S)) in *.
  assert (Q0 : q m ix = q m ix').
  { rewrite <- (put_get d ix), <- (put_get d ix'), <- HG. apply HQ; [exact Hm|unfold i in I; lia]. }
  assert (SQ : forall k mm, (0 <= mm < Z.of_nat neq)%Z -> (1 - r <= k <= mxd d + r)%Z ->
     slice (n_ng S) d (put d 0 ix) q mm k = slice (n_ng S) d (put d 0 ix') q mm k).
  { intros k mm Hmm Hkk. unfold slice. rewrite !put_put. apply HQ; [exact Hmm|lia]. }
  assert (SA : forall k mm, (0 <= mm < Z.of_nat (n_naux S))%Z -> (1 - r <= k <= mxd d + r)%Z ->
     slice (n_ng S) d (put d 0 ix) auxbc mm k = slice (n_ng S) d (put d 0 ix') auxbc mm k).
  { intros k mm Hmm Hkk. unfold slice. rewrite !put_put. apply HA; [exact Hmm|lia]. }
  assert (N : forall e, (1 <= e <= mxd d + 1)%Z -> near neq (n_naux S) r
      (slice (n_ng S) d (put d 0 ix) q) (line_dtdx S d (slice (n_ng S) d (put d 0 ix) auxbc)) (slice (n_ng S) d (put d 0 ix) auxbc) e
      (slice (n_ng S) d (put d 0 ix') q) (line_dtdx S d (slice (n_ng S) d (put d 0 ix') auxbc)) (slice (n_ng S) d (put d 0 ix') auxbc) e).
  { intros e He k Hkk. split; [|split].
    - apply vec_ext. intros mm Hmm. apply SQ; [exact Hmm|lia].
    - apply vec_ext. intros mm Hmm. apply SA; [exact Hmm|lia].
    - apply line_dtdx_eq; [exact Hk|]. intros mm Hmm. apply SA; [exact Hmm|lia]. }
  unfold line_change. rewrite Q0.
  assert (E1 : qadd (line_flux undef S d (put d 0 ix) auxbc q) m i = qadd (line_flux undef S d (put d 0 ix') auxbc q) m i).
  { unfold line_flux. cbv zeta. rewrite !qadd_at by lia.
    destruct (near_R neq (n_naux S) (n_rpn S d) _ _ _ _ _ _ i i (near_weaken _ _ _ _ _ _ _ _ _ 1 i i R1 (N i ltac:(lia)))) as (_ & _ & _ & A1).
    destruct (near_R neq (n_naux S) (n_rpn S d) _ _ _ _ _ _ (i + 1)%Z (i + 1)%Z (near_weaken _ _ _ _ _ _ _ _ _ 1 (i + 1) (i + 1) R1 (N (i + 1)%Z ltac:(lia)))) as (_ & _ & A2 & _).
    rewrite A1, A2. rewrite (line_dtdx_eq S Hk d _ (slice (n_ng S) d (put d 0 ix') auxbc) i i); [reflexivity|].
    intros mm Hmm. apply SA; [exact Hmm|lia]. }
  assert (E2 : forall e, (1 <= e <= mxd d + 1)%Z -> fadd (line_flux undef S d (put d 0 ix) auxbc q) m e = fadd (line_flux undef S d (put d 0 ix') auxbc q) m e).
  { intros e He. unfold line_flux. cbv zeta. apply near_fadd; try lia. apply N. exact He. }
  rewrite E1, !E2 by lia. destruct (n_capa S) as [k|] eqn:Ek; [|reflexivity].
  rewrite (SA i k); [reflexivity|apply Hk; exact Ek|lia].
Qed.

(** A sweep over data that does not vary along dimension d changes nothing. *)
Lemma sweep_still d ext auxbc q m ix : (d < length (n_bcs S))%nat -> (0 <= m < Z.of_nat neq)%Z -> (d < length ix)%nat ->
  still neq (n_nw S) (n_rpn S d) ->
  (forall v c, (0 <= c < Z.of_nat neq)%Z -> (g - 1 <= v <= g + mxd d)%Z -> q c (put d v ix) = q c ix) ->
  (forall v c, (0 <= c < Z.of_nat (n_naux S))%Z -> (g - 1 <= v <= g + mxd d)%Z -> auxbc c (put d v ix) = auxbc c ix) ->
  sweep_value undef S ext d auxbc q (q m ix) m ix == q m ix.
Proof.
  intros Hd Hm HL HS HQ HA. unfold sweep_value. destruct (swept S ext d ix) eqn:Es; [|reflexivity].
  unfold swept in Es. apply andb_true_iff in Es. destruct Es as [_ Es]. unfold in_slice in Es.
  assert (V : forall e, (0 <= e <= mxd d + 1)%Z -> vec neq (slice (n_ng S) d (put d 0 ix) q) e = vec neq (fun c _ => q c ix) 0 /\
       vec (n_naux S) (slice (n_ng S) d (put d 0 ix) auxbc) e = vec (n_naux S) (fun c _ => auxbc c ix) 0).
  { intros e He. split; apply vec_ext; intros c Hc; unfold slice; rewrite put_put; [apply HQ|apply HA]; try assumption; lia. }
  destruct (flux2_still neq (n_nw S) (n_naux S) g (mxd d) (n_fwave S) (n_order S) (n_mthlim S) undef (n_rpn S d) (fun _ _ _ _ _ _ => (fun _ => 0, fun _ => 0))
      (slice (n_ng S) d (put d 0 ix) q) (slice (n_ng S) d (put d 0 ix) auxbc) (slice (n_ng S) d (put d 0 ix) auxbc) (slice (n_ng S) d (put d 0 ix) auxbc)
      (line_dtdx S d (slice (n_ng S) d (put d 0 ix) auxbc)) m (get d ix - g + 1)) as (E1 & E2 & E3).
  - exact Hm.
  - lia.
  - intros e He. cbn [solve_rps amdq apdq wave].
    destruct (V (e + -1)%Z ltac:(lia)) as [V1 V2]. destruct (V (e + -1 + 1)%Z ltac:(lia)) as [V3 V4]. rewrite V1, V2, V3, V4.
    destruct (HS (vec neq (fun c _ => q c ix) 0) (vec (n_naux S) (fun c _ => auxbc c ix) 0) m Hm) as (A & B & W). auto.
  - unfold line_change. unfold line_flux. cbv zeta. destruct (n_capa S); rewrite E1, E2, E3; [unfold Qdiv|]; ring.
Qed.
End S.
