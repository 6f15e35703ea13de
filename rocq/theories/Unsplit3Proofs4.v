(** Proofs about the unsplit three-dimensional solver, part 4: plane data. *)
From Verif Require Import Base BCModel BCSpec BCProofs LimiterModel LimiterProofs Classic1DModel Classic1DSpec
  Classic1DProofs Classic1DProofs2 Classic1DProofs3 ParallelModel ParallelProofs2 SweepModel SweepSpec SweepProofs SweepProofs2 SweepProofs3 SweepProofs4
  SweepProofs5 SweepProofs6 UnsplitProofs2 UnsplitProofs3 Unsplit3Model Unsplit3Spec Unsplit3Proofs Unsplit3Proofs2 Unsplit3Proofs3.

Theorem unsplit3_plane_data pow undef S rpt rptt stale trans Dx Dy Dz q aux q1 aux1 qbc0 auxbc0 qbc01 auxbc01 u c :
  n_bcs S = [Dx; Dy; Dz] -> (2 <= n_ng S)%nat -> described (n_order S) trans -> mcapa_in_aux S ->
  fit_dim (n_ng S) (Nat.ltb 0 (n_naux S)) (Z.of_nat (n_neq S)) Dx -> flat_bc (n_ng S) Dy -> flat_bc (n_ng S) Dz ->
  (forall d, d = 1%nat \/ d = 2%nat -> still (n_neq S) (n_nw S) (n_rpn S d) /\ splits_nothing3 (n_neq S) (rpt d) (rptt d)) ->
  (forall m i j k, (0 <= i < ncells Dx)%Z -> (0 <= j < ncells Dy)%Z -> (0 <= k < ncells Dz)%Z -> q m [i; j; k] = q1 m [i] /\ aux m [i; j; k] = aux1 m [i]) ->
  step_hyperbolic pow undef Fortran (line_settings S 0 Dx) q1 aux1 qbc01 auxbc01 = Stepped u c ->
  exists q' c', unsplit3_step undef S rpt rptt stale trans q aux qbc0 auxbc0 = MStepped q' c' /\
  forall m i j k, (0 <= m < Z.of_nat (n_neq S))%Z -> (0 <= i < ncells Dx)%Z -> (0 <= j < ncells Dy)%Z -> (0 <= k < ncells Dz)%Z ->
  q' m [i; j; k] == u m i.
Proof.
  intros HB Hg HDs Hk HX HY HZ HS Hpl H1.
  assert (Hg1 : (1 <= n_ng S)%nat) by lia.
  set (g := Z.of_nat (n_ng S)).
  assert (Hx1 : (1 <= ncells Dx)%Z) by (destruct HX as (_ & _ & _ & _ & _ & (_ & _ & W) & _); exact W).
  assert (Hy1 : (1 <= ncells Dy)%Z) by (destruct HY as (_ & _ & W & _); exact W).
  assert (Hz1 : (1 <= ncells Dz)%Z) by (destruct HZ as (_ & _ & W & _); exact W).
  assert (FY : fit_dim (n_ng S) (Nat.ltb 0 (n_naux S)) (Z.of_nat (n_neq S)) Dy) by (apply flat_fit; exact HY).
  assert (FZ : fit_dim (n_ng S) (Nat.ltb 0 (n_naux S)) (Z.of_nat (n_neq S)) Dz) by (apply flat_fit; exact HZ).
  assert (FD : Forall (fit_dim (n_ng S) (Nat.ltb 0 (n_naux S)) (Z.of_nat (n_neq S))) (n_bcs S)).
  { rewrite HB. constructor; [exact HX|]. constructor; [exact FY|]. constructor; [exact FZ|constructor]. }
  destruct (apply_bcs_at Q Qopp (n_ng S) (Nat.ltb 0 (n_naux S)) (n_funs S) (Z.of_nat (n_neq S)) (n_bcs S) q aux qbc0 auxbc0 Hg1 FD)
    as (qbc & auxbc & E & A & B & _).
  unfold step_hyperbolic, line_settings in H1. cbn [c_ng c_naux c_funs c_neq c_bc] in H1.
  destruct (apply_bcs_at Q Qopp (n_ng S) (Nat.ltb 0 (n_naux S)) (n_funs S) (Z.of_nat (n_neq S)) [Dx] q1 aux1 qbc01 auxbc01 Hg1 (Forall_cons _ HX (Forall_nil _)))
    as (qbc1 & auxbc1 & E1 & A1 & B1 & _).
  rewrite E1 in H1. destruct (kernel pow undef Fortran _ _ _) as [[k1 kc]|] eqn:EK; [|discriminate].
  injection H1 as <- <-.
  change (kernel pow undef Fortran (line_settings S 0 Dx) (fun m i => qbc1 m [i]) (fun m i => auxbc1 m [i]) = Some (k1, kc)) in EK.
  unfold unsplit3_step. rewrite E. cbv zeta. eexists. eexists. split; [reflexivity|]. intros m i j k Hm Hi Hj Hkz.
  assert (RQ : forall cc a b e, (0 <= a < ncells Dx + 2 * g)%Z -> (0 <= b < ncells Dy + 2 * g)%Z -> (0 <= e < ncells Dz + 2 * g)%Z -> qbc cc [a; b; e] = qbc1 cc [a]).
  { intros cc a b e Ha Hb He.
    pose proof (A cc [(a - g)%Z; (b - g)%Z; (e - g)%Z]) as A'. rewrite HB in A'. specialize (A' ltac:(cbn [in_box]; unfold g in *; lia)).
    pose proof (A1 cc [(a - g)%Z] ltac:(cbn [in_box]; unfold g in *; lia)) as A1'.
    cbn [shift map] in A', A1'. fold g in A', A1'. replace (a - g + g)%Z with a in * by lia. replace (b - g + g)%Z with b in A' by lia. replace (e - g + g)%Z with e in A' by lia.
    rewrite A', A1'. unfold q_ghost_value. cbn [combine map fst snd rev app fold_right].
    rewrite (flat_no_wall (n_ng S) Dy (b - g) HY), (flat_no_wall (n_ng S) Dz (e - g) HZ), !andb_false_r.
    destruct HX as (_ & _ & _ & S1 & S2 & W & _). destruct FY as (_ & _ & _ & S3 & S4 & W' & _). destruct FZ as (_ & _ & _ & S5 & S6 & W'' & _).
    pose proof (source_in (n_ng S) (q_lo Dx) (q_hi Dx) (ncells Dx) (a - g) S1 S2 W ltac:(unfold g in *; lia)) as I1.
    pose proof (source_in (n_ng S) (q_lo Dy) (q_hi Dy) (ncells Dy) (b - g) S3 S4 W' ltac:(unfold g in *; lia)) as I2.
    pose proof (source_in (n_ng S) (q_lo Dz) (q_hi Dz) (ncells Dz) (e - g) S5 S6 W'' ltac:(unfold g in *; lia)) as I3.
    rewrite (proj1 (Hpl cc _ _ _ I1 I2 I3)). reflexivity. }
  assert (RA : forall cc a b e, (0 <= cc < Z.of_nat (n_naux S))%Z -> (0 <= a < ncells Dx + 2 * g)%Z -> (0 <= b < ncells Dy + 2 * g)%Z -> (0 <= e < ncells Dz + 2 * g)%Z -> auxbc cc [a; b; e] = auxbc1 cc [a]).
  { intros cc a b e Hcc Ha Hb He. assert (HA : Nat.ltb 0 (n_naux S) = true) by (apply Nat.ltb_lt; lia).
    pose proof (B HA cc [(a - g)%Z; (b - g)%Z; (e - g)%Z]) as B'. rewrite HB in B'. specialize (B' ltac:(cbn [in_box]; unfold g in *; lia)).
    pose proof (B1 HA cc [(a - g)%Z] ltac:(cbn [in_box]; unfold g in *; lia)) as B1'.
    cbn [shift map] in B', B1'. fold g in B', B1'. replace (a - g + g)%Z with a in * by lia. replace (b - g + g)%Z with b in B' by lia. replace (e - g + g)%Z with e in B' by lia.
    rewrite B', B1'. unfold aux_ghost_value. cbn [combine map fst snd].
    destruct HX as (_ & _ & _ & _ & _ & _ & X). destruct (X HA) as (S1 & S2 & W). destruct FY as (_ & _ & _ & _ & _ & _ & Y). destruct (Y HA) as (S3 & S4 & W').
    destruct FZ as (_ & _ & _ & _ & _ & _ & ZZ). destruct (ZZ HA) as (S5 & S6 & W'').
    pose proof (source_in (n_ng S) (a_lo Dx) (a_hi Dx) (ncells Dx) (a - g) S1 S2 W ltac:(unfold g in *; lia)) as I1.
    pose proof (source_in (n_ng S) (a_lo Dy) (a_hi Dy) (ncells Dy) (b - g) S3 S4 W' ltac:(unfold g in *; lia)) as I2.
    pose proof (source_in (n_ng S) (a_lo Dz) (a_hi Dz) (ncells Dz) (e - g) S5 S6 W'' ltac:(unfold g in *; lia)) as I3.
    rewrite (proj2 (Hpl cc _ _ _ I1 I2 I3)). reflexivity. }
  assert (Hns : map ncells (n_bcs S) = [ncells Dx; ncells Dy; ncells Dz]) by (rewrite HB; reflexivity).
  assert (Hn : Forall (fun n => 0 <= n)%Z (map ncells (n_bcs S))) by (rewrite Hns; repeat constructor; lia).
  assert (Hlen : length (n_bcs S) = 3%nat) by (rewrite HB; reflexivity).
  set (ix := [(i + g)%Z; (j + g)%Z; (k + g)%Z]).
  assert (IX : interior3 S ix).
  { split; [reflexivity|]. rewrite Hns. fold g. intros [|[|[|d]]] Hd; cbn [ix get nth]; lia. }
  assert (VI : visited S 0 ix).
  { split; [rewrite Hlen; reflexivity|]. rewrite Hns, Hlen. fold g. pose proof (layers_nonneg S). intros [|[|[|k']]] Hk'; cbn [ix Nat.eqb get nth]; lia. }
  (* the row is the one-dimensional step *)
  assert (X1 : fst (sweep undef S (layers S) false 0 auxbc qbc qbc) m ix == k1 m (i + g)%Z).
  { assert (KR : exists r rc, kernel pow undef Fortran (line_settings S 0 Dx) (fun m i => qbc m (put 0 i ix)) (fun m i => auxbc m (put 0 i ix)) = Some (r, rc)).
    { unfold ix. cbn [put]. unfold kernel, line_settings in EK |- *. cbn [c_neq c_nw c_naux c_ng c_fwave c_order c_mthlim c_rp c_dx c_dt c_capa c_bc c_funs] in *.
      unfold f_dtdx in EK |- *. destruct (n_capa S) as [kk|] eqn:Ekk; cbn [option_map] in *.
      - destruct (forallb (fun i0 => qltb 0 (auxbc1 kk [(i0 + Z.of_nat (n_ng S) - 1)%Z])) _) eqn:EF; [|discriminate].
        replace (forallb (fun i0 => qltb 0 (auxbc kk [(i0 + Z.of_nat (n_ng S) - 1)%Z; (j + g)%Z; (k + g)%Z])) (zrange (1 - Z.of_nat (n_ng S)) (Z.to_nat (ncells Dx + 2 * Z.of_nat (n_ng S))))) with true.
        + match goal with |- context [let (_, _) := ?t in _] => destruct t as [r rc] end. eexists. eexists. reflexivity.
        + symmetry. apply forallb_forall. intros e He. rewrite forallb_forall in EF. specialize (EF e He). apply zrange_in in He.
          rewrite RA; [exact EF|apply Hk; exact Ekk|unfold g; lia|unfold g; lia|unfold g; lia].
      - match goal with |- context [let (_, _) := ?t in _] => destruct t as [r rc] end. eexists. eexists. reflexivity. }
    destruct KR as (r & rc & KR).
    rewrite (sweep_1d pow undef S Hg1 Hn 0 false auxbc qbc m ix Dx r rc); [|lia|exact VI|rewrite Hns; reflexivity|exact Hm|exact KR].
    unfold ix. cbn [get]. replace (i + g)%Z with (i + g + 0)%Z at 2 by lia.
    rewrite (kernel_window pow undef (line_settings S 0 Dx) Dx 0 Fortran) with (qbc := fun m i => qbc1 m [i]) (auxbc := fun m i => auxbc1 m [i]) (q2 := k1) (c2 := kc)
        (qbc' := fun m i => qbc m (put 0 i ix)) (auxbc' := fun m i => auxbc m (put 0 i ix)) (c1 := rc); [reflexivity|..].
    - exact Hg.
    - intros K. discriminate.
    - exact Hk.
    - lia.
    - cbn [line_settings c_bc]. lia.
    - intros e He. cbn [line_settings c_ng] in He. rewrite Z.add_0_r. unfold ix. split; apply vec_ext; cbn [line_settings c_neq c_naux put]; intros c0 Hc0.
      + apply RQ; unfold g; lia.
      + apply RA; [exact Hc0| | |]; unfold g; lia.
    - exact KR.
    - exact EK.
    - exact Hm.
    - cbn [line_settings c_ng]. fold g. lia. }
  unfold set_q_from_qbc. cbn [shift map]. fold g. cbn [line_settings c_ng]. fold g. fold ix.
  rewrite (step3_value undef S rpt rptt stale trans Hg1 auxbc qbc Hlen Hn (layers S) m ix (layers_nonneg S) IX).
  destruct (sweep_at undef S Hg1 Hn (layers S) false 0 auxbc qbc (layers_nonneg S) ltac:(lia)) as [AX _].
  rewrite <- AX by exact Hm. rewrite X1.
  (* the slices that the sweeps look at *)
  pose (xc := fun (d : nat) (oa ob : Z) (o : Z * Z) (e : Z) => match d with 0%nat => e + g - 1 | 1%nat => i + g - snd o + ob | _ => i + g - fst o + oa end%Z).
  assert (G2 : (2 <= g)%Z) by (unfold g; lia).
  assert (NB : forall o, In o nine -> (-1 <= fst o <= 1 /\ -1 <= snd o <= 1)%Z) by (intros o Ho; cbn in Ho; repeat (destruct Ho as [<-|Ho]; [cbn; lia|]); destruct Ho).
  assert (SL : forall d oa ob o e, (d < 3)%nat -> (-1 <= oa <= 1)%Z -> (-1 <= ob <= 1)%Z -> In o nine -> (-1 <= e <= nth d (map ncells (n_bcs S)) 0 + 2)%Z ->
    (forall cc, slice (n_ng S) d (move3 d oa ob (from_slice d ix o)) qbc cc e = qbc1 cc [xc d oa ob o e]) /\
    (forall cc, (0 <= cc < Z.of_nat (n_naux S))%Z -> slice (n_ng S) d (move3 d oa ob (from_slice d ix o)) auxbc cc e = auxbc1 cc [xc d oa ob o e])).
  { intros d oa ob o e Hd Ha Hb Ho He. rewrite Hns in He. specialize (NB o Ho). unfold slice, from_slice, move3, ix, xc. fold g.
    destruct d as [|[|[|d]]]; [| | |lia]; cbn [across1 across2 put get nth] in *.
    - split; [intros cc; apply RQ; lia|intros cc Hcc; apply RA; lia].
    - replace (i + g - snd o + ob)%Z with (i + g + - snd o + ob)%Z by lia. split; [intros cc; apply RQ; lia|intros cc Hcc; apply RA; lia].
    - replace (i + g - fst o + oa)%Z with (i + g + - fst o + oa)%Z by lia. split; [intros cc; apply RQ; lia|intros cc Hcc; apply RA; lia]. }
  assert (LF : forall d o, length (from_slice d ix o) = 3%nat) by (intros; rewrite from_slice_length; reflexivity).
  assert (SL0 : forall d o e, (d < 3)%nat -> In o nine -> (-1 <= e <= nth d (map ncells (n_bcs S)) 0 + 2)%Z ->
    (forall cc, slice (n_ng S) d (from_slice d ix o) qbc cc e = qbc1 cc [xc d 0%Z 0%Z o e]) /\
    (forall cc, (0 <= cc < Z.of_nat (n_naux S))%Z -> slice (n_ng S) d (from_slice d ix o) auxbc cc e = auxbc1 cc [xc d 0%Z 0%Z o e])).
  { intros d o e Hd Ho He. pose proof (SL d 0%Z 0%Z o e Hd ltac:(lia) ltac:(lia) Ho He) as K. rewrite move3_0 in K by (exact Hd || apply LF). exact K. }
  assert (T0 : u3_trans undef S rpt rptt stale trans auxbc qbc 0 m ix == 0).
  { unfold u3_trans. assert (O0 : In (0, 0)%Z nine) by (cbn; auto 10).
    assert (ER : forall o, In o nine -> tau S 0 (u3_flux undef S rpt rptt stale trans 0 auxbc qbc (from_slice 0 ix o)) m (get 0 ix - Z.of_nat (n_ng S) + 1) o =
      tau S 0 (u3_flux undef S rpt rptt stale trans 0 auxbc qbc (from_slice 0 ix (0, 0)%Z)) m (get 0 ix - Z.of_nat (n_ng S) + 1) o).
    { intros o Ho.
      assert (SAME : forall up sl,
        g3add (u3_flux undef S rpt rptt stale trans 0 auxbc qbc (from_slice 0 ix o)) up sl m (i + 1)%Z = g3add (u3_flux undef S rpt rptt stale trans 0 auxbc qbc (from_slice 0 ix (0, 0)%Z)) up sl m (i + 1)%Z /\
        h3add (u3_flux undef S rpt rptt stale trans 0 auxbc qbc (from_slice 0 ix o)) up sl m (i + 1)%Z = h3add (u3_flux undef S rpt rptt stale trans 0 auxbc qbc (from_slice 0 ix (0, 0)%Z)) up sl m (i + 1)%Z).
      { intros up sl. unfold u3_flux. apply rows_gadd3.
        - exact HDs.
        - intros e He. apply vec_ext. intros cc Hcc. rewrite (proj1 (SL0 0%nat o e ltac:(lia) Ho He)), (proj1 (SL0 0%nat (0, 0)%Z e ltac:(lia) O0 He)). reflexivity.
        - intros e He. rewrite !map_map. apply map_ext_in. intros w Hw. apply vec_ext. intros cc Hcc. destruct (NB w Hw).
          rewrite (proj2 (SL 0%nat (fst w) (snd w) o e ltac:(lia) ltac:(lia) ltac:(lia) Ho He) cc Hcc), (proj2 (SL 0%nat (fst w) (snd w) (0, 0)%Z e ltac:(lia) ltac:(lia) ltac:(lia) O0 He) cc Hcc). reflexivity.
        - intros e He. apply line_dtdx_eq; [exact Hk|]. intros cc Hcc. rewrite (proj2 (SL0 0%nat o e ltac:(lia) Ho He) cc Hcc), (proj2 (SL0 0%nat (0, 0)%Z e ltac:(lia) O0 He) cc Hcc). reflexivity.
        - rewrite Hns. cbn [nth]. lia. }
      replace (get 0 ix - Z.of_nat (n_ng S) + 1)%Z with (i + 1)%Z by (unfold ix; cbn [get nth]; fold g; lia).
      unfold tau. cbv zeta.
      set (F1 := u3_flux undef S rpt rptt stale trans 0 auxbc qbc (from_slice 0 ix o)) in *. set (F2 := u3_flux undef S rpt rptt stale trans 0 auxbc qbc (from_slice 0 ix (0, 0)%Z)) in *.
      assert (EG : forall up sl, g3add F1 up sl m (i + 1)%Z = g3add F2 up sl m (i + 1)%Z) by (intros up sl; exact (proj1 (SAME up sl))).
      assert (EH : forall up sl, h3add F1 up sl m (i + 1)%Z = h3add F2 up sl m (i + 1)%Z) by (intros up sl; exact (proj2 (SAME up sl))).
      rewrite !EG, !EH. reflexivity. }
    unfold over_cap.
    assert (Z0 : lsum nine (fun o => tau S 0 (u3_flux undef S rpt rptt stale trans 0 auxbc qbc (from_slice 0 ix o)) m (get 0 ix - Z.of_nat (n_ng S) + 1) o) == 0).
    { etransitivity; [apply lsum_eq; intros o Ho; rewrite (ER o Ho); reflexivity|]. apply tau_balance. }
    destruct (n_capa S); rewrite Z0; [unfold Qdiv; ring|reflexivity]. }
  assert (TS : forall d, d = 1%nat \/ d = 2%nat -> u3_trans undef S rpt rptt stale trans auxbc qbc d m ix == 0).
  { intros d Hd. destruct (HS d Hd) as [HS1 HS2]. assert (Hd3 : (d < 3)%nat) by lia. unfold u3_trans.
    assert (ID : (1 <= get d ix - Z.of_nat (n_ng S) + 1 <= nth d (map ncells (n_bcs S)) 0)%Z).
    { destruct IX as [_ IX]. specialize (IX d Hd3). fold g in IX |- *. lia. }
    set (ii := (get d ix - Z.of_nat (n_ng S) + 1)%Z) in *.
    assert (Z0 : lsum nine (fun o => tau S d (u3_flux undef S rpt rptt stale trans d auxbc qbc (from_slice d ix o)) m ii o) == 0).
    { etransitivity; [apply (lsum_eq nine _ (fun _ => 0))|unfold lsum, nine; cbn [fold_right]; ring].
      intros o Ho.
      assert (GZ : forall up sl, g3add (u3_flux undef S rpt rptt stale trans d auxbc qbc (from_slice d ix o)) up sl m ii == 0 /\
        h3add (u3_flux undef S rpt rptt stale trans d auxbc qbc (from_slice d ix o)) up sl m ii == 0).
      { intros up sl. unfold u3_flux. apply gadd3_still; [exact HS2|exact HDs| |exact Hm|exact ID].
        intros e cc He Hcc. unfold rp_sol, aux22. cbn [nine map nth fst snd]. rewrite move3_0 by (exact Hd3 || apply LF). cbn [solve_rps amdq apdq wave].
        assert (XE : forall e', xc d 0%Z 0%Z o e' = xc d 0%Z 0%Z o 0%Z) by (intros e'; unfold xc; destruct Hd as [-> | ->]; reflexivity).
        assert (VQ : vec (n_neq S) (slice (n_ng S) d (from_slice d ix o) qbc) (e + -1 + 1) = vec (n_neq S) (slice (n_ng S) d (from_slice d ix o) qbc) (e + -1)).
        { apply vec_ext. intros c1 Hc1. rewrite (proj1 (SL0 d o (e + -1 + 1)%Z Hd3 Ho ltac:(lia))), (proj1 (SL0 d o (e + -1)%Z Hd3 Ho ltac:(lia))). rewrite (XE (e + -1 + 1)%Z), (XE (e + -1)%Z). reflexivity. }
        assert (VA : vec (n_naux S) (slice (n_ng S) d (from_slice d ix o) auxbc) (e + -1 + 1) = vec (n_naux S) (slice (n_ng S) d (from_slice d ix o) auxbc) (e + -1)).
        { apply vec_ext. intros c1 Hc1. rewrite (proj2 (SL0 d o (e + -1 + 1)%Z Hd3 Ho ltac:(lia)) c1 Hc1), (proj2 (SL0 d o (e + -1)%Z Hd3 Ho ltac:(lia)) c1 Hc1). rewrite (XE (e + -1 + 1)%Z), (XE (e + -1)%Z). reflexivity. }
        rewrite VQ, VA. exact (HS1 _ _ cc Hcc). }
      unfold tau. cbv zeta. set (F1 := u3_flux undef S rpt rptt stale trans d auxbc qbc (from_slice d ix o)) in *.
      assert (EG : forall up sl, g3add F1 up sl m ii == 0) by (intros up sl; exact (proj1 (GZ up sl))).
      assert (EH : forall up sl, h3add F1 up sl m ii == 0) by (intros up sl; exact (proj2 (GZ up sl))).
      destruct (fst o) as [|[p|p|]|[p|p|]]; destruct (snd o) as [|[p'|p'|]|[p'|p'|]]; rewrite ?EG, ?EH; ring. }
    unfold over_cap. destruct (n_capa S); rewrite Z0; [unfold Qdiv; ring|reflexivity]. }
  assert (SV : forall d, d = 1%nat \/ d = 2%nat -> sweep_value undef S (layers S) d auxbc qbc (qbc m ix) m ix == qbc m ix).
  { intros d Hd. apply (sweep_still undef S Hg1).
    - lia.
    - exact Hm.
    - cbn [ix length]. lia.
    - exact (proj1 (HS d Hd)).
    - intros v cc Hcc. rewrite Hns. unfold ix. destruct Hd as [-> | ->]; cbn [nth put]; fold g; intros Hv; rewrite !RQ by (unfold g in *; lia); reflexivity.
    - intros v cc Hcc. rewrite Hns. unfold ix. destruct Hd as [-> | ->]; cbn [nth put]; fold g; intros Hv; rewrite !RA by (unfold g in *; lia); reflexivity. }
  rewrite T0, !TS, !SV by auto. ring.
Qed.
