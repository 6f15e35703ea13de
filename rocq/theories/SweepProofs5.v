(** Proofs about the multi-dimensional classic solvers, part 5: plane data. *)
From Verif Require Import Base BCModel BCSpec BCProofs LimiterModel LimiterProofs Classic1DModel Classic1DSpec
  Classic1DProofs Classic1DProofs2 Classic1DProofs3 ParallelModel ParallelProofs2 SweepModel SweepSpec SweepProofs SweepProofs2 SweepProofs3 SweepProofs4.

Lemma flat_fit ng has_aux neq D : flat_bc ng D -> fit_dim ng has_aux neq D.
Proof.
  intros (H1 & H2 & H3 & H). unfold fit_dim, wide.
  pose proof (H (q_lo D) ltac:(simpl; auto)) as A1. pose proof (H (q_hi D) ltac:(simpl; auto)) as A2.
  pose proof (H (a_lo D) ltac:(simpl; auto)) as A3. pose proof (H (a_hi D) ltac:(simpl; auto)) as A4.
  assert (ST : forall t, t = Extrap \/ t = Periodic /\ (Z.of_nat ng <= ncells D)%Z -> standard t /\ (t = Extrap \/ Z.of_nat ng <= ncells D)%Z).
  { unfold standard. intros t [-> | [-> W]]; auto. }
  assert (NW : forall t, t = Extrap \/ t = Periodic /\ (Z.of_nat ng <= ncells D)%Z -> t <> Wall) by (intros t [-> | [-> _]]; discriminate).
  pose proof (ST _ A1) as [B1 C1]. pose proof (ST _ A2) as [B2 C2]. pose proof (ST _ A3) as [B3 C3]. pose proof (ST _ A4) as [B4 C4].
  split; [exact H1|]. split; [exact H2|]. split; [intros [E|E]; [destruct (NW _ A1 E)|destruct (NW _ A2 E)]|].
  split; [exact B1|]. split; [exact B2|]. split; [split; [exact C1|split; [exact C2|exact H3]]|].
  intros _. split; [exact B3|]. split; [exact B4|]. split; [exact C3|split; [exact C4|exact H3]].
Qed.
Lemma flat_no_wall ng D i : flat_bc ng D -> behind_wall (q_lo D) (q_hi D) (ncells D) i = false.
Proof.
  intros (_ & _ & _ & H).
  pose proof (H (q_lo D) ltac:(simpl; auto)) as A1. pose proof (H (q_hi D) ltac:(simpl; auto)) as A2.
  unfold behind_wall. destruct A1 as [-> | [-> _]], A2 as [-> | [-> _]]; rewrite !andb_false_r; reflexivity.
Qed.

Theorem plane_data pow undef S Dx Dy q aux q1 aux1 qbc0 auxbc0 qbc01 auxbc01 u c :
  n_bcs S = [Dx; Dy] -> (2 <= n_ng S)%nat -> mcapa_in_aux S ->
  fit_dim (n_ng S) (Nat.ltb 0 (n_naux S)) (Z.of_nat (n_neq S)) Dx -> flat_bc (n_ng S) Dy ->
  still (n_neq S) (n_nw S) (n_rpn S 1) ->
  (forall m i j, (0 <= i < ncells Dx)%Z -> (0 <= j < ncells Dy)%Z -> q m [i; j] = q1 m [i] /\ aux m [i; j] = aux1 m [i]) ->
  step_hyperbolic pow undef Fortran (line_settings S 0 Dx) q1 aux1 qbc01 auxbc01 = Stepped u c ->
  exists q' c', split_step undef S q aux qbc0 auxbc0 = MStepped q' c' /\
  forall m i j, (0 <= m < Z.of_nat (n_neq S))%Z -> (0 <= i < ncells Dx)%Z -> (0 <= j < ncells Dy)%Z -> q' m [i; j] == u m i.
Proof.
  intros HB Hg Hk HX HY HS Hpl H1.
  assert (Hg1 : (1 <= n_ng S)%nat) by lia.
  set (g := Z.of_nat (n_ng S)).
  assert (Hx1 : (1 <= ncells Dx)%Z) by (destruct HX as (_ & _ & _ & _ & _ & (_ & _ & W) & _); exact W).
  assert (Hy1 : (1 <= ncells Dy)%Z) by (destruct HY as (_ & _ & W & _); exact W).
  assert (FD : Forall (fit_dim (n_ng S) (Nat.ltb 0 (n_naux S)) (Z.of_nat (n_neq S))) (n_bcs S)).
  { rewrite HB. constructor; [exact HX|]. constructor; [apply flat_fit; exact HY|constructor]. }
  assert (FY : fit_dim (n_ng S) (Nat.ltb 0 (n_naux S)) (Z.of_nat (n_neq S)) Dy) by (apply flat_fit; exact HY).
  destruct (apply_bcs_at Q Qopp (n_ng S) (Nat.ltb 0 (n_naux S)) (n_funs S) (Z.of_nat (n_neq S)) (n_bcs S) q aux qbc0 auxbc0 Hg1 FD)
    as (qbc & auxbc & E & A & B & _).
  unfold step_hyperbolic, line_settings in H1. cbn [c_ng c_naux c_funs c_neq c_bc] in H1.
  destruct (apply_bcs_at Q Qopp (n_ng S) (Nat.ltb 0 (n_naux S)) (n_funs S) (Z.of_nat (n_neq S)) [Dx] q1 aux1 qbc01 auxbc01 Hg1 (Forall_cons _ HX (Forall_nil _)))
    as (qbc1 & auxbc1 & E1 & A1 & B1 & _).
  rewrite E1 in H1. destruct (kernel pow undef Fortran _ _ _) as [[k1 kc]|] eqn:EK; [|discriminate].
  injection H1 as <- <-.
  change (kernel pow undef Fortran (line_settings S 0 Dx) (fun m i => qbc1 m [i]) (fun m i => auxbc1 m [i]) = Some (k1, kc)) in EK.
  unfold split_step. rewrite E. cbv zeta. eexists. eexists. split; [reflexivity|]. intros m i j Hm Hi Hj.
  (* rows of the ghosted arrays *)
  assert (RQ : forall cc a b, (0 <= a < ncells Dx + 2 * g)%Z -> (0 <= b < ncells Dy + 2 * g)%Z -> qbc cc [a; b] = qbc1 cc [a]).
  { intros cc a b Ha Hb.
    pose proof (A cc [(a - g)%Z; (b - g)%Z]) as A'. rewrite HB in A'. specialize (A' ltac:(cbn [in_box]; unfold g in *; lia)).
    pose proof (A1 cc [(a - g)%Z] ltac:(cbn [in_box]; unfold g in *; lia)) as A1'.
    cbn [shift map] in A', A1'. fold g in A', A1'. replace (a - g + g)%Z with a in * by lia. replace (b - g + g)%Z with b in A' by lia.
    rewrite A', A1'. unfold q_ghost_value. cbn [combine map fst snd rev app fold_right].
    rewrite (flat_no_wall (n_ng S) Dy (b - g) HY), andb_false_r.
    destruct HX as (_ & _ & _ & S1 & S2 & W & _). destruct FY as (_ & _ & _ & S3 & S4 & W' & _).
    pose proof (source_in (n_ng S) (q_lo Dx) (q_hi Dx) (ncells Dx) (a - g) S1 S2 W ltac:(unfold g in *; lia)) as I1.
    pose proof (source_in (n_ng S) (q_lo Dy) (q_hi Dy) (ncells Dy) (b - g) S3 S4 W' ltac:(unfold g in *; lia)) as I2.
    rewrite (proj1 (Hpl cc _ _ I1 I2)). reflexivity. }
  assert (RA : forall cc a b, (0 <= cc < Z.of_nat (n_naux S))%Z -> (0 <= a < ncells Dx + 2 * g)%Z -> (0 <= b < ncells Dy + 2 * g)%Z -> auxbc cc [a; b] = auxbc1 cc [a]).
  { intros cc a b Hcc Ha Hb. assert (HA : Nat.ltb 0 (n_naux S) = true) by (apply Nat.ltb_lt; lia).
    pose proof (B HA cc [(a - g)%Z; (b - g)%Z]) as B'. rewrite HB in B'. specialize (B' ltac:(cbn [in_box]; unfold g in *; lia)).
    pose proof (B1 HA cc [(a - g)%Z] ltac:(cbn [in_box]; unfold g in *; lia)) as B1'.
    cbn [shift map] in B', B1'. fold g in B', B1'. replace (a - g + g)%Z with a in * by lia. replace (b - g + g)%Z with b in B' by lia.
    rewrite B', B1'. unfold aux_ghost_value. cbn [combine map fst snd].
    destruct HX as (_ & _ & _ & _ & _ & _ & X). destruct (X HA) as (S1 & S2 & W). destruct FY as (_ & _ & _ & _ & _ & _ & Y). destruct (Y HA) as (S3 & S4 & W').
    pose proof (source_in (n_ng S) (a_lo Dx) (a_hi Dx) (ncells Dx) (a - g) S1 S2 W ltac:(unfold g in *; lia)) as I1.
    pose proof (source_in (n_ng S) (a_lo Dy) (a_hi Dy) (ncells Dy) (b - g) S3 S4 W' ltac:(unfold g in *; lia)) as I2.
    rewrite (proj2 (Hpl cc _ _ I1 I2)). reflexivity. }
  assert (Hns : map ncells (n_bcs S) = [ncells Dx; ncells Dy]) by (rewrite HB; reflexivity).
  assert (Hn : Forall (fun n => 0 <= n)%Z (map ncells (n_bcs S))) by (rewrite Hns; repeat constructor; lia).
  assert (Hlay : layers S = g) by (unfold layers; rewrite HB; reflexivity).
  assert (Hlen : length (n_bcs S) = 2%nat) by (rewrite HB; reflexivity).
  assert (V0 : forall a b, (g <= a < g + ncells Dx)%Z -> (0 <= b < ncells Dy + 2 * g)%Z -> visited S 0 [a; b]).
  { intros a b Ha Hb. split; [rewrite Hlen; reflexivity|]. rewrite Hns, Hlen, Hlay. fold g. intros [|[|k]] Hk'; cbn [Nat.eqb get nth]; lia. }
  set (X := fst (sweep undef S (layers S) false 0 auxbc qbc qbc)).
  destruct (sweep_at undef S Hg1 Hn (layers S) false 0 auxbc qbc (layers_nonneg S) ltac:(lia)) as [AX _]. fold X in AX.
  assert (SW : forall a b, (g <= a < g + ncells Dx)%Z -> (0 <= b < ncells Dy + 2 * g)%Z -> swept S (layers S) 0 [a; b] = true).
  { intros a b Ha Hb. apply (visited_swept S Hg1 Hn); [lia|apply V0; assumption]. }
  assert (R2 : (reach (n_nw S) (n_order S) (n_mthlim S) <= g)%Z) by (unfold reach; destruct (small_stencil _ _ _); unfold g; lia).
  (* all rows are the same after the first sweep *)
  assert (XR : forall cc a b b', (0 <= cc < Z.of_nat (n_neq S))%Z -> (g <= a < g + ncells Dx)%Z -> (0 <= b < ncells Dy + 2 * g)%Z -> (0 <= b' < ncells Dy + 2 * g)%Z ->
     X cc [a; b] = X cc [a; b']).
  { intros cc a b b' Hcc Ha Hb Hb'. rewrite !AX by exact Hcc.
    apply (sweep_value_same undef S Hg1); auto; [lia|..]; rewrite Hns; cbn [nth put]; fold g.
    - intros v c0 Hc Hv. rewrite !RQ by lia. reflexivity.
    - intros v c0 Hc Hv. rewrite !RA by lia. reflexivity. }
  (* each row is the one-dimensional step *)
  assert (X1 : forall a b, (g <= a < g + ncells Dx)%Z -> (0 <= b < ncells Dy + 2 * g)%Z -> X m [a; b] == k1 m a).
  { intros a b Ha Hb.
    assert (KR : exists r rc, kernel pow undef Fortran (line_settings S 0 Dx) (fun m i => qbc m (put 0 i [a; b])) (fun m i => auxbc m (put 0 i [a; b])) = Some (r, rc)).
    { cbn [put]. unfold kernel, line_settings in EK |- *. cbn [c_neq c_nw c_naux c_ng c_fwave c_order c_mthlim c_rp c_dx c_dt c_capa c_bc c_funs] in *.
      unfold f_dtdx in EK |- *. destruct (n_capa S) as [kk|] eqn:Ekk; cbn [option_map] in *.
      - destruct (forallb (fun i0 => qltb 0 (auxbc1 kk [(i0 + Z.of_nat (n_ng S) - 1)%Z])) _) eqn:EF; [|discriminate].
        replace (forallb (fun i0 => qltb 0 (auxbc kk [(i0 + Z.of_nat (n_ng S) - 1)%Z; b])) (zrange (1 - Z.of_nat (n_ng S)) (Z.to_nat (ncells Dx + 2 * Z.of_nat (n_ng S))))) with true.
        + match goal with |- context [let (_, _) := ?t in _] => destruct t as [r rc] end. eexists. eexists. reflexivity.
        + symmetry. apply forallb_forall. intros e He. rewrite forallb_forall in EF. specialize (EF e He). apply zrange_in in He.
          rewrite RA; [exact EF|apply Hk; exact Ekk|unfold g; lia|exact Hb].
      - match goal with |- context [let (_, _) := ?t in _] => destruct t as [r rc] end. eexists. eexists. reflexivity. }
    destruct KR as (r & rc & KR).
    unfold X. rewrite (sweep_1d pow undef S Hg1 Hn 0 false auxbc qbc m [a; b] Dx r rc); [|lia|apply V0; assumption|rewrite Hns; reflexivity|exact Hm|exact KR].
    cbn [get]. replace a with (a + 0)%Z at 2 by lia.
    rewrite (kernel_window pow undef (line_settings S 0 Dx) Dx 0 Fortran) with (qbc := fun m i => qbc1 m [i]) (auxbc := fun m i => auxbc1 m [i]) (q2 := k1) (c2 := kc)
        (qbc' := fun m i => qbc m (put 0 i [a; b])) (auxbc' := fun m i => auxbc m (put 0 i [a; b])) (c1 := rc); [reflexivity|..].
    - exact Hg.
    - intros K. discriminate.
    - exact Hk.
    - lia.
    - cbn [line_settings c_bc]. lia.
    - intros k Hkk. cbn [line_settings c_ng] in Hkk. rewrite Z.add_0_r. split; apply vec_ext; cbn [line_settings c_neq c_naux put]; intros c0 Hc0.
      + apply RQ; [unfold g; lia|exact Hb].
      + apply RA; [exact Hc0|unfold g; lia|exact Hb].
    - exact KR.
    - exact EK.
    - exact Hm.
    - exact Ha. }
  unfold set_q_from_qbc, split_sweeps. rewrite Hlen. cbn [Nat.sub more_sweeps fst]. fold X. cbn [shift map]. fold g.
  destruct (sweep_at undef S Hg1 Hn (layers S) true 1 auxbc X (layers_nonneg S) ltac:(lia)) as [AY _].
  rewrite AY by exact Hm. rewrite (sweep_still undef S Hg1).
  - rewrite X1 by (unfold g; lia). cbn [line_settings c_ng]. fold g. reflexivity.
  - lia.
  - exact Hm.
  - cbn [length]. lia.
  - exact HS.
  - intros v cc Hcc. rewrite Hns. cbn [nth put]. fold g. intros Hv. apply XR; unfold g in *; lia.
  - intros v cc Hcc. rewrite Hns. cbn [nth put]. fold g. intros Hv. rewrite !RA by (unfold g in *; lia). reflexivity.
Qed.
