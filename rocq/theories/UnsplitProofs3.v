(** Proofs about the unsplit two-dimensional solver, part 3: the Courant number and plane data. *)
From Verif Require Import Base BCModel BCSpec BCProofs LimiterModel LimiterProofs Classic1DModel Classic1DSpec
  Classic1DProofs Classic1DProofs2 Classic1DProofs3 ParallelModel ParallelProofs2 SweepModel SweepSpec SweepProofs SweepProofs2 SweepProofs3 SweepProofs4
  SweepProofs5 SweepProofs6 UnsplitModel UnsplitSpec UnsplitProofs UnsplitProofs2.

Section CFL.
Variable undef : Q -> Q -> Z -> Q.
Variable S : msettings.
Variable trans : Z.
Notation g := (Z.of_nat (n_ng S)).
Notation ns := (map ncells (n_bcs S)).
Notation mxd d := (nth d ns 0%Z).
Hypothesis Hg : (1 <= n_ng S)%nat.
Hypothesis HL : length (n_bcs S) = 2%nat.
Hypothesis Hn : Forall (fun n => 0 <= n)%Z ns.
Notation bas d j := (put (1 - d) (j + g - 1)%Z [0; 0]%Z).

Lemma mxd_nn d : (d < 2)%nat -> (0 <= mxd d)%Z.
Proof. intros Hd. rewrite Forall_forall in Hn. apply Hn. apply nth_In. rewrite map_length. lia. Qed.
Lemma bas_face d j i : (d < 2)%nat -> (0 <= j <= mxd (1 - d) + 1)%Z -> (1 <= i <= mxd d + 1)%Z -> face1 S d (put d (i + g - 1)%Z (bas d j)).
Proof.
  intros Hd Hj Hi. split; [rewrite !put_length, HL; reflexivity|]. intros e He. cbv zeta. destruct (Nat.eqb_spec e d) as [E|Hne].
  - subst e. rewrite get_put by (rewrite put_length; cbn [length]; lia). lia.
  - rewrite get_put_other by lia. replace e with (1 - d)%nat by lia. rewrite get_put by (cbn [length]; lia). lia.
Qed.
Lemma face_bas d ix : (d < 2)%nat -> face1 S d ix -> exists j i, (0 <= j <= mxd (1 - d) + 1)%Z /\ (1 <= i <= mxd d + 1)%Z /\ ix = put d (i + g - 1)%Z (bas d j).
Proof.
  intros Hd [Hx H]. pose proof (H d ltac:(lia)) as H1. pose proof (H (1 - d)%nat ltac:(lia)) as H2. cbv zeta in H1, H2. rewrite Nat.eqb_refl in H1.
  replace (Nat.eqb (1 - d) d) with false in H2 by (symmetry; apply Nat.eqb_neq; lia).
  exists (get (1 - d) ix - g + 1)%Z, (get d ix - g + 1)%Z. split; [lia|]. split; [lia|].
  rewrite (base_2d S Hg d ix Hd (eq_trans Hx HL)). rewrite put_put. replace (get d ix - g + 1 + g - 1)%Z with (get d ix) by lia. rewrite put_get. reflexivity.
Qed.
Lemma bas_at d auxbc x j i p : (d < 2)%nat ->
  line_dtdx S d (slice (n_ng S) d (bas d j) auxbc) i = cell_ratio S d auxbc (put d (i + g - 1)%Z (bas d j)) /\
  line_dtdx S d (slice (n_ng S) d (bas d j) auxbc) (i - 1)%Z = cell_ratio S d auxbc (lower d (put d (i + g - 1)%Z (bas d j))) /\
  spd (solve_rps (n_rpn S d) (n_neq S) (n_naux S) (-1) (slice (n_ng S) d (bas d j) x) (slice (n_ng S) d (bas d j) auxbc)) p i =
    face_speed S d auxbc x (put d (i + g - 1)%Z (bas d j)) p.
Proof.
  intros Hd. assert (Hb : (d < length (bas d j))%nat) by (rewrite put_length; cbn [length]; lia).
  unfold lower. rewrite get_put by lia. rewrite put_put.
  unfold line_dtdx, cell_ratio, slice. split; [destruct (n_capa S); reflexivity|].
  split; [destruct (n_capa S); [|reflexivity]; replace (i - 1 + g - 1)%Z with (i + g - 1 - 1)%Z by lia; reflexivity|].
  unfold solve_rps, face_speed. cbn [spd]. unfold lower. rewrite get_put by lia. rewrite put_put.
  unfold cell_vec, vec. replace (i + -1 + g - 1)%Z with (i + g - 1 - 1)%Z by lia. replace (i + -1 + 1 + g - 1)%Z with (i + g - 1)%Z by lia. reflexivity.
Qed.
Lemma t_sweep_max d auxbc x st : (d < 2)%nat -> 0 <= snd st ->
  let c := snd (t_sweep undef S trans d auxbc x st) in
  snd st <= c /\
  (forall ix p v, face1 S d ix -> (0 <= p < Z.of_nat (n_nw S))%Z -> crossed S d auxbc x ix p v -> v <= c) /\
  (c = snd st \/ c = 0 \/ exists ix p, face1 S d ix /\ (0 <= p < Z.of_nat (n_nw S))%Z /\ crossed S d auxbc x ix p c).
Proof.
  intros Hd H0 c. unfold c. rewrite t_sweep_cfl. clear c.
  pose proof (mxd_nn d Hd) as Hm. pose proof (mxd_nn (1 - d) ltac:(lia)) as Hm'.
  pose (P := fun j v => v = 0 \/ exists i p, (1 <= i <= mxd d + 1)%Z /\ (0 <= p < Z.of_nat (n_nw S))%Z /\ crossed S d auxbc x (put d (i + g - 1)%Z (bas d j)) p v).
  destruct (fold_max P (fun c j => pymax c (cfl1d (line_flux undef S d (bas d j) auxbc x))) (zrange 0 (Z.to_nat (mxd (1 - d) + 2)))) with (c := snd st) as (A & B & C).
  - intros c0 j Hj. destruct (pymax_spec c0 (cfl1d (line_flux undef S d (bas d j) auxbc x))) as (A1 & A2 & A3). rewrite line_flux_cfl in *.
    destruct (f_cfl_spec (n_nw S) (mxd d) (line_dtdx S d (slice (n_ng S) d (bas d j) auxbc))
       (spd (solve_rps (n_rpn S d) (n_neq S) (n_naux S) (-1) (slice (n_ng S) d (bas d j) x) (slice (n_ng S) d (bas d j) auxbc))) ltac:(lia)) as (B1 & B2 & B3).
    set (K := f_cfl _ _ _ _) in *. split; [exact A1|]. split.
    + intros v [-> | (i & p & Hi & Hp & Hv)]; [lra|]. destruct (B2 p i Hp Hi) as [C1 C2]. destruct (bas_at d auxbc x j i p Hd) as (T1 & T2 & T3).
      rewrite T1, T3 in C1. rewrite T2, T3 in C2. destruct Hv as [-> | ->]; lra.
    + destruct A3 as [-> | ->]; [left; reflexivity|]. destruct B3 as [B3 | (p & i & Hp & Hi & B3)].
      * right. left. exact B3.
      * right. right. exists i, p. split; [exact Hi|]. split; [exact Hp|]. destruct (bas_at d auxbc x j i p Hd) as (T1 & T2 & T3).
        unfold crossed. rewrite <- T1, <- T2, <- T3. exact B3.
  - split; [exact A|]. split.
    + intros ix p v HF Hp Hv. destruct (face_bas d ix Hd HF) as (j & i & Hj & Hi & ->). apply (B j v); [apply zrange_in; lia|]. right. exists i, p. auto.
    + destruct C as [C | (j & Hj & [C | (i & p & Hi & Hp & C)])]; [left; exact C|right; left; exact C|].
      right. right. exists (put d (i + g - 1)%Z (bas d j)), p. apply zrange_in in Hj. split; [apply bas_face; try assumption; lia|]. split; [exact Hp|exact C].
Qed.
Theorem unsplit_cfl auxbc qbc : let c := snd (step2 undef S trans auxbc qbc qbc) in
  0 <= c /\
  (forall d ix p v, (d < 2)%nat -> face1 S d ix -> (0 <= p < Z.of_nat (n_nw S))%Z -> crossed S d auxbc qbc ix p v -> v <= c) /\
  (c = 0 \/ exists d ix p, (d < 2)%nat /\ face1 S d ix /\ (0 <= p < Z.of_nat (n_nw S))%Z /\ crossed S d auxbc qbc ix p c).
Proof.
  unfold step2. set (r := t_sweep undef S trans 0 auxbc qbc (qbc, 0)).
  destruct (t_sweep_max 0 auxbc qbc (qbc, 0) ltac:(lia) ltac:(cbn; lra)) as (A1 & A2 & A3). fold r in A1, A2, A3. cbn [snd] in A1, A3.
  destruct (t_sweep_max 1 auxbc qbc r ltac:(lia) A1) as (B1 & B2 & B3). cbv zeta. set (c := snd (t_sweep undef S trans 1 auxbc qbc r)) in *.
  split; [lra|]. split.
  - intros [|[|d]] ix p v Hd HF Hp Hv; [|exact (B2 ix p v HF Hp Hv)|lia]. specialize (A2 ix p v HF Hp Hv). lra.
  - destruct B3 as [-> | [B3 | (ix & p & B3)]]; [|auto|right; exists 1%nat, ix, p; split; [lia|exact B3]].
    destruct A3 as [A3 | [A3 | (ix & p & A3)]]; auto. right. exists 0%nat, ix, p. split; [lia|exact A3].
Qed.
End CFL.

(** ** Transverse fluxes of a slice on which nothing happens *)
Section G.
Variables (neq nw naux : nat) (ng mx : Z).
Variable fwave : bool.
Variables (order trans : Z).
Variable mthlim : Z -> Z.
Variable undef : Q -> Q -> Z -> Q.
Variable rp : rpsolver.
Variable rpt : rptsolver.
Variables (q a a1 a3 : Z -> Z -> Q) (d : Z -> Q).
Notation R := (solve_rps rp neq naux (-1) q a).
Notation F := (flux2 neq nw naux ng mx fwave order trans mthlim undef rp rpt q d a1 a a3).
Hypothesis HT : splits_nothing neq rpt.

Lemma vec_zero n (f : Z -> Z -> Q) i : (forall m, (0 <= m < Z.of_nat n)%Z -> f m i == 0) -> Forall (fun x => x == 0) (vec n f i).
Proof. intros H. unfold vec. apply Forall_map. apply Forall_forall. intros k Hk. apply in_seq in Hk. apply H. lia. Qed.

Lemma gadd_still m i : (0 <= m < Z.of_nat neq)%Z -> (1 <= i <= mx)%Z ->
  (forall e c, (i <= e <= i + 1)%Z -> (0 <= c < Z.of_nat neq)%Z -> amdq R c e == 0 /\ apdq R c e == 0 /\
     forall mw, (0 <= mw < Z.of_nat nw)%Z -> wave R c mw e == 0) ->
  gadd1 F m i == 0 /\ gadd2 F m i == 0.
Proof.
  intros Hm Hi H. unfold flux2. destruct (Z.leb trans 0); [split; reflexivity|]. cbv zeta. cbn [gadd1 gadd2]. rewrite !in_slice_true by lia.
  assert (CQ : forall c e, (i <= e <= i + 1)%Z -> (0 <= c < Z.of_nat neq)%Z ->
    f_cqxx nw fwave d (spd R) (if any_limiter nw mthlim then f_limiter neq mx mthlim undef (wave R) (spd R) else wave R) c e == 0).
  { intros c e He Hc. unfold f_cqxx. apply zsum_zero. intros mw Hmw. destruct (H e c He Hc) as (_ & _ & W). specialize (W mw ltac:(lia)).
    assert (L : (if any_limiter nw mthlim then f_limiter neq mx mthlim undef (wave R) (spd R) else wave R) c mw e == 0).
    { destruct (any_limiter nw mthlim); [|exact W]. unfold f_limiter. destruct (Z.eqb (mthlim mw) 0); [exact W|].
      replace (Z.to_nat (mx + 2)) with (Datatypes.S (Z.to_nat (mx + 1))) by lia.
      rewrite f_limiter_exact by lia. unfold f_lim_at. destruct (qeqb _ 0); rewrite W; [reflexivity|ring]. }
    destruct fwave; rewrite L; ring. }
  replace (i + 1 - 1)%Z with i by lia.
  match goal with |- context [rpt 1%Z ?x1 ?x2 ?x3 ?x4 ?x5] => assert (E1 := HT 1%Z x1 x2 x3 x4 x5) end.
  match goal with |- context [rpt 2%Z ?x1 ?x2 ?x3 ?x4 ?x5] => assert (E2 := HT 2%Z x1 x2 x3 x4 x5) end.
  destruct (fun K => E1 K m Hm) as [E1a E1b].
  { apply vec_zero. intros c Hc. destruct (H (i + 1)%Z c ltac:(lia) Hc) as (K & _). destruct (Z.ltb 1 order && Z.eqb trans 2 && in_slice 1 (mx + 2) _)%bool; [rewrite CQ by lia|]; rewrite K; reflexivity. }
  destruct (fun K => E2 K m Hm) as [E2a E2b].
  { apply vec_zero. intros c Hc. destruct (H i c ltac:(lia) Hc) as (_ & K & _). destruct (Z.ltb 1 order && Z.eqb trans 2 && in_slice 1 (mx + 2) _)%bool; [rewrite CQ by lia|]; rewrite K; reflexivity. }
  rewrite E1a, E1b, E2a, E2b. split; ring.
Qed.
End G.

Theorem unsplit_plane_data pow undef S trans Dx Dy q aux q1 aux1 qbc0 auxbc0 qbc01 auxbc01 u c :
  n_bcs S = [Dx; Dy] -> (2 <= n_ng S)%nat -> mcapa_in_aux S ->
  fit_dim (n_ng S) (Nat.ltb 0 (n_naux S)) (Z.of_nat (n_neq S)) Dx -> flat_bc (n_ng S) Dy ->
  still (n_neq S) (n_nw S) (n_rpn S 1) -> splits_nothing (n_neq S) (n_rpt S 1) ->
  (forall m i j, (0 <= i < ncells Dx)%Z -> (0 <= j < ncells Dy)%Z -> q m [i; j] = q1 m [i] /\ aux m [i; j] = aux1 m [i]) ->
  step_hyperbolic pow undef Fortran (line_settings S 0 Dx) q1 aux1 qbc01 auxbc01 = Stepped u c ->
  exists q' c', unsplit_step undef S trans q aux qbc0 auxbc0 = MStepped q' c' /\
  forall m i j, (0 <= m < Z.of_nat (n_neq S))%Z -> (0 <= i < ncells Dx)%Z -> (0 <= j < ncells Dy)%Z -> q' m [i; j] == u m i.
Proof.
  intros HB Hg Hk HX HY HS HT Hpl H1.
  assert (Hg1 : (1 <= n_ng S)%nat) by lia.
  set (g := Z.of_nat (n_ng S)).
  assert (Hx1 : (1 <= ncells Dx)%Z) by (destruct HX as (_ & _ & _ & _ & _ & (_ & _ & W) & _); exact W).
  assert (Hy1 : (1 <= ncells Dy)%Z) by (destruct HY as (_ & _ & W & _); exact W).
  assert (FD : Forall (fit_dim (n_ng S) (Nat.ltb 0 (n_naux S)) (Z.of_nat (n_neq S))) (n_bcs S)).
  { rewrite HB. constructor; [exact HX|]. constructor; [apply flat_fit; exact HY|constructor]. }
  assert (FY : fit_dim (n_ng S) (Nat.ltb 0 (n_naux S)) (Z.of_nat (n_neq S)) Dy) by (apply flat_fit; exact HY).
  destruct (apply_bcs_at Q Qopp (n_ng S) (Nat.ltb 0 (n_naux S)) (n_funs S) (Z.of_nat (n_neq S)) (n_bcs S) q aux qbc0 auxbc0 Hg1 FD)
    as (qbc & auxbc & E & A & B & _).
  unfold step_hyperbolic, line_settings in H1. cbn [c_ng c_naux c_funs c_neq c_bc] in H1.
  destruct (apply_bcs_at Q Qopp (n_ng S) (Nat.ltb 0 (n_naux S)) (n_funs S) (Z.of_nat (n_neq S)) [Dx] q1 aux1 qbc01 auxbc01 Hg1 (Forall_cons _ HX (Forall_nil _)))
    as (qbc1 & auxbc1 & E1 & A1 & B1 & _).
  rewrite E1 in H1. destruct (kernel pow undef Fortran _ _ _) as [[k1 kc]|] eqn:EK; [|discriminate].
  injection H1 as <- <-.
  change (kernel pow undef Fortran (line_settings S 0 Dx) (fun m i => qbc1 m [i]) (fun m i => auxbc1 m [i]) = Some (k1, kc)) in EK.
  unfold unsplit_step. rewrite E. cbv zeta. eexists. eexists. split; [reflexivity|]. intros m i j Hm Hi Hj.
  assert (RQ : forall cc a b, (0 <= a < ncells Dx + 2 * g)%Z -> (0 <= b < ncells Dy + 2 * g)%Z -> qbc cc [a; b] = qbc1 cc [a]).
  { intros cc a b Ha Hb.
    pose proof (A cc [(a - g)%Z; (b - g)%Z]) as A'. rewrite HB in A'. specialize (A' ltac:(cbn [in_box]; unfold g in *; lia)).
    pose proof (A1 cc [(a - g)%Z] ltac:(cbn [in_box]; unfold g in *; lia)) as A1'.
    cbn [shift map] in A', A1'. fold g in A', A1'. replace (a - g + g)%Z with a in * by lia. replace (b - g + g)%Z with b in A' by lia.
    rewrite A', A1'. unfold q_ghost_value. cbn [combine map fst snd rev app fold_right].
    rewrite (flat_no_wall (n_ng S) Dy (b - g) HY), andb_false_r.
    destruct HX as (_ & _ & _ & S1 & S2 & W & _). destruct FY as (_ & _ & _ & S3 & S4 & W' & _).
    pose proof (source_in (n_ng S) (q_lo Dx) (q_hi Dx) (ncells Dx) (a - g) S1 S2 W ltac:(unfold g in *; lia)) as I1.
    pose proof (source_in (n_ng S) (q_lo Dy) (q_hi Dy) (ncells Dy) (b - g) S3 S4 W' ltac:(unfold g in *; lia)) as I2.
    rewrite (proj1 (Hpl cc _ _ I1 I2)). reflexivity. }
  assert (RA : forall cc a b, (0 <= cc < Z.of_nat (n_naux S))%Z -> (0 <= a < ncells Dx + 2 * g)%Z -> (0 <= b < ncells Dy + 2 * g)%Z -> auxbc cc [a; b] = auxbc1 cc [a]).
  { intros cc a b Hcc Ha Hb. assert (HA : Nat.ltb 0 (n_naux S) = true) by (apply Nat.ltb_lt; lia).
    pose proof (B HA cc [(a - g)%Z; (b - g)%Z]) as B'. rewrite HB in B'. specialize (B' ltac:(cbn [in_box]; unfold g in *; lia)).
    pose proof (B1 HA cc [(a - g)%Z] ltac:(cbn [in_box]; unfold g in *; lia)) as B1'.
    cbn [shift map] in B', B1'. fold g in B', B1'. replace (a - g + g)%Z with a in * by lia. replace (b - g + g)%Z with b in B' by lia.
    rewrite B', B1'. unfold aux_ghost_value. cbn [combine map fst snd].
    destruct HX as (_ & _ & _ & _ & _ & _ & X). destruct (X HA) as (S1 & S2 & W). destruct FY as (_ & _ & _ & _ & _ & _ & Y). destruct (Y HA) as (S3 & S4 & W').
    pose proof (source_in (n_ng S) (a_lo Dx) (a_hi Dx) (ncells Dx) (a - g) S1 S2 W ltac:(unfold g in *; lia)) as I1.
    pose proof (source_in (n_ng S) (a_lo Dy) (a_hi Dy) (ncells Dy) (b - g) S3 S4 W' ltac:(unfold g in *; lia)) as I2.
    rewrite (proj2 (Hpl cc _ _ I1 I2)). reflexivity. }
  assert (Hns : map ncells (n_bcs S) = [ncells Dx; ncells Dy]) by (rewrite HB; reflexivity).
  assert (Hn : Forall (fun n => 0 <= n)%Z (map ncells (n_bcs S))) by (rewrite Hns; repeat constructor; lia).
  assert (Hlay : layers S = g) by (unfold layers; rewrite HB; reflexivity).
  assert (Hlen : length (n_bcs S) = 2%nat) by (rewrite HB; reflexivity).
  assert (V0 : forall a b, (g <= a < g + ncells Dx)%Z -> (0 <= b < ncells Dy + 2 * g)%Z -> visited S 0 [a; b]).
  { intros a b Ha Hb. split; [rewrite Hlen; reflexivity|]. rewrite Hns, Hlen, Hlay. fold g. intros [|[|k]] Hk'; cbn [Nat.eqb get nth]; lia. }
  (* each row is the one-dimensional step *)
  assert (X1 : forall a b, (g <= a < g + ncells Dx)%Z -> (0 <= b < ncells Dy + 2 * g)%Z -> fst (sweep undef S (layers S) false 0 auxbc qbc qbc) m [a; b] == k1 m a).
  { intros a b Ha Hb.
    assert (KR : exists r rc, kernel pow undef Fortran (line_settings S 0 Dx) (fun m i => qbc m (put 0 i [a; b])) (fun m i => auxbc m (put 0 i [a; b])) = Some (r, rc)).
    { cbn [put]. unfold kernel, line_settings in EK |- *. cbn [c_neq c_nw c_naux c_ng c_fwave c_order c_mthlim c_rp c_dx c_dt c_capa c_bc c_funs] in *.
      unfold f_dtdx in EK |- *. destruct (n_capa S) as [kk|] eqn:Ekk; cbn [option_map] in *.
      - destruct (forallb (fun i0 => qltb 0 (auxbc1 kk [(i0 + Z.of_nat (n_ng S) - 1)%Z])) _) eqn:EF; [|discriminate].
        replace (forallb (fun i0 => qltb 0 (auxbc kk [(i0 + Z.of_nat (n_ng S) - 1)%Z; b])) (zrange (1 - Z.of_nat (n_ng S)) (Z.to_nat (ncells Dx + 2 * Z.of_nat (n_ng S))))) with true.
        + match goal with |- context [let (_, _) := ?t in _] => destruct t as [r rc] end. eexists. eexists. reflexivity.
        + symmetry. apply forallb_forall. intros e He. rewrite forallb_forall in EF. specialize (EF e He). apply zrange_in in He.
          rewrite RA; [exact EF|apply Hk; exact Ekk|unfold g; lia|exact Hb].
      - match goal with |- context [let (_, _) := ?t in _] => destruct t as [r rc] end. eexists. eexists. reflexivity. }
    destruct KR as (r & rc & KR).
    rewrite (sweep_1d pow undef S Hg1 Hn 0 false auxbc qbc m [a; b] Dx r rc); [|lia|apply V0; assumption|rewrite Hns; reflexivity|exact Hm|exact KR].
    cbn [get]. replace a with (a + 0)%Z at 2 by lia.
    rewrite (kernel_window pow undef (line_settings S 0 Dx) Dx 0 Fortran) with (qbc := fun m i => qbc1 m [i]) (auxbc := fun m i => auxbc1 m [i]) (q2 := k1) (c2 := kc)
        (qbc' := fun m i => qbc m (put 0 i [a; b])) (auxbc' := fun m i => auxbc m (put 0 i [a; b])) (c1 := rc); [reflexivity|..].
    - exact Hg.
    - intros K. discriminate.
    - exact Hk.
    - lia.
    - cbn [line_settings c_bc]. lia.
    - intros k Hkk. cbn [line_settings c_ng] in Hkk. rewrite Z.add_0_r. split; apply vec_ext; cbn [line_settings c_neq c_naux put]; intros c0 Hc0.
      + apply RQ; [unfold g; lia|exact Hb].
      + apply RA; [exact Hc0|unfold g; lia|exact Hb].
    - exact KR.
    - exact EK.
    - exact Hm.
    - exact Ha. }
  unfold set_q_from_qbc. cbn [shift map]. fold g. cbn [line_settings c_ng]. fold g.
  set (ix := [(i + g)%Z; (j + g)%Z]).
  assert (IX : interior S ix).
  { split; [reflexivity|]. rewrite Hns. fold g. intros [|[|d]] Hd; cbn [ix get nth]; lia. }
  rewrite (step2_value undef S trans Hg1 auxbc qbc Hlen Hn (layers S) m ix (layers_nonneg S) IX).
  destruct (sweep_at undef S Hg1 Hn (layers S) false 0 auxbc qbc (layers_nonneg S) ltac:(lia)) as [AX _].
  rewrite <- AX by exact Hm. unfold ix at 2. rewrite X1 by (unfold g; lia).
  assert (T0 : t_trans undef S trans auxbc qbc 0 m ix == 0).
  { assert (ROW : forall n a, (forall cc x y y', (0 <= cc < Z.of_nat n)%Z -> (0 <= x < ncells Dx + 2 * g)%Z -> (0 <= y < ncells Dy + 2 * g)%Z -> (0 <= y' < ncells Dy + 2 * g)%Z -> a cc [x; y] = a cc [x; y']) ->
       forall r r' k, (1 - g <= r <= ncells Dy + g)%Z -> (1 - g <= r' <= ncells Dy + g)%Z -> (1 - g <= k <= ncells Dx + g)%Z -> vec n (t_row S 0 r a) k = vec n (t_row S 0 r' a) k).
    { intros n a HR r r' k Hr Hr' Hk'. apply vec_ext. intros cc Hcc. unfold t_row, slice. cbn [Nat.sub put]. fold g. apply HR; try exact Hcc; lia. }
    assert (RQ' := ROW (n_neq S) qbc ltac:(intros; rewrite !RQ by assumption; reflexivity)).
    assert (RA' := ROW (n_naux S) auxbc ltac:(intros; rewrite !RA by assumption; reflexivity)). clear ROW.
    assert (SAME : forall r r', (0 <= r <= ncells Dy + 1)%Z -> (0 <= r' <= ncells Dy + 1)%Z ->
       gadd1 (t_flux undef S trans 0 auxbc qbc r) m (i + 1)%Z = gadd1 (t_flux undef S trans 0 auxbc qbc r') m (i + 1)%Z /\
       gadd2 (t_flux undef S trans 0 auxbc qbc r) m (i + 1)%Z = gadd2 (t_flux undef S trans 0 auxbc qbc r') m (i + 1)%Z).
    { intros r r' Hr Hr'. unfold t_flux. apply rows_gadd; try exact Hm; rewrite Hns; cbn [nth].
      - intros k Hkk. apply RQ'; unfold g; lia.
      - intros k Hkk. repeat split; apply RA'; unfold g; lia.
      - intros k Hkk. apply line_dtdx_eq; [exact Hk|]. intros cc Hcc. unfold t_row, slice. cbn [Nat.sub put]. fold g. rewrite !RA by (try exact Hcc; unfold g; lia). reflexivity.
      - lia. }
    unfold t_trans. cbv zeta. cbn [Nat.sub ix get]. fold g. replace (i + g - g + 1)%Z with (i + 1)%Z by lia. replace (j + g - g + 1)%Z with (j + 1)%Z by lia.
    destruct (SAME (j + 1 + 1)%Z (j + 1)%Z ltac:(lia) ltac:(lia)) as [-> _]. destruct (SAME (j + 1 - 1)%Z (j + 1)%Z ltac:(lia) ltac:(lia)) as [_ ->].
    destruct (n_capa S); unfold Qdiv; ring. }
  assert (T1 : t_trans undef S trans auxbc qbc 1 m ix == 0).
  { assert (Z1 : forall r, (1 - g <= r <= ncells Dx + g)%Z ->
       gadd1 (t_flux undef S trans 1 auxbc qbc r) m (j + 1)%Z == 0 /\ gadd2 (t_flux undef S trans 1 auxbc qbc r) m (j + 1)%Z == 0).
    { intros r Hr. unfold t_flux. apply gadd_still; [exact HT|exact Hm|rewrite Hns; cbn [nth]; lia|].
      intros e cc He Hcc. cbn [solve_rps amdq apdq wave].
      assert (VQ : vec (n_neq S) (t_row S 1 r qbc) (e + -1 + 1) = vec (n_neq S) (t_row S 1 r qbc) (e + -1)).
      { apply vec_ext. intros c1 Hc1. unfold t_row, slice. cbn [Nat.sub put]. fold g. rewrite !RQ by (unfold g in *; lia). reflexivity. }
      assert (VA : vec (n_naux S) (t_row S 1 r auxbc) (e + -1 + 1) = vec (n_naux S) (t_row S 1 r auxbc) (e + -1)).
      { apply vec_ext. intros c1 Hc1. unfold t_row, slice. cbn [Nat.sub put]. fold g. rewrite !RA by (try exact Hc1; unfold g in *; lia). reflexivity. }
      rewrite VQ, VA. exact (HS _ _ cc Hcc). }
    unfold t_trans. cbv zeta. cbn [Nat.sub ix get]. fold g. replace (i + g - g + 1)%Z with (i + 1)%Z by lia. replace (j + g - g + 1)%Z with (j + 1)%Z by lia.
    destruct (Z1 (i + 1)%Z ltac:(unfold g; lia)) as [Y1 Y2]. destruct (Z1 (i + 1 + 1)%Z ltac:(unfold g; lia)) as [Y3 _]. destruct (Z1 (i + 1 - 1)%Z ltac:(unfold g; lia)) as [_ Y4].
    destruct (n_capa S); rewrite Y1, Y2, Y3, Y4; unfold Qdiv; ring. }
  rewrite T0, T1. rewrite (sweep_still undef S Hg1).
  - ring.
  - lia.
  - exact Hm.
  - cbn [ix length]. lia.
  - exact HS.
  - intros v cc Hcc. rewrite Hns. unfold ix. cbn [nth put]. fold g. intros Hv. rewrite !RQ by (unfold g in *; lia). reflexivity.
  - intros v cc Hcc. rewrite Hns. unfold ix. cbn [nth put]. fold g. intros Hv. rewrite !RA by (unfold g in *; lia). reflexivity.
Qed.
