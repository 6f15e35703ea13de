(** Property C89: uniform data is a steady state of the SharpClaw solvers; examples for C87 and C88. *)
From Verif Require Import Base BCModel BCSpec BCProofs TimeModel LimiterModel Classic1DModel Classic1DSpec Classic1DProofs
  Classic1DProofs2 Classic1DProps ParallelProofs2 SharpModel SharpSpec SharpProofs SharpProps MultiModel WenoModel WenoSpec WenoProofs WenoProps SemiModel SemiSpec SemiProofs SemiProofs2
  SemiProps SweepModel SweepSpec SweepProofs SweepProofs3 SweepProofs5 MSemiModel MSemiSpec MSemiProofs MSemiProofs2 MSemiProps.

Lemma vec_qeq n (a b : Z -> Z -> Q) i j : (forall m, (0 <= m < Z.of_nat n)%Z -> a m i == b m j) -> Forall2 Qeq (vec n a i) (vec n b j).
Proof.
  intros H. unfold vec.
  assert (K : forall l, (forall x, In x l -> (x < n)%nat) -> Forall2 Qeq (map (fun k => a (Z.of_nat k) i) l) (map (fun k => b (Z.of_nat k) j) l)).
  { induction l as [|x l IH]; intros Hl; cbn [map]; constructor.
    - apply H. specialize (Hl x (or_introl eq_refl)). lia.
    - apply IH. intros y Hy. apply Hl. right. exact Hy. }
  apply K. intros x Hx. apply in_seq in Hx. lia.
Qed.

(** One line of uniform data *)
Lemma uniform_line {W} (recon : nat -> W -> (Z -> Z -> Q) -> (Z -> Z -> Q) -> W * edges) tf S d D w q1 a1 qb ab u c dq cfl :
  (1 <= n_ng S)%nat -> In (d, D) (dims S) -> flat_bc (n_ng S) D ->
  quiet (n_neq S) (n_rpn S d) -> (forall t, tf = Some t -> quiet_tfluct (n_neq S) t) -> keeps_constants S recon ->
  (forall m i, (0 <= m < Z.of_nat (n_neq S))%Z -> (0 <= i < ncells D)%Z -> q1 m [i] == u m) ->
  (forall m i, (0 <= m < Z.of_nat (n_naux S))%Z -> (0 <= i < ncells D)%Z -> a1 m [i] == c m) ->
  dq_hyperbolic (FRecon (fun q a => snd (recon d w q a)) tf) (line_settings S d D) q1 a1 qb ab = DQ dq cfl ->
  forall m i, (0 <= m < Z.of_nat (n_neq S))%Z -> (0 <= i < ncells D)%Z -> dq m i == 0.
Proof.
  intros Hg Hd HB HR HT HK Hq Ha E m i Hm Hi.
  pose proof (flat_fit (n_ng S) (Nat.ltb 0 (n_naux S)) (Z.of_nat (n_neq S)) D HB) as HF.
  destruct (semi_ok (FRecon (fun q a => snd (recon d w q a)) tf) (line_settings S d D) q1 a1 qb ab Hg HF) as (qb1 & ab1 & Q1 & A1 & E1).
  rewrite E1 in E. clear E1. cbn [line_settings c_ng c_bc c_neq c_naux] in *. cbv zeta in E.
  set (g := Z.of_nat (n_ng S)) in *.
  set (fq := fun m i => qb1 m (i + g - 1)%Z) in *. set (fa := fun m i => ab1 m (i + g - 1)%Z) in *.
  assert (Gq : forall k j, (0 <= k < Z.of_nat (n_neq S))%Z -> (1 - g <= j <= ncells D + g)%Z -> fq k j == u k).
  { intros k j Hkx Hj. unfold fq. replace (j + g - 1)%Z with (j - 1 + g)%Z by lia. rewrite Q1 by lia. rewrite ghost_one.
    unfold flip. rewrite (flat_no_wall (n_ng S) D (j - 1) HB), andb_false_r. apply Hq; [exact Hkx|]. apply (src_in _ _ _ D (j - 1) HF). unfold g in *. lia. }
  assert (Ga : forall k j, (0 <= k < Z.of_nat (n_naux S))%Z -> (1 - g <= j <= ncells D + g)%Z -> fa k j == c k).
  { intros k j Hkx Hj. unfold fa. replace (j + g - 1)%Z with (j - 1 + g)%Z by lia.
    assert (HX : Nat.ltb 0 (n_naux S) = true) by (apply Nat.ltb_lt; lia). rewrite (A1 HX) by lia. unfold aux_ghost_value. cbn [combine map fst snd].
    apply Ha; [exact Hkx|]. destruct HF as (_ & _ & _ & _ & _ & _ & X). destruct (X HX) as (S1 & S2 & Wd). apply (source_in (n_ng S)); try assumption. unfold g in *. lia. }
  set (e := snd (recon d w fq fa)) in *.
  assert (Ke : forall k, (0 <= k < Z.of_nat (n_neq S))%Z -> (forall i, (1 <= i <= ncells D + 1)%Z -> fst e k i == u k) /\ (forall i, (0 <= i <= ncells D)%Z -> snd e k i == u k)).
  { intros k Hkx. apply (HK d D w fq fa u Hd Gq k Hkx). }
  destruct (f_semi tf _ e fa) as [f1 c1] eqn:Ef. injection E as <- _.
  change f1 with (fst (f1, c1)). rewrite <- Ef. clear Ef f1 c1.
  assert (RQ : forall j, (1 <= j <= ncells D + 1)%Z ->
     o_am (n_rpn S d (vec (n_neq S) (snd e) (j + -1)) (vec (n_neq S) (fst e) (j + -1 + 1)) (vec (n_naux S) fa (j + -1)) (vec (n_naux S) fa (j + -1 + 1))) m == 0 /\
     o_ap (n_rpn S d (vec (n_neq S) (snd e) (j + -1)) (vec (n_neq S) (fst e) (j + -1 + 1)) (vec (n_naux S) fa (j + -1)) (vec (n_naux S) fa (j + -1 + 1))) m == 0).
  { intros j Hj. apply HR; [exact Hm| |].
    - apply vec_qeq. intros k Hkx. destruct (Ke k Hkx) as [K1 K2]. rewrite K2, K1 by lia. reflexivity.
    - apply vec_qeq. intros k Hkx. rewrite !Ga by (unfold g; lia). reflexivity. }
  assert (VQ : Forall2 Qeq (vec (n_neq S) (fst e) (i + 1)) (vec (n_neq S) (snd e) (i + 1))).
  { apply vec_qeq. intros k Hkx. destruct (Ke k Hkx) as [K1 K2]. rewrite K2, K1 by lia. reflexivity. }
  assert (VA : Forall2 Qeq (vec (n_naux S) fa (i + 1)) (vec (n_naux S) fa (i + 1))) by (apply vec_qeq; reflexivity).
  destruct (RQ (i + 1)%Z ltac:(lia)) as [_ R1]. destruct (RQ (i + 1 + 1)%Z ltac:(lia)) as [R2 _].
  unfold f_semi. cbn [line_settings c_neq c_naux c_bc c_rp c_nw].
  destruct tf as [tf|]; cbn [fst edge_rps cell_rps apdq amdq]; rewrite in_slice_true by lia; rewrite R1, R2.
  - rewrite (HT tf eq_refl _ _ _ _ m Hm VQ VA). ring.
  - destruct (HR _ _ _ _ m Hm VQ VA) as [R3 R4]. rewrite R3, R4. ring.
Qed.

(** C89: dq vanishes on uniform data, *)
Theorem C89_uniform :
  forall (W : Type) (recon : nat -> W -> (Z -> Z -> Q) -> (Z -> Z -> Q) -> W * edges) tfluct S w0 q aux qbc0 auxbc0 u c,
  (1 <= n_ng S)%nat -> Forall (flat_bc (n_ng S)) (n_bcs S) -> mcapa_in_aux S -> determined S recon ->
  (forall d, (d < length (n_bcs S))%nat -> quiet (n_neq S) (n_rpn S d)) ->
  (forall tf d, tfluct = Some tf -> (d < length (n_bcs S))%nat -> quiet_tfluct (n_neq S) (tf d)) ->
  keeps_constants S recon -> uniform S (n_neq S) q u -> uniform S (n_naux S) aux c ->
  exists dq cfl, mdq_hyperbolic recon tfluct Fortran S w0 q aux qbc0 auxbc0 = MDQ dq cfl /\
  forall m ix, (0 <= m < Z.of_nat (n_neq S))%Z -> in_domain (n_bcs S) ix -> dq m ix == 0.
Proof.
  intros W recon tfluct S w0 q aux qbc0 auxbc0 u c Hg HB Hk HD HR HT HK Hq Ha.
  assert (HF : Forall (fit_dim (n_ng S) (Nat.ltb 0 (n_naux S)) (Z.of_nat (n_neq S))) (n_bcs S)).
  { eapply Forall_impl; [|exact HB]. intros D X. apply flat_fit. exact X. }
  destruct (C87_sum_of_lines W recon tfluct S w0 q aux qbc0 auxbc0 Hg HF Hk HD) as (dq & cfl & E & H).
  exists dq, cfl. split; [exact E|]. intros m ix Hm Hx. destruct (H w0 qbc0 auxbc0 ix Hx) as [H1 H2]. rewrite H2. clear H2 H.
  assert (K : forall ds, (forall x, In x ds -> In x (dims S)) ->
    qsum (map (fun dD => dq_of (along recon tfluct S w0 q aux qbc0 auxbc0 dD ix) m (get (fst dD) ix)) ds) == 0).
  { induction ds as [|[d D] ds IH]; intros Hds; cbn [map]; [reflexivity|].
    change (qsum (?x :: ?l)) with (x + qsum l). rewrite IH by (intros x X; apply Hds; right; exact X).
    pose proof (Hds (d, D) (or_introl eq_refl)) as Hd. pose proof (dims_len S d D Hd) as Hl.
    destruct (H1 (d, D) Hd) as (d1 & c1 & E1). rewrite E1. cbn [dq_of fst].
    assert (HBD : flat_bc (n_ng S) D) by (rewrite Forall_forall in HB; apply HB; apply dims_nth in Hd; apply nth_error_In in Hd; exact Hd).
    assert (Z1 : d1 m (get d ix) == 0); [|rewrite Z1; ring].
    unfold along in E1.
    refine (uniform_line recon _ S d D w0 _ _ _ _ u c d1 c1 Hg Hd HBD (HR d Hl) _ HK _ _ E1 m (get d ix) Hm _).
    - intros t Et. destruct tfluct as [tf|]; [|discriminate]. injection Et as <-. apply (HT tf d eq_refl Hl).
    - intros k i Hkx Hi. unfold line. cbn [hd]. rewrite put_put. apply Hq; [exact Hkx|]. apply (domain_put S Hg d D); assumption.
    - intros k i Hkx Hi. unfold line. cbn [hd]. rewrite put_put. apply Ha; [exact Hkx|]. apply (domain_put S Hg d D); assumption.
    - apply dims_domain in Hx. destruct Hx as [_ Hx]. apply Hx. exact Hd. }
  apply K. auto.
Qed.
Print Assumptions C89_uniform.

(** and every Euler, SSP22, SSP33 and SSP104 step leaves it as it is. *)
Theorem C89_steps :
  forall (W : Type) (recon : nat -> W -> (Z -> Z -> Q) -> (Z -> Z -> Q) -> W * edges) tfluct S w aux qbc0 auxbc0 hook u c dt t q,
  (1 <= n_ng S)%nat -> Forall (flat_bc (n_ng S)) (n_bcs S) -> mcapa_in_aux S -> determined S recon ->
  (forall d, (d < length (n_bcs S))%nat -> quiet (n_neq S) (n_rpn S d)) ->
  (forall tf d, tfluct = Some tf -> (d < length (n_bcs S))%nat -> quiet_tfluct (n_neq S) (tf d)) ->
  keeps_constants S recon -> uniform S (n_naux S) aux c -> 0 <= dt ->
  let K v := uniform S (n_neq S) (as_marr v) u in
  (forall t v, K v -> K (hook t v)) -> K q ->
  let f := mrhs recon tfluct S w aux qbc0 auxbc0 in
  K (euler dt (f t q) t q) /\ K (ssp22 f hook dt (f t q) t q) /\ K (ssp33 f hook dt (f t q) t q) /\ K (ssp104 f hook dt (f t q) t q).
Proof.
  intros W recon tfluct S w aux qbc0 auxbc0 hook u c dt t q Hg HB Hk HD HR HT HK Ha Hdt K Hh Hq f.
  assert (CK : convex K).
  { split.
    - intros x y Exy Kx m ix Hm Hx. unfold as_marr in *. rewrite <- (Exy (m, ix)). apply Kx; assumption.
    - intros a b x y H1 H2 Hab Kx Ky m ix Hm Hx. unfold as_marr in *. specialize (Kx m ix Hm Hx). specialize (Ky m ix Hm Hx). cbv beta in Kx, Ky. rewrite Kx, Ky.
      rewrite <- Qmult_plus_distr_l, Hab. ring. }
  assert (EK : euler_keeps K f dt).
  { intros d s v _ _ Kv m ix Hm Hx. unfold as_marr. cbv beta.
    destruct (C89_uniform W recon tfluct (munit_dt S) (w s v) (as_marr v) aux qbc0 auxbc0 u c Hg HB Hk HD HR HT HK Kv Ha) as (dq & cfl & E & Z0).
    unfold f, mrhs. rewrite E. cbn [fst snd]. rewrite (Z0 m ix Hm Hx). rewrite Qmult_0_r, Qplus_0_r. apply (Kv m ix Hm Hx). }
  split; [apply (C28_euler _ f K dt dt t q); auto; apply Qle_refl|].
  split; [apply (C28_ssp22 _ f hook K dt dt t q); auto; apply Qle_refl|].
  split; [apply (C28_ssp33 _ f hook K dt dt t q); auto; apply Qle_refl|].
  apply (C28_ssp104 _ f hook K dt dt t q); auto. lra.
Qed.
Print Assumptions C89_steps.

Theorem C89_weno5_constants : forall eps S, 0 < eps -> (3 <= n_ng S)%nat -> keeps_constants S (mweno5 eps S).
Proof.
  intros eps S He Hg d D w q a u Hd Hq m Hm. pose proof (longest_ge S d D Hd) as HL.
  unfold mweno5, fortran_weno5, f_weno5. cbn [fst snd]. set (g := Z.of_nat (n_ng S)) in *.
  assert (K : forall i, (0 <= i <= ncells D + 1)%Z -> fst (pyweno eps (fun i => q m (i - g)%Z) (i + g)) == u m /\ snd (pyweno eps (fun i => q m (i - g)%Z) (i + g)) == u m).
  { intros i Hi. set (p := mkQuad (u m) 0 0).
    destruct (C31_exact eps (fun i => q m (i - g)%Z) (i + g) p (fst (pyweno eps (fun i => q m (i - g)%Z) (i + g))) He) as [_ X1].
    { intros j Hj. rewrite Hq by (unfold g in *; lia). unfold average, p. cbn [qa qb qc]. ring. }
    destruct (C31_exact eps (fun i => q m (i - g)%Z) (i + g) p (snd (pyweno eps (fun i => q m (i - g)%Z) (i + g))) He) as [X2 _].
    { intros j Hj. rewrite Hq by (unfold g in *; lia). unfold average, p. cbn [qa qb qc]. ring. }
    rewrite (X1 (pyweno_left eps _ (i + g) He)), (X2 (pyweno_right eps _ (i + g) He)). unfold value, p. cbn [qa qb qc]. split; ring. }
  split; intros i Hi; rewrite in_slice_true by (unfold g; lia); [exact (proj1 (K i ltac:(lia)))|exact (proj2 (K i ltac:(lia)))].
Qed.
Print Assumptions C89_weno5_constants.

(** ** Examples *)
Definition msemi_set (tx ty : bctype) : msettings :=
  mkMSet 1 1 0 3 false 2 (fun _ => 0%Z) (fun _ => burgers) (fun _ _ _ _ _ _ _ => (fun _ => 0, fun _ => 0)) (fun d => match d with O => 1 | _ => 2 end)
    (1 # 4) None [mkDim 4 tx tx tx tx true true 0; mkDim 3 ty ty ty ty true true 0] (mkFuns Q None None None None).
Definition msemi_u : Z * list Z -> Q := fun mi => match snd mi with
  | [0%Z; 0%Z] => 1 | [1%Z; 0%Z] => 3 | [2%Z; 1%Z] => 2 | [3%Z; 2%Z] => -1 # 2 | _ => 0 end.
Definition no_edges : edges := (fun _ _ => 0, fun _ _ => 0).
(** the reconstruction of order 1, whose edge values are the averages; the hypotheses for WENO5 are in C87_weno5_determined,
    C88_weno5_sound and C89_weno5_constants *)
Definition order1 (d : nat) (w : edges) (q a : Z -> Z -> Q) : edges * edges := (w, (q, q)).
Lemma order1_ok S flux : (1 <= n_ng S)%nat -> determined S order1 /\ msound S flux order1 None /\ keeps_constants S order1.
Proof.
  intros Hg. split; [|split].
  - intros d D Hd w w' q q' a a' g Hq Ha e e' m Hm. unfold g in *. split; intros i Hi; apply Hq; lia.
  - intros d D w Hd. split; [|discriminate]. intros q a H1 H2 m Hm. cbn [order1 fst snd]. cbn [line_settings c_ng c_bc c_neq c_naux] in *.
    split; [exact (H1 m 0%Z Hm ltac:(lia))|rewrite Z.add_comm; exact (H1 m 1%Z Hm ltac:(lia))].
  - intros d D w q a u Hd Hq m Hm. split; intros i Hi; apply Hq; lia.
Qed.
(** C87: a 4 x 3 grid, a wall in x and extrapolation in y, Burgers' equation in both directions *)
Example C87_example :
  Forall (fit_dim 3 false 1) (n_bcs (msemi_set Wall Extrap)) /\ determined (msemi_set Wall Extrap) order1 /\
  match mdq_hyperbolic order1 None Fortran (msemi_set Wall Extrap) no_edges (as_marr msemi_u) zero_arr zero_arr zero_arr with
  | MDQ d c => (negb (Qeq_bool (d 0%Z [1; 0]%Z) 0) && negb (Qeq_bool c 0) &&
      Qeq_bool (d 0%Z [1; 0]%Z) (qsum (map (fun dD => dq_of (along order1 None (msemi_set Wall Extrap)
         no_edges (as_marr msemi_u) zero_arr zero_arr zero_arr dD [1; 0]%Z) 0 (get (fst dD) [1; 0]%Z)) (dims (msemi_set Wall Extrap)))))%bool = true
  | _ => False
  end.
Proof.
  split; [|split; [apply (order1_ok _ (fun _ => burgers_flux)); vm_compute; lia|vm_compute; reflexivity]].
  constructor; [|constructor; [|constructor]]; unfold fit_dim, standard, wide; cbn; repeat split; auto; try lia; try discriminate; intros [H|H]; discriminate.
Qed.
(** C88: the same grid with periodic boundaries *)
Example C88_example :
  Forall (periodic_dim 3) (n_bcs (msemi_set Periodic Periodic)) /\ all_conservative (msemi_set Periodic Periodic) (fun _ => burgers_flux) /\
  match mdq_hyperbolic order1 None Fortran (msemi_set Periodic Periodic) no_edges (as_marr msemi_u) zero_arr zero_arr zero_arr with
  | MDQ d c => (negb (Qeq_bool (d 0%Z [1; 0]%Z) 0) && Qeq_bool (boxsum [4; 3]%Z (d 0%Z)) 0)%bool = true
  | _ => False
  end.
Proof.
  split; [|split; [intros d _; apply burgers_conservative|vm_compute; reflexivity]].
  constructor; [|constructor; [|constructor]]; unfold periodic_dim, periodic_bc; cbn; repeat split; auto; lia.
Qed.
(** C89: Burgers' equation, constant state 3/2. *)
Example C89_example :
  Forall (flat_bc 3) (n_bcs (msemi_set Extrap Periodic)) /\ quiet 1 burgers /\
  match mdq_hyperbolic order1 None Fortran (msemi_set Extrap Periodic) no_edges (fun _ _ => 3 # 2) zero_arr zero_arr zero_arr with
  | MDQ d c => (Qeq_bool (d 0%Z [1; 0]%Z) 0 && negb (Qeq_bool c 0))%bool = true
  | _ => False
  end.
Proof.
  split; [|split; [|vm_compute; reflexivity]].
  - constructor; [|constructor; [|constructor]]; unfold flat_bc; cbn; repeat split; auto; try lia;
      intros t [<-|[<-|[<-|[<-|[]]]]]; auto; right; split; auto; lia.
  - intros ul ur al ar m _ HU _.
    assert (E : hd 0 ur - hd 0 ul == 0) by (destruct HU as [|x y l l' Hxy _]; cbn [hd]; [|rewrite Hxy]; ring).
    cbn [burgers o_am o_ap]. cbv zeta. rewrite E. split; ring.
Qed.
