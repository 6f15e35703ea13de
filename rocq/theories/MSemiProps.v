(** Properties C87 and C88: the SharpClaw solvers in two and three dimensions. *)
From Verif Require Import Base BCModel BCSpec BCProofs TimeModel LimiterModel Classic1DModel Classic1DSpec Classic1DProofs
  Classic1DProofs2 Classic1DProps ParallelProofs2 SharpModel SharpSpec MultiModel WenoModel WenoProofs SemiModel SemiSpec SemiProofs SemiProofs2
  SemiProps SweepModel SweepSpec SweepProofs SweepProofs3 MSemiModel MSemiSpec MSemiProofs MSemiProofs2.

Lemma fit_nonneg S : Forall (fit_dim (n_ng S) (Nat.ltb 0 (n_naux S)) (Z.of_nat (n_neq S))) (n_bcs S) ->
  Forall (fun n => 0 <= n)%Z (map ncells (n_bcs S)).
Proof.
  intros H. apply Forall_map. eapply Forall_impl; [|exact H]. intros D (_ & _ & _ & _ & _ & (_ & _ & X) & _). lia.
Qed.
Lemma mdq_ok {W} recon tfluct S (w0 : W) q aux qbc0 auxbc0 :
  (1 <= n_ng S)%nat -> Forall (fit_dim (n_ng S) (Nat.ltb 0 (n_naux S)) (Z.of_nat (n_neq S))) (n_bcs S) ->
  exists qbc auxbc, let g := Z.of_nat (n_ng S) in
  (forall c pos, in_box (n_ng S) (n_bcs S) pos -> qbc c (shift g pos) = q_ghost_value Q Qopp (n_bcs S) q c pos) /\
  (Nat.ltb 0 (n_naux S) = true -> forall c pos, in_box (n_ng S) (n_bcs S) pos -> auxbc c (shift g pos) = aux_ghost_value Q (n_bcs S) aux c pos) /\
  mdq_hyperbolic recon tfluct Fortran S w0 q aux qbc0 auxbc0 =
    MDQ (fun m ix => snd (fst (semi_sweeps recon tfluct S w0 auxbc qbc)) m (shift g ix)) (snd (semi_sweeps recon tfluct S w0 auxbc qbc)).
Proof.
  intros Hg HF. unfold mdq_hyperbolic.
  destruct (apply_bcs_at Q Qopp (n_ng S) (Nat.ltb 0 (n_naux S)) (n_funs S) (Z.of_nat (n_neq S)) (n_bcs S) q aux qbc0 auxbc0 Hg HF) as (qb & xb & E & A & B & _).
  rewrite E. exists qb, xb. cbv zeta. split; [exact A|]. split; [exact B|].
  destruct (semi_sweeps _ _ _ _ _ _) as [[w dq] cfl]. reflexivity.
Qed.

(** C87: in every cell dq is the sum over the dimensions of what the one-dimensional solver computes for the line of
    cells through it, whatever the workspace contained, and the Courant number is that of the worst line, counting
    the lines in the first layer of ghost cells. *)
Theorem C87_sum_of_lines :
  forall (W : Type) (recon : nat -> W -> (Z -> Z -> Q) -> (Z -> Z -> Q) -> W * edges) tfluct S w0 q aux qbc0 auxbc0,
  (1 <= n_ng S)%nat -> Forall (fit_dim (n_ng S) (Nat.ltb 0 (n_naux S)) (Z.of_nat (n_neq S))) (n_bcs S) ->
  mcapa_in_aux S -> determined S recon ->
  exists dq cfl, mdq_hyperbolic recon tfluct Fortran S w0 q aux qbc0 auxbc0 = MDQ dq cfl /\
  forall w qb ab ix, in_domain (n_bcs S) ix ->
  (forall dD, In dD (dims S) -> exists d1 c1, along recon tfluct S w q aux qb ab dD ix = DQ d1 c1) /\
  forall m, dq m ix == qsum (map (fun dD => dq_of (along recon tfluct S w q aux qb ab dD ix) m (get (fst dD) ix)) (dims S)).
Proof.
  intros W recon tfluct S w0 q aux qbc0 auxbc0 Hg HF Hk HD.
  destruct (mdq_ok recon tfluct S w0 q aux qbc0 auxbc0 Hg HF) as (qbc & auxbc & A & B & E). cbv zeta in A, B, E.
  eexists. eexists. split; [exact E|]. intros w qb ab ix Hx. split.
  - intros [d D] Hd. destruct (along_grid recon tfluct S q aux auxbc qbc Hg Hk HD HF A B w w d D ix qb ab Hd Hx) as (d1 & c1 & H & _). eauto.
  - intros m. unfold semi_sweeps. fold (dims S).
    rewrite (sweeps_sum recon tfluct S auxbc qbc Hg Hk HD w m (shift (Z.of_nat (n_ng S)) ix) (fit_nonneg S HF)).
    + cbn [fst snd]. rewrite Qplus_0_l.
      assert (K : forall ds, (forall x, In x ds -> In x (dims S)) ->
        map (fun dD => fst (at_line recon tfluct S auxbc qbc w (fst dD) (snd dD) (put (fst dD) 0 (shift (Z.of_nat (n_ng S)) ix))) m
          (get (fst dD) (shift (Z.of_nat (n_ng S)) ix) - Z.of_nat (n_ng S) + 1)%Z) ds =
        map (fun dD => dq_of (along recon tfluct S w q aux qb ab dD ix) m (get (fst dD) ix)) ds).
      { intros ds Hds. apply map_ext_in. intros [d D] Hd. apply Hds in Hd. cbn [fst snd].
        destruct (along_grid recon tfluct S q aux auxbc qbc Hg Hk HD HF A B w w d D ix qb ab Hd Hx) as (d1 & c1 & H & H1 & _).
        rewrite H. cbn [dq_of]. apply dims_domain in Hx. destruct Hx as [HL Hx]. pose proof (dims_len S d D Hd) as Hl.
        rewrite get_shift by lia. rewrite H1 by (apply Hx; exact Hd).
        replace (get d ix + Z.of_nat (n_ng S) - Z.of_nat (n_ng S) + 1)%Z with (get d ix + 1)%Z by lia. reflexivity. }
      rewrite K by auto. reflexivity.
    + rewrite shift_length. apply dims_domain in Hx. tauto.
    + intros j D Hj. pose proof (dims_len S j D Hj) as Hl. apply dims_domain in Hx. destruct Hx as [HL Hx].
      rewrite get_shift by lia. specialize (Hx j D Hj). lia.
    + auto.
Qed.
Print Assumptions C87_sum_of_lines.

(** The Courant number, without a capacity function: [q_ghost_value] and [aux_ghost_value] extend q and aux to the
    ghost cells as the boundary conditions prescribe. *)
Theorem C87_courant :
  forall (W : Type) (recon : nat -> W -> (Z -> Z -> Q) -> (Z -> Z -> Q) -> W * edges) tfluct S w0 q aux qbc0 auxbc0 dq cfl,
  (1 <= n_ng S)%nat -> Forall (fit_dim (n_ng S) (Nat.ltb 0 (n_naux S)) (Z.of_nat (n_neq S))) (n_bcs S) ->
  n_capa S = None -> determined S recon ->
  mdq_hyperbolic recon tfluct Fortran S w0 q aux qbc0 auxbc0 = MDQ dq cfl ->
  forall w qb ab,
  let courant d D ix c := exists d1,
    along recon tfluct S w (q_ghost_value Q Qopp (n_bcs S) q) (aux_ghost_value Q (n_bcs S) aux) qb ab (d, D) ix = DQ d1 c in
  (forall d D ix, In (d, D) (dims S) -> next_to_grid S d ix -> exists c, courant d D ix c /\ c <= cfl) /\
  (cfl == 0 \/ exists d D ix c, In (d, D) (dims S) /\ next_to_grid S d ix /\ courant d D ix c /\ cfl == c).
Proof.
  intros W recon tfluct S w0 q aux qbc0 auxbc0 dq cfl Hg HF HN HD H w qb ab.
  assert (Hk : mcapa_in_aux S) by (intros k E; congruence).
  destruct (mdq_ok recon tfluct S w0 q aux qbc0 auxbc0 Hg HF) as (qbc & auxbc & A & B & E). cbv zeta in A, B, E.
  rewrite E in H. injection H as _ <-. cbv zeta.
  pose proof (sweeps_cfl recon tfluct S auxbc qbc Hg Hk HD w HN (dims S) (fun x Hx => Hx) (w0, fun _ _ => 0, 0)) as L.
  cbv zeta in L. cbn [snd] in L. change (fold_left (semi_sweep recon tfluct S auxbc qbc) (dims S) (w0, fun _ _ => 0, 0)) with (semi_sweeps recon tfluct S w0 auxbc qbc) in L.
  destruct L as (_ & L2 & L3).
  assert (NB : forall d ix, next_to_grid S d ix -> beside S d ix).
  { intros d ix [HL HB]. split; [exact HL|]. intros j D Hj Hn. specialize (HB j D Hj Hn). lia. }
  assert (AL : forall d D ix, In (d, D) (dims S) -> next_to_grid S d ix -> exists d1 c,
    along recon tfluct S w (q_ghost_value Q Qopp (n_bcs S) q) (aux_ghost_value Q (n_bcs S) aux) qb ab (d, D) ix = DQ d1 c /\
    c = snd (at_line recon tfluct S auxbc qbc w d D (put d 0 (shift (Z.of_nat (n_ng S)) ix)))).
  { intros d D ix Hd Hx.
    destruct (along_line recon tfluct S q aux auxbc qbc Hg Hk HD HF A B w w d D ix
      (line d ix (q_ghost_value Q Qopp (n_bcs S) q)) (line d ix (aux_ghost_value Q (n_bcs S) aux)) qb ab Hd (NB d ix Hx)) as (d1 & c1 & H1 & _ & H2).
    - intros c i _. unfold line. cbn [hd]. rewrite put_put. reflexivity.
    - intros _ c i _. unfold line. cbn [hd]. rewrite put_put. reflexivity.
    - exists d1, c1. split; [exact H1|]. apply H2. exact HN. }
  assert (IL : forall d D ix, In (d, D) (dims S) -> next_to_grid S d ix -> In (put d 0%Z (shift (Z.of_nat (n_ng S)) ix)) (semi_lines d (n_ng S) (map ncells (n_bcs S)))).
  { intros d D ix Hd [HL HB]. apply semi_lines_in; [apply fit_nonneg; exact HF|]. rewrite put_length, shift_length, map_length. split; [exact HL|].
    intros j Hj. destruct (Nat.eqb_spec j d) as [Ej|Nj].
    - subst j. apply get_put. rewrite shift_length. lia.
    - rewrite get_put_other by congruence. rewrite get_shift by lia.
      destruct (nth_error (n_bcs S) j) as [Dj|] eqn:Ej; [|apply nth_error_None in Ej; lia].
      specialize (HB j Dj (proj2 (dims_nth S j Dj) Ej) Nj).
      rewrite (nth_indep (map ncells (n_bcs S)) 0%Z (ncells Dj)) by (rewrite map_length; exact Hj).
      rewrite (map_nth ncells). rewrite (nth_error_nth (n_bcs S) j Dj Ej). lia. }
  split.
  - intros d D ix Hd Hx. destruct (AL d D ix Hd Hx) as (d1 & c & H1 & H2). exists c. split; [exists d1; exact H1|].
    rewrite H2. apply L2; [exact Hd|]. apply (IL d D ix Hd Hx).
  - destruct L3 as [L3|(d & D & b & Hd & Hb & L3)]; [left; exact L3|]. right.
    set (ix := shift (- Z.of_nat (n_ng S)) b).
    assert (Eb : put d 0%Z (shift (Z.of_nat (n_ng S)) ix) = b).
    { unfold ix. rewrite shift_fwd. apply semi_lines_in in Hb; [|apply fit_nonneg; exact HF]. destruct Hb as [HL Hb].
      pose proof (dims_len S d D Hd) as Hl. specialize (Hb d ltac:(rewrite map_length; exact Hl)). rewrite Nat.eqb_refl in Hb.
      rewrite <- Hb at 1. apply put_get. }
    assert (Hx : next_to_grid S d ix).
    { apply semi_lines_in in Hb; [|apply fit_nonneg; exact HF]. destruct Hb as [HL Hb]. rewrite map_length in *.
      split; [unfold ix; rewrite shift_length; exact HL|]. intros j Dj Hj Hn. pose proof (dims_len S j Dj Hj) as Hl. specialize (Hb j Hl).
      unfold ix. rewrite get_shift by lia. replace (Nat.eqb j d) with false in Hb by (symmetry; apply Nat.eqb_neq; exact Hn).
      apply dims_nth in Hj. rewrite (nth_indep (map ncells (n_bcs S)) 0%Z (ncells Dj)) in Hb by (rewrite map_length; exact Hl).
      rewrite (map_nth ncells) in Hb. rewrite (nth_error_nth (n_bcs S) j Dj Hj) in Hb. lia. }
    destruct (AL d D ix Hd Hx) as (d1 & c & H1 & H2). exists d, D, ix, c. split; [exact Hd|]. split; [exact Hx|]. split; [exists d1; exact H1|].
    rewrite L3, H2, Eb. reflexivity.
Qed.
Print Assumptions C87_courant.

(** The error branches: a failing boundary condition is reported, and there is no Python kernel. *)
Theorem C87_errors :
  forall (W : Type) (recon : nat -> W -> (Z -> Z -> Q) -> (Z -> Z -> Q) -> W * edges) tfluct L S w0 q aux qbc0 auxbc0,
  match apply_bcs Q Qopp (n_ng S) (Nat.ltb 0 (n_naux S)) (n_funs S) (Z.of_nat (n_neq S)) (n_bcs S) q aux qbc0 auxbc0 with
  | Raised e => mdq_hyperbolic recon tfluct L S w0 q aux qbc0 auxbc0 = MSemiBC e
  | Ok _ => mdq_hyperbolic recon tfluct L S w0 q aux qbc0 auxbc0 = MOnlyFortran <-> L = Python
  end.
Proof.
  intros. unfold mdq_hyperbolic. destruct (apply_bcs _ _ _ _ _ _ _ _ _ _ _) as [[qb xb]|e]; [|reflexivity].
  destruct L; [split; reflexivity|]. destruct (semi_sweeps _ _ _ _ _ _) as [[w d] c]. split; discriminate.
Qed.
Print Assumptions C87_errors.

(** The hypothesis on the reconstruction holds for the WENO reconstruction of order 5, although its routine is told the
    size of the longest dimension and leaves a part of its output arrays alone. *)
Lemma longest_ge S d D : In (d, D) (dims S) -> (ncells D <= longest S)%Z.
Proof.
  intros H. apply dims_nth in H. apply nth_error_In in H. unfold longest. induction (n_bcs S) as [|x l IH]; [destruct H|].
  cbn [map fold_right]. destruct H as [E|H]; [subst x; lia|specialize (IH H); lia].
Qed.
Theorem C87_weno5_determined : forall eps S, (3 <= n_ng S)%nat -> determined S (mweno5 eps S).
Proof.
  intros eps S Hg d D Hd w w' q q' a a' g HQ _ e e' m Hm. pose proof (longest_ge S d D Hd) as HL.
  unfold e, e', mweno5, fortran_weno5, f_weno5. cbn [fst snd]. fold g.
  assert (K : forall i, (0 <= i <= ncells D + 1)%Z -> pyweno eps (fun i => q m (i - g)%Z) (i + g) = pyweno eps (fun i => q' m (i - g)%Z) (i + g)).
  { intros i Hi. unfold pyweno. rewrite !HQ by (unfold g; lia). reflexivity. }
  assert (D0 : (0 <= ncells D)%Z \/ (ncells D < 0)%Z) by lia.
  split; intros i Hi; rewrite !in_slice_true by (unfold g; lia); rewrite K by lia; reflexivity.
Qed.
Print Assumptions C87_weno5_determined.

(** C88: conservation. *)
Lemma boxsum_plus ns f h : boxsum ns (fun ix => f ix + h ix) == boxsum ns f + boxsum ns h.
Proof.
  revert f h. induction ns as [|n ns IH]; intros f h; cbn [boxsum]; [reflexivity|]. rewrite <- zsum_plus. apply zsum_eq. intros i _. apply IH.
Qed.
Lemma boxsum_scale ns a f : boxsum ns (fun ix => a * f ix) == a * boxsum ns f.
Proof.
  revert f. induction ns as [|n ns IH]; intros f; cbn [boxsum]; [reflexivity|]. rewrite <- zsum_scale. apply zsum_eq. intros i _. apply IH.
Qed.
Lemma boxsum_qsum ns {A} (l : list A) (f : A -> list Z -> Q) : (forall x, In x l -> boxsum ns (f x) == 0) ->
  boxsum ns (fun ix => qsum (map (fun x => f x ix) l)) == 0.
Proof.
  induction l as [|x l IH]; intros H; cbn [map].
  - rewrite (boxsum_eq ns _ (fun ix => 0 * 0)) by (intros; unfold qsum; cbn; ring). rewrite boxsum_scale. ring.
  - rewrite (boxsum_eq ns _ (fun ix => f x ix + qsum (map (fun x => f x ix) l))) by (intros; reflexivity).
    rewrite boxsum_plus, H, IH by (try (left; reflexivity); intros y Hy; apply H; right; exact Hy). ring.
Qed.

Theorem C88_periodic_conservation :
  forall (W : Type) (recon : nat -> W -> (Z -> Z -> Q) -> (Z -> Z -> Q) -> W * edges) tfluct S flux w0 q aux qbc0 auxbc0,
  (3 <= n_ng S)%nat -> Forall (periodic_dim (n_ng S)) (n_bcs S) -> n_capa S = None ->
  all_conservative S flux -> determined S recon -> msound S flux recon tfluct ->
  exists dq cfl, mdq_hyperbolic recon tfluct Fortran S w0 q aux qbc0 auxbc0 = MDQ dq cfl /\
  forall m, (0 <= m < Z.of_nat (n_neq S))%Z -> boxsum (map ncells (n_bcs S)) (dq m) == 0.
Proof.
  intros W recon tfluct S flux w0 q aux qbc0 auxbc0 Hg HP HN HC HD HM.
  assert (Hk : mcapa_in_aux S) by (intros k E; congruence).
  assert (HF : Forall (fit_dim (n_ng S) (Nat.ltb 0 (n_naux S)) (Z.of_nat (n_neq S))) (n_bcs S)).
  { eapply Forall_impl; [|exact HP]. intros D X. apply SweepProofs3.periodic_fit; [lia|exact X]. }
  destruct (C87_sum_of_lines W recon tfluct S w0 q aux qbc0 auxbc0 ltac:(lia) HF Hk HD) as (dq & cfl & E & H).
  exists dq, cfl. split; [exact E|]. intros m Hm.
  rewrite (boxsum_eq _ _ (fun ix => qsum (map (fun dD => dq_of (along recon tfluct S w0 q aux qbc0 auxbc0 dD ix) m (get (fst dD) ix)) (dims S)))).
  2:{ intros ix HL Hx. apply (H w0 qbc0 auxbc0 ix). apply in_domain_get. split; [exact HL|exact Hx]. }
  apply boxsum_qsum. intros [d D] Hd. cbn [fst]. pose proof (dims_len S d D Hd) as Hl.
  rewrite (boxsum_dim d) by (rewrite map_length; exact Hl).
  pose proof (proj1 (dims_nth S d D) Hd) as Hn.
  rewrite (nth_indep (map ncells (n_bcs S)) 0%Z (ncells D)) by (rewrite map_length; exact Hl).
  rewrite (map_nth ncells), (nth_error_nth (n_bcs S) d D Hn).
  rewrite (boxsum_eq _ _ (fun ix => 0 * 0)); [rewrite boxsum_scale; ring|].
  intros ix HL _. rewrite put_length, map_length in HL.
  assert (PD : periodic_dim (n_ng S) D) by (rewrite Forall_forall in HP; apply HP; apply nth_error_In in Hn; exact Hn).
  destruct PD as [PD WD].
  pose proof (C32_periodic_conservation (FRecon (fun q a => snd (recon d w0 q a)) (option_map (fun tf => tf d) tfluct)) (line_settings S d D) (flux d)
    (line d ix q) (line d ix aux) qbc0 auxbc0 (or_introl HN) Hg PD WD (HC d Hl) Hk (HM d D w0 Hd)) as X.
  cbn [line_settings c_neq] in X.
  rewrite (zsum_eq 0 _ _ (fun i => dq_of (along recon tfluct S w0 q aux qbc0 auxbc0 (d, D) ix) m i)).
  2:{ intros i Hi. rewrite get_put by lia. unfold along, line. rewrite put_put. reflexivity. }
  unfold along, line_settings. unfold line_settings in X. destruct (dq_hyperbolic _ _ _ _ _ _) as [d1 c1|e| |] eqn:Ed.
  - cbn [dq_of]. specialize (X ltac:(intros i _; unfold capacity; cbn [c_capa]; rewrite HN; discriminate) m Hm).
    unfold total, cells in X. cbn [c_bc] in X. rewrite (zsum_eq 0 _ _ (fun i => capacity (line_settings S d D) (flat (line d ix aux)) i * d1 m i)).
    + unfold line_settings. rewrite X. ring.
    + intros i _. unfold capacity, line_settings. cbn [c_capa]. rewrite HN. ring.
  - destruct X. intros i _. unfold capacity. cbn [c_capa]. rewrite HN. discriminate.
  - rewrite zsum_zero; [ring|reflexivity].
  - rewrite zsum_zero; [ring|reflexivity].
Qed.
Print Assumptions C88_periodic_conservation.

Theorem C88_weno5_sound : forall eps S flux, (3 <= n_ng S)%nat -> Forall (periodic_dim (n_ng S)) (n_bcs S) -> msound S flux (mweno5 eps S) None.
Proof.
  intros eps S flux Hg HP d D w Hd. split; [|discriminate].
  assert (PD : periodic_dim (n_ng S) D) by (rewrite Forall_forall in HP; apply HP; apply dims_nth in Hd; apply nth_error_In in Hd; exact Hd).
  destruct PD as [_ WD]. pose proof (longest_ge S d D Hd) as HLg. cbn [line_settings c_neq c_naux c_ng c_bc].
  intros q aux P _ m Hm. cbn [mweno5 snd]. unfold fortran_weno5, f_weno5. cbn [fst snd].
  rewrite !in_slice_true by lia.
  assert (E : forall j j', j' = (j + ncells D)%Z -> (j = Z.of_nat (n_ng S) \/ j = Z.of_nat (n_ng S) + 1)%Z ->
    pyweno eps (fun i => q m (i - Z.of_nat (n_ng S))%Z) j = pyweno eps (fun i => q m (i - Z.of_nat (n_ng S))%Z) j').
  { intros j j' -> Hj. unfold pyweno. set (g := Z.of_nat (n_ng S)) in *.
    replace (j + ncells D - g)%Z with (j - g + ncells D)%Z by lia. replace (j + ncells D + 1 - g)%Z with (j + 1 - g + ncells D)%Z by lia.
    replace (j + ncells D + 2 - g)%Z with (j + 2 - g + ncells D)%Z by lia. replace (j + ncells D - 1 - g)%Z with (j - 1 - g + ncells D)%Z by lia.
    replace (j + ncells D - 2 - g)%Z with (j - 2 - g + ncells D)%Z by lia.
    rewrite <- !P by lia. reflexivity. }
  rewrite (E (0 + Z.of_nat (n_ng S))%Z (ncells D + Z.of_nat (n_ng S))%Z), (E (1 + Z.of_nat (n_ng S))%Z (ncells D + 1 + Z.of_nat (n_ng S))%Z) by lia. split; reflexivity.
Qed.
Print Assumptions C88_weno5_sound.

Lemma mtotal1_linear S m : linear (mtotal1 S m).
Proof. split; intros; unfold mtotal1, vadd, vscale; [apply boxsum_plus|apply boxsum_scale]. Qed.
Lemma mtotal1_zero S m : mtotal1 S m (fun _ => 0) == 0.
Proof. unfold mtotal1. rewrite (boxsum_eq _ _ (fun ix => 0 * 0)) by (intros; ring). rewrite boxsum_scale. ring. Qed.
Lemma munit_dims S : dims (munit_dt S) = dims S. Proof. reflexivity. Qed.

Section R.
Context {W : Type}.
Variable recon : nat -> W -> (Z -> Z -> Q) -> (Z -> Z -> Q) -> W * edges.
Variable tfluct : option (nat -> list Q -> list Q -> list Q -> list Q -> Z -> Q).
Variable S : msettings.
Variable flux : nat -> list Q -> list Q -> Z -> Q.
Hypothesis Hg : (3 <= n_ng S)%nat.
Hypothesis HP : Forall (periodic_dim (n_ng S)) (n_bcs S).
Hypothesis HN : n_capa S = None.
Hypothesis HC : all_conservative S flux.
Hypothesis HD : determined S recon.
Hypothesis HM : msound S flux recon tfluct.
Variables (w : Q -> (Z * list Z -> Q) -> W) (aux qbc0 auxbc0 : arr Q).
Lemma mrhs_total t u m : (0 <= m < Z.of_nat (n_neq S))%Z -> mtotal1 S m (mrhs recon tfluct S w aux qbc0 auxbc0 t u) == 0.
Proof.
  intros Hm. destruct (C88_periodic_conservation W recon tfluct (munit_dt S) flux (w t u) (as_marr u) aux qbc0 auxbc0 Hg HP HN HC HD HM) as (dq & cfl & E & H).
  unfold mtotal1, mrhs. rewrite E. cbn [fst snd]. exact (H m Hm).
Qed.
End R.

(** Every Runge-Kutta step and the multistep formulas conserve the total of every component. *)
Theorem C88_runge_kutta :
  forall (W : Type) (recon : nat -> W -> (Z -> Z -> Q) -> (Z -> Z -> Q) -> W * edges) tfluct S flux w aux qbc0 auxbc0 hook dt t q m,
  (3 <= n_ng S)%nat -> Forall (periodic_dim (n_ng S)) (n_bcs S) -> n_capa S = None ->
  all_conservative S flux -> determined S recon -> msound S flux recon tfluct ->
  (0 <= m < Z.of_nat (n_neq S))%Z -> (forall t u, mtotal1 S m (hook t u) == mtotal1 S m u) ->
  let f := mrhs recon tfluct S w aux qbc0 auxbc0 in
  mtotal1 S m (euler dt (f t q) t q) == mtotal1 S m q /\
  mtotal1 S m (ssp22 f hook dt (f t q) t q) == mtotal1 S m q /\
  mtotal1 S m (ssp33 f hook dt (f t q) t q) == mtotal1 S m q /\
  mtotal1 S m (ssp104 f hook dt (f t q) t q) == mtotal1 S m q /\
  (forall s a b c, mtotal1 S m (rk_user f hook dt s a b c (f t q) t q) == mtotal1 S m q) /\
  forall steps dts regs fs q' T, ~ dt == 0 -> ~ qsum (tl dts) == 0 ->
    mtotal1 S m q == T -> Forall (fun r => mtotal1 S m r == T) regs -> Forall (fun k => exists t u, k = f t u) fs ->
    ssplmm2 dt steps dts regs (f t q) q = Some q' \/ ssplmm3 dt steps dts regs fs q = Some q' -> mtotal1 S m q' == T.
Proof.
  intros W recon tfluct S flux w aux qbc0 auxbc0 hook dt t q m Hg HP HN HC HD HM Hm Hh f.
  pose proof (mtotal1_linear S m) as HL.
  assert (Hf : forall t u, mtotal1 S m (f t u) == 0) by (intros; eapply mrhs_total; eauto).
  split; [apply euler_keeps_L; auto|]. split; [apply ssp22_keeps_L; auto|]. split; [apply ssp33_keeps_L; auto|].
  split; [apply ssp104_keeps_L; auto|]. split; [intros; apply rk_user_keeps_L; auto; apply mtotal1_zero|].
  intros steps dts regs fs q' T Hd Hs Hq Hr Hfs [H|H].
  - exact (ssplmm2_keeps_L _ _ HL T dt steps dts regs _ q q' Hq (Hf t q) Hr Hd Hs H).
  - refine (ssplmm3_keeps_L _ _ HL T dt steps dts regs fs q q' Hq _ Hr Hd Hs H). eapply Forall_impl; [|exact Hfs]. intros k (t' & u & ->). apply Hf.
Qed.
Print Assumptions C88_runge_kutta.

(** dq with the step dt is dt times dq/dt. *)
Theorem C88_scales :
  forall (W : Type) (recon : nat -> W -> (Z -> Z -> Q) -> (Z -> Z -> Q) -> W * edges) tfluct S w0 w aux qbc0 auxbc0 t u dq cfl,
  (1 <= n_ng S)%nat -> Forall (fit_dim (n_ng S) (Nat.ltb 0 (n_naux S)) (Z.of_nat (n_neq S))) (n_bcs S) ->
  mcapa_in_aux S -> determined S recon ->
  mdq_hyperbolic recon tfluct Fortran S w0 (as_marr u) aux qbc0 auxbc0 = MDQ dq cfl ->
  forall m ix, in_domain (n_bcs S) ix -> dq m ix == n_dt S * mrhs recon tfluct S w aux qbc0 auxbc0 t u (m, ix).
Proof.
  intros W recon tfluct S w0 w aux qbc0 auxbc0 t u dq cfl Hg HF Hk HD E m ix Hx.
  destruct (C87_sum_of_lines W recon tfluct S w0 (as_marr u) aux qbc0 auxbc0 Hg HF Hk HD) as (dq' & cfl' & E' & H).
  rewrite E in E'. injection E' as <- <-. destruct (H w0 qbc0 auxbc0 ix Hx) as [H1 H2]. rewrite H2. clear H H2 E.
  destruct (C87_sum_of_lines W recon tfluct (munit_dt S) (w t u) (as_marr u) aux qbc0 auxbc0 Hg HF Hk HD) as (dq2 & cfl2 & E2 & H).
  unfold mrhs. rewrite E2. cbn [fst snd]. destruct (H w0 qbc0 auxbc0 ix Hx) as [H3 H4]. rewrite H4. clear H H4 E2. rewrite munit_dims in *.
  cbn [munit_dt n_bcs n_ng] in *.
  assert (K : forall ds, (forall x, In x ds -> In x (dims S)) ->
    qsum (map (fun dD => dq_of (along recon tfluct S w0 (as_marr u) aux qbc0 auxbc0 dD ix) m (get (fst dD) ix)) ds) ==
    n_dt S * qsum (map (fun dD => dq_of (along recon tfluct (munit_dt S) w0 (as_marr u) aux qbc0 auxbc0 dD ix) m (get (fst dD) ix)) ds)).
  { induction ds as [|[d D] ds IH]; intros Hds; cbn [map]; [unfold qsum; cbn; ring|].
    change (qsum (?x :: ?l)) with (x + qsum l). rewrite IH by (intros x X; apply Hds; right; exact X).
    assert (P : dq_of (along recon tfluct S w0 (as_marr u) aux qbc0 auxbc0 (d, D) ix) m (get d ix) ==
      n_dt S * dq_of (along recon tfluct (munit_dt S) w0 (as_marr u) aux qbc0 auxbc0 (d, D) ix) m (get d ix)).
    { unfold along, dq_hyperbolic. cbn [line_settings munit_dt c_ng c_naux c_funs c_neq c_bc n_ng n_naux n_funs n_neq].
      destruct (apply_bcs _ _ _ _ _ _ _ _ _ _ _) as [[qb xb]|e]; [|cbn [dq_of]; ring].
      set (e := snd (recon d w0 _ _)). set (fa := fun m i => xb m [(i + Z.of_nat (n_ng S) - 1)%Z]).
      destruct (f_semi _ (line_settings S d D) e fa) as [f1 c1] eqn:F1.
      destruct (f_semi _ (line_settings (munit_dt S) d D) e fa) as [f2 c2] eqn:F2. cbn [dq_of].
      change f1 with (fst (f1, c1)). change f2 with (fst (f2, c2)). rewrite <- F1, <- F2.
      exact (f_semi_scales _ (line_settings S d D) e fa m (get d ix + 1)). }
    cbn [fst]. rewrite P. ring. }
  apply K. auto.
Qed.
Print Assumptions C88_scales.
