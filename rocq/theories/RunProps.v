(** Properties C90-C92: whole runs of the controller with a solver and its kernel. *)
From Verif Require Import Base BCModel BCSpec BCProofs TimeModel TimeSpec TimeProofs TimeProofs2 ControllerModel LimiterModel Classic1DModel
  Classic1DSpec Classic1DProofs Classic1DProps SharpModel SemiModel SemiSpec SemiProofs2 SemiProps SweepModel SweepSpec SweepProofs
  SweepProofs3 SweepProps UnsplitModel UnsplitProps MSemiModel MSemiSpec MSemiProps RunModel RunSpec RunProofs.

(** ** C90: what every accepted step keeps, every frame of every run keeps. *)
Theorem C90_classic_run :
  forall (DQ DX E P F : Type) (Iq : DQ -> Prop) (Ix : DX -> Prop) source hyper split before setup valid (c : controller DQ DX P F)
    (w w' : world DQ DX E P F) o,
  let s0 := if w_set_up w then w_solver w else setup (w_solver w) in
  sane s0 -> classic_keeps Iq Ix source hyper before (cfl_max s0) -> Iq (sq (w_sol w)) -> Ix (sx (w_sol w)) ->
  run (classic_evolve source hyper split before) setup valid c w = (w', o) ->
  frames_keep (fun u => Iq (sq u) /\ Ix (sx u)) w w' o.
Proof.
  intros DQ DX E P F Iq Ix source hyper split before setup valid c w w' o s0 HS HK Hq Hx H.
  refine (run_keeps (classic_step source hyper split) accept_reject_step before Iq Ix (sane_at (cfl_max s0))
    (classic_frame source hyper split) (proj1 HK) _ _ setup valid c w w' o (conj HS eq_refl) (conj Hq Hx) H).
  - intros s s' K Hd _ _. apply (sane_at_is _ s s' K Hd).
  - intros tstart tend s so s' so' HI Ht H1 H2 H3.
    exact (classic_step_keeps Iq Ix source hyper split before (cfl_max s0) HK tstart tend s so s' so' HI Ht H1 H2 H3).
Qed.
Print Assumptions C90_classic_run.

Theorem C90_sharpclaw_run :
  forall (DQ DX P F : Type) (Iq Ik : DQ -> Prop) (Ix : DX -> Prop) slope stages before setup valid (c : controller DQ DX P F)
    (w w' : world DQ DX DQ P F) o,
  let s0 := if w_set_up w then w_solver w else setup (w_solver w) in
  sane s0 -> (accept_step s0 = true \/ Ik (ext s0)) -> sharp_keeps Iq Ik Ix slope stages before -> Iq (sq (w_sol w)) -> Ix (sx (w_sol w)) ->
  run (sharp_evolve slope stages before) setup valid c w = (w', o) ->
  frames_keep (fun u => Iq (sq u) /\ Ix (sx u)) w w' o.
Proof.
  intros DQ DX P F Iq Ik Ix slope stages before setup valid c w w' o s0 HS HA HK Hq Hx H.
  refine (run_keeps (sharp_step slope stages) accept_reject_step before Iq Ix (sharp_at Ik)
    (sharp_frame slope stages) (proj1 HK) _ _ setup valid c w w' o _ (conj Hq Hx) H).
  - intros s s' K Hd He Ha. apply (sharp_at_is Ik s s' K Hd He Ha).
  - intros tstart tend s so s' so' HI Ht H1 H2 H3.
    exact (sharp_step_keeps Iq Ik Ix slope stages before HK tstart tend s so s' so' HI Ht H1 H2 H3).
  - split; [exact HS|]. fold s0. intros E. destruct HA as [A|A]; [congruence|exact A].
Qed.
Print Assumptions C90_sharpclaw_run.

(** ** C91: conservation *)
Lemma total_aux C a b q m : (forall i, (0 <= i < cells C)%Z -> capacity C (flat a) i == capacity C (flat b) i) ->
  total C 0 (flat a) q m == total C 0 (flat b) q m.
Proof. intros H. unfold total. apply zsum_eq. intros i Hi. rewrite H by lia. reflexivity. Qed.

Theorem C91_classic_1d :
  forall (E P F : Type) pow undef L C flux stale source split before setup valid (c : controller (arr Q) (arr Q) P F)
    (w w' : world (arr Q) (arr Q) E P F) o,
  let s0 := if w_set_up w then w_solver w else setup (w_solver w) in
  sane s0 -> (2 <= c_ng C)%nat -> periodic_bc (c_bc C) -> (Z.of_nat (c_ng C) <= cells C)%Z ->
  conservative (c_neq C) flux (c_rp C) -> capa_in_aux C ->
  (forall i, (0 <= i < cells C)%Z -> 0 < capacity C (flat (sx (w_sol w))) i) ->
  leaves_totals C before -> (forall f d, source = Some f -> leaves_totals C (f d)) ->
  run (classic_evolve source (hyper_1d pow undef L C stale) split before) setup valid c w = (w', o) ->
  frames_keep (fun u => same_totals C u (w_sol w)) w w' o.
Proof.
  intros E P F pow undef L C flux stale source split before setup valid c w w' o s0 HS Hg HP Hmx HC Hcapa Hpos HB HSrc H.
  set (aux := sx (w_sol w)) in *.
  set (Ix := fun a : arr Q => forall i, (0 <= i < cells C)%Z -> capacity C (flat a) i == capacity C (flat aux) i).
  set (Iq := fun q : arr Q => forall m, (0 <= m < Z.of_nat (c_neq C))%Z -> total C 0 (flat aux) (flat q) m == total C 0 (flat aux) (flat (sq (w_sol w))) m).
  assert (CB : forall g, leaves_totals C g -> forall so, Iq (sq so) -> Ix (sx so) -> Iq (fst (g so)) /\ Ix (snd (g so))).
  { intros g Hl so H1 H2. destruct (Hl so) as [G1 G2].
    assert (G3 : Ix (snd (g so))) by (intros i Hi; rewrite G2 by exact Hi; apply H2; exact Hi).
    split; [|exact G3]. intros m Hm. rewrite <- (total_aux C _ _ _ _ G3), (G1 m Hm), (total_aux C _ _ _ _ H2). apply H1. exact Hm. }
  assert (KK : classic_keeps Iq Ix source (hyper_1d pow undef L C stale) before (cfl_max s0)).
  { split; [intros so H1 H2; apply CB; assumption|]. split; [intros f d so Ef _ H1 H2; apply CB; [apply (HSrc f d Ef)|exact H1|exact H2]|].
    intros d so _ H1 H2. unfold hyper_1d.
    pose proof (C17_periodic_conservation pow undef L (with_dt C d) flux (sq so) (sx so) (fst (stale d so)) (snd (stale d so)) Hg HP Hmx HC Hcapa) as K.
    assert (Nz : forall i, (0 <= i < cells (with_dt C d))%Z -> ~ capacity (with_dt C d) (flat (sx so)) i == 0).
    { intros i Hi. change (~ capacity C (flat (sx so)) i == 0). rewrite (H2 i Hi). specialize (Hpos i Hi). lra. }
    specialize (K Nz). destruct (step_hyperbolic _ _ _ _ _ _ _ _) as [q' cf|e|]; cbn [fst snd].
    - split; [exact H2|]. intros _ m Hm. rewrite <- (total_aux C _ _ _ _ H2).
      change (total C 0 (flat (sx so)) q' m == total C 0 (flat aux) (flat (sq (w_sol w))) m).
      specialize (K m Hm). change (total C 0 (flat (sx so)) q' m == total C 0 (flat (sx so)) (flat (sq so)) m) in K.
      rewrite K, (total_aux C _ _ _ _ H2). apply H1. exact Hm.
    - destruct K.
    - destruct K as (_ & i & Hi & Hc). change (capacity C (flat (sx so)) i <= 0) in Hc. rewrite (H2 i Hi) in Hc. specialize (Hpos i Hi). lra. }
  destruct (C90_classic_run _ _ E P F Iq Ix source (hyper_1d pow undef L C stale) split before setup valid c w w' o HS KK) as (A & B & D);
    [intros m Hm; reflexivity|intros i Hi; reflexivity|exact H|].
  assert (T : forall u, Iq (sq u) /\ Ix (sx u) -> same_totals C u (w_sol w)).
  { intros u [U1 U2] m Hm. rewrite (total_aux C _ _ _ _ U2). apply U1. exact Hm. }
  split; [|split].
  - intros n a u Hu. destruct (A n a u Hu); auto.
  - intros u Hu. destruct (B u Hu); auto.
  - intros Ho. apply T. apply D. exact Ho.
Qed.
Print Assumptions C91_classic_1d.

Lemma mtotal_aux S a b q m : (forall ix, in_domain (n_bcs S) ix -> mcapacity S a ix == mcapacity S b ix) -> mtotal S a q m == mtotal S b q m.
Proof.
  intros H. unfold mtotal. apply boxsum_eq. intros ix Hl Hx. rewrite H; [reflexivity|]. apply in_domain_get. split; assumption.
Qed.
(** Two dimensions with and without dimensional splitting, three with (and then, see C61, without limiters). *)
Theorem C91_classic_md :
  forall (E P F : Type) undef trans S flux step stale source split before setup valid (c : controller (arr Q) (arr Q) P F)
    (w w' : world (arr Q) (arr Q) E P F) o,
  let s0 := if w_set_up w then w_solver w else setup (w_solver w) in
  sane s0 -> (2 <= n_ng S)%nat -> Forall (periodic_dim (n_ng S)) (n_bcs S) -> mcapa_in_aux S -> all_conservative S flux ->
  (length (n_bcs S) = 2%nat /\ (step = split_step undef \/ step = (fun S => unsplit_step undef S trans)) \/
   length (n_bcs S) = 3%nat /\ ~ limits S /\ step = split_step undef) ->
  (forall ix, in_domain (n_bcs S) ix -> ~ mcapacity S (sx (w_sol w)) ix == 0) ->
  mleaves_totals S before -> (forall f d, source = Some f -> mleaves_totals S (f d)) ->
  run (classic_evolve source (hyper_md step S stale) split before) setup valid c w = (w', o) ->
  frames_keep (fun u => same_mtotals S u (w_sol w)) w w' o.
Proof.
  intros E P F undef trans S flux step stale source split before setup valid c w w' o s0 HS Hg HP Hcapa HC Hst Hpos HB HSrc H.
  set (aux := sx (w_sol w)) in *.
  set (Ix := fun a : arr Q => forall ix, in_domain (n_bcs S) ix -> mcapacity S a ix == mcapacity S aux ix).
  set (Iq := fun q : arr Q => forall m, (0 <= m < Z.of_nat (n_neq S))%Z -> mtotal S aux q m == mtotal S aux (sq (w_sol w)) m).
  assert (CB : forall g, mleaves_totals S g -> forall so, Iq (sq so) -> Ix (sx so) -> Iq (fst (g so)) /\ Ix (snd (g so))).
  { intros g Hl so H1 H2. destruct (Hl so) as [G1 G2].
    assert (G3 : Ix (snd (g so))) by (intros i Hi; rewrite G2 by exact Hi; apply H2; exact Hi).
    split; [|exact G3]. intros m Hm. rewrite <- (mtotal_aux S _ _ _ _ G3), (G1 m Hm), (mtotal_aux S _ _ _ _ H2). apply H1. exact Hm. }
  assert (CS : forall d q a qb ab, (forall ix, in_domain (n_bcs S) ix -> ~ mcapacity S a ix == 0) ->
    exists q' cf, step (with_mdt S d) q a qb ab = MStepped q' cf /\ forall m, (0 <= m < Z.of_nat (n_neq S))%Z -> mtotal S a q' m == mtotal S a q m).
  { intros d q a qb ab Nz. destruct Hst as [[HL [-> | ->]]|(HL & HN & ->)].
    - exact (C33_split_2d_conserves undef (with_mdt S d) flux q a qb ab HL Hg HP Hcapa HC Nz).
    - exact (C34_unsplit_2d_conserves undef (with_mdt S d) trans flux q a qb ab HL Hg HP Hcapa HC Nz).
    - exact (C61_split_3d_conserves_partial (with_mdt S d) HL HN undef flux q a qb ab Hg HP Hcapa HC Nz). }
  assert (KK : classic_keeps Iq Ix source (hyper_md step S stale) before (cfl_max s0)).
  { split; [intros so H1 H2; apply CB; assumption|]. split; [intros f d so Ef _ H1 H2; apply CB; [apply (HSrc f d Ef)|exact H1|exact H2]|].
    intros d so _ H1 H2. unfold hyper_md.
    destruct (CS d (sq so) (sx so) (fst (stale d so)) (snd (stale d so))) as (q' & cf & -> & K).
    { intros ix Hi. rewrite (H2 ix Hi). apply Hpos. exact Hi. }
    cbn [fst snd]. split; [exact H2|]. intros _ m Hm. rewrite <- (mtotal_aux S _ _ _ _ H2), (K m Hm), (mtotal_aux S _ _ _ _ H2). apply H1. exact Hm. }
  destruct (C90_classic_run _ _ E P F Iq Ix source (hyper_md step S stale) split before setup valid c w w' o HS KK) as (A & B & D);
    [intros m Hm; reflexivity|intros i Hi; reflexivity|exact H|].
  assert (T : forall u, Iq (sq u) /\ Ix (sx u) -> same_mtotals S u (w_sol w)).
  { intros u [U1 U2] m Hm. rewrite (mtotal_aux S _ _ _ _ U2). apply U1. exact Hm. }
  split; [|split].
  - intros n a u Hu. destruct (A n a u Hu); auto.
  - intros u Hu. destruct (B u Hu); auto.
  - intros Ho. apply T. apply D. exact Ho.
Qed.
Print Assumptions C91_classic_md.

(** SharpClaw with any Runge-Kutta integrator: in one dimension with every sound reconstruction, *)
Section Sharp.
Context {Idx : Type}.
Variable L : (Idx -> Q) -> Q.
Hypothesis HL : linear L.
Hypothesis HL0 : L (fun _ => 0) == 0.
Lemma rk_run_keeps {DX P F} (f0 f : DX -> Q -> (Idx -> Q) -> Idx -> Q) hook speed later n a b cc I before setup valid (c : controller (Idx -> Q) DX P F)
    (w w' : world (Idx -> Q) DX (Idx -> Q) P F) o :
  let s0 := if w_set_up w then w_solver w else setup (w_solver w) in
  sane s0 -> (accept_step s0 = true \/ L (ext s0) == 0) ->
  (forall x t u, L (f0 x t u) == 0 /\ L (f x t u) == 0) -> (forall t u, L (hook t u) == L u) -> (forall so, L (fst (before so)) == L (sq so)) ->
  run (sharp_evolve (rk_slope f0 speed) (rk_stages f hook later n a b cc I) before) setup valid c w = (w', o) ->
  frames_keep (fun u => L (sq u) == L (sq (w_sol w))) w w' o.
Proof.
  intros s0 HS HA Hf Hh Hb H.
  set (Iq := fun q => L q == L (sq (w_sol w))).
  assert (KK : sharp_keeps Iq (fun k => L k == 0) (fun _ : DX => True) (rk_slope f0 speed) (rk_stages f hook later n a b cc I) before).
  { split; [intros so H1 _; split; [unfold Iq; rewrite Hb; exact H1|exact Logic.I]|].
    split; [intros d so _ _ _; split; [apply Hf|exact Logic.I]|].
    intros d k so _ H1 _ Hk. split; [|exact Logic.I]. unfold Iq in H1. unfold rk_stages, Iq. cbn [fst]. rewrite <- H1.
    pose proof (fun t u => proj2 (Hf (sx so) t u)) as Hf2.
    destruct I; try reflexivity.
    - apply euler_keeps_L; assumption.
    - apply ssp22_keeps_L; assumption.
    - apply ssp33_keeps_L; assumption.
    - apply ssp104_keeps_L; assumption.
    - apply rk_user_keeps_L; assumption. }
  destruct (C90_sharpclaw_run _ DX P F Iq (fun k => L k == 0) (fun _ => True) _ _ before setup valid c w w' o HS HA KK) as (A & B & D);
    [unfold Iq; reflexivity|exact Logic.I|exact H|].
  split; [|split].
  - intros k x u Hu. destruct (A k x u Hu) as [G|[G _]]; auto.
  - intros u Hu. destruct (B u Hu) as [G|[G _]]; auto.
  - intros Ho. apply D. exact Ho.
Qed.
End Sharp.

Theorem C91_sharpclaw_1d :
  forall (P F : Type) M C flux qbc0 auxbc0 hook speed later n a b cc I before setup valid (c : controller (Z * Z -> Q) (arr Q) P F)
    (w w' : world (Z * Z -> Q) (arr Q) (Z * Z -> Q) P F) o m,
  let s0 := if w_set_up w then w_solver w else setup (w_solver w) in
  let mass := mass C (fun _ _ => 0) m in
  sane s0 -> (accept_step s0 = true \/ mass (ext s0) == 0) ->
  (3 <= c_ng C)%nat -> periodic_bc (c_bc C) -> (Z.of_nat (c_ng C) <= cells C)%Z ->
  conservative (c_neq C) flux (c_rp C) -> sound_method C flux M -> c_capa C = None -> (0 <= m < Z.of_nat (c_neq C))%Z ->
  (forall t u, mass (hook t u) == mass u) -> (forall so, mass (fst (before so)) == mass (sq so)) ->
  run (sharp_evolve (rk_slope (fun aux => rhs M C aux qbc0 auxbc0) speed)
         (rk_stages (fun aux => rhs M (register_settings M C) aux qbc0 auxbc0) hook later n a b cc I) before) setup valid c w = (w', o) ->
  frames_keep (fun u => mass (sq u) == mass (sq (w_sol w))) w w' o.
Proof.
  intros P F M C flux qbc0 auxbc0 hook speed later n a b cc I before setup valid c w w' o m s0 mass0 HS HA Hg HP Hmx HC HM HN Hm Hh Hb H.
  refine (rk_run_keeps mass0 (mass_linear C _ m) (mass_zero C _ m) _ _ hook speed later n a b cc I before setup valid c w w' o HS HA _ Hh Hb H).
  intros x t u.
  assert (EM : forall v, mass0 v == mass C x m v) by (intros v; unfold mass0, mass, total; apply zsum_eq; intros i _; unfold capacity; rewrite HN; reflexivity).
  destruct (no_capacity C x HN) as [Hcapa Hk]. rewrite !EM. split.
  - apply (rhs_mass M C flux x qbc0 auxbc0 (or_introl HN) Hg HP Hmx HC Hcapa HM Hk). exact Hm.
  - apply (rhs_mass_register M C flux x qbc0 auxbc0 (or_introl HN) Hg HP Hmx HC Hcapa HM Hk); assumption.
Qed.
Print Assumptions C91_sharpclaw_1d.

(** and in more dimensions. *)
Theorem C91_sharpclaw_md :
  forall (P F W : Type) (recon : nat -> W -> (Z -> Z -> Q) -> (Z -> Z -> Q) -> W * edges) tfluct S flux wk qbc0 auxbc0
    hook speed later n a b cc I before setup valid (c : controller (Z * list Z -> Q) (arr Q) P F)
    (w w' : world (Z * list Z -> Q) (arr Q) (Z * list Z -> Q) P F) o m,
  let s0 := if w_set_up w then w_solver w else setup (w_solver w) in
  sane s0 -> (accept_step s0 = true \/ mtotal1 S m (ext s0) == 0) ->
  (3 <= n_ng S)%nat -> Forall (periodic_dim (n_ng S)) (n_bcs S) -> n_capa S = None ->
  all_conservative S flux -> determined S recon -> msound S flux recon tfluct -> (0 <= m < Z.of_nat (n_neq S))%Z ->
  (forall t u, mtotal1 S m (hook t u) == mtotal1 S m u) -> (forall so, mtotal1 S m (fst (before so)) == mtotal1 S m (sq so)) ->
  let f aux := mrhs recon tfluct S wk aux qbc0 auxbc0 in
  run (sharp_evolve (rk_slope f speed) (rk_stages f hook later n a b cc I) before) setup valid c w = (w', o) ->
  frames_keep (fun u => mtotal1 S m (sq u) == mtotal1 S m (sq (w_sol w))) w w' o.
Proof.
  intros P F W recon tfluct S flux wk qbc0 auxbc0 hook speed later n a b cc I before setup valid c w w' o m s0 HS HA Hg HP HN HC HD HM Hm Hh Hb f H.
  refine (rk_run_keeps (mtotal1 S m) (mtotal1_linear S m) (mtotal1_zero S m) _ _ hook speed later n a b cc I before setup valid c w w' o HS HA _ Hh Hb H).
  intros x t u. split; apply (mrhs_total recon tfluct S flux); assumption.
Qed.
Print Assumptions C91_sharpclaw_md.
