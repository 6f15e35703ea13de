(** Property C32: conservation by the 1D SharpClaw solver. *)
From Verif Require Import Base BCModel BCSpec BCProofs TimeModel LimiterModel Classic1DModel Classic1DSpec
  Classic1DProofs Classic1DProofs2 Classic1DProofs3 Classic1DProps SharpModel SharpSpec MultiModel WenoModel SemiModel SemiSpec
  SemiProofs SemiProofs2.

Section Periodic.
Variables (C : settings) (qbc auxbc : Z -> Z -> Q) (q aux : arr Q).
Notation ng := (Z.of_nat (c_ng C)).
Notation mx := (ncells (c_bc C)).
Hypothesis HP : periodic_bc (c_bc C).
Hypothesis Hg : (3 <= c_ng C)%nat.
Hypothesis Hmx : (ng <= mx)%Z.
Hypothesis Hq : forall m i, (- ng <= i < mx + ng)%Z -> qbc m (i + ng)%Z = q_ghost_value Q Qopp [c_bc C] q m [i].
Hypothesis Ha : has_aux C = true -> forall m i, (- ng <= i < mx + ng)%Z -> auxbc m (i + ng)%Z = aux_ghost_value Q [c_bc C] aux m [i].
Lemma all_q : periodic_all C (c_neq C) qbc.
Proof.
  intros m i _ Hi. replace i with (i - ng + ng)%Z at 1 by lia. replace (i + mx)%Z with (i - ng + 1 * mx + ng)%Z by lia.
  rewrite !Hq by lia. rewrite !ghost_q_periodic by (auto; lia). rewrite Z.mod_add by lia. reflexivity.
Qed.
Lemma all_aux : periodic_all C (c_naux C) auxbc.
Proof.
  intros m i Hm Hi.
  assert (HA : has_aux C = true) by (unfold has_aux; apply Nat.ltb_lt; lia).
  replace i with (i - ng + ng)%Z at 1 by lia. replace (i + mx)%Z with (i - ng + 1 * mx + ng)%Z by lia.
  rewrite !(Ha HA) by lia. rewrite !ghost_aux_periodic by (auto; lia). rewrite Z.mod_add by lia. reflexivity.
Qed.
Variable flux : list Q -> list Q -> Z -> Q.
Hypothesis HC : conservative (c_neq C) flux (c_rp C).
Hypothesis Hcapa : capa_in_aux C.
Hypothesis Hk : forall i, (0 <= i < mx)%Z -> ~ capacity C (flat aux) i == 0.

Lemma inner_flux tf e m i : (0 <= m < Z.of_nat (c_neq C))%Z ->
  (forall tf', tf = Some tf' -> forall ql qr a m, (0 <= m < Z.of_nat (c_neq C))%Z -> tf' ql qr a a m == flux qr a m - flux ql a m) ->
  inner C tf e auxbc m i == flux (vec (c_neq C) (snd e) i) (vec (c_naux C) auxbc i) m - flux (vec (c_neq C) (fst e) i) (vec (c_naux C) auxbc i) m.
Proof.
  intros Hm Ht. destruct tf as [tf|]; cbn [inner]; [apply Ht; auto|]. cbn [cell_rps amdq apdq]. apply HC. exact Hm.
Qed.

Lemma semi_zero T e m : (0 <= m < Z.of_nat (c_neq C))%Z ->
  (forall k, (0 <= k < Z.of_nat (c_neq C))%Z -> snd e k (ng - 1)%Z = snd e k (ng - 1 + mx)%Z) ->
  (forall k, (0 <= k < Z.of_nat (c_neq C))%Z -> fst e k ng = fst e k (ng + mx)%Z) ->
  (forall i, T m i == flux (vec (c_neq C) (snd e) i) (vec (c_naux C) auxbc i) m - flux (vec (c_neq C) (fst e) i) (vec (c_naux C) auxbc i) m) ->
  zsum 0 (Z.to_nat mx) (fun i => capacity C (flat aux) i * semi C T e auxbc m (i + ng)%Z) == 0.
Proof.
  intros Hm Er El HT.
  assert (Hkk : forall i, (ng <= i < ng + mx)%Z -> ~ capacity C auxbc i == 0).
  { intros i Hi. replace i with (i - ng + ng)%Z by lia.
    rewrite (capacity_interior C auxbc aux HP ltac:(lia) Hmx Ha) by (auto; lia). apply Hk. lia. }
  pose proof (semi_total C flux T e auxbc m HC Hm ltac:(lia) Hkk HT) as S.
  rewrite <- (eflux_periodic C flux e auxbc m Er El) in S.
  2:{ intros k Hkx. split; rewrite (all_aux k) by lia; [reflexivity|f_equal; lia]. }
  rewrite (zsum_from ng) in S.
  rewrite (zsum_eq 0 _ _ (fun i => capacity C auxbc (i + ng)%Z * semi C T e auxbc m (i + ng)%Z)).
  - rewrite S. ring.
  - intros i Hi. rewrite (capacity_interior C auxbc aux HP ltac:(lia) Hmx Ha) by (auto; lia). reflexivity.
Qed.
End Periodic.

(** The boundary conditions succeed; then dq_hyperbolic is the kernel. *)
Lemma semi_ok M C q aux qbc0 auxbc0 :
  (1 <= c_ng C)%nat -> fit_dim (c_ng C) (has_aux C) (Z.of_nat (c_neq C)) (c_bc C) ->
  exists qbc auxbc : Z -> Z -> Q,
  (forall m i, (- Z.of_nat (c_ng C) <= i < ncells (c_bc C) + Z.of_nat (c_ng C))%Z -> qbc m (i + Z.of_nat (c_ng C))%Z = q_ghost_value Q Qopp [c_bc C] q m [i]) /\
  (has_aux C = true -> forall m i, (- Z.of_nat (c_ng C) <= i < ncells (c_bc C) + Z.of_nat (c_ng C))%Z -> auxbc m (i + Z.of_nat (c_ng C))%Z = aux_ghost_value Q [c_bc C] aux m [i]) /\
  dq_hyperbolic M C q aux qbc0 auxbc0 =
    let ng := Z.of_nat (c_ng C) in
    match M with
    | PyRecon eps lim cd =>
        match py_reconstruct eps (c_neq C) (c_nw C) (ncells (c_bc C) + 2 * ng) lim cd qbc (wave (solve_rps (c_rp C) (c_neq C) (c_naux C) 0 qbc auxbc)) with
        | NotImplemented => SemiNotImplemented
        | Unassigned => SemiUnassigned
        | Edges e => let (d, cfl) := py_semi C e auxbc in DQ (fun m i => d m (i + ng)%Z) cfl
        end
    | FRecon r tf =>
        let (d, cfl) := f_semi tf C (r (fun m i => qbc m (i + ng - 1)%Z) (fun m i => auxbc m (i + ng - 1)%Z)) (fun m i => auxbc m (i + ng - 1)%Z) in
        DQ (fun m i => d m (i + 1)%Z) cfl
    end.
Proof.
  intros Hg HF. unfold dq_hyperbolic.
  destruct (apply_bcs_at Q Qopp (c_ng C) (has_aux C) (c_funs C) (Z.of_nat (c_neq C)) [c_bc C] q aux qbc0 auxbc0 Hg) as (qb & xb & E & A & B & _).
  { constructor; [exact HF|constructor]. }
  fold (has_aux C). rewrite E. exists (fun m i => qb m [i]), (fun m i => xb m [i]). split; [|split; [|reflexivity]].
  - intros m i Hi. apply (A m [i]). simpl. auto.
  - intros Hx m i Hi. apply (B Hx m [i]). simpl. auto.
Qed.

(** On a periodic domain the capacity-weighted sum of dq vanishes, for every reconstruction the solver offers
    and every Riemann solver in flux-difference form; otherwise the solver raised the exception for an
    unavailable option of the Python kernel.  A capacity function is possible with the Python kernel only (C81). *)
Theorem C32_periodic_conservation :
  forall M C flux q aux qbc0 auxbc0,
  (c_capa C = None \/ exists eps lim cd, M = PyRecon eps lim cd) ->
  (3 <= c_ng C)%nat -> periodic_bc (c_bc C) -> (Z.of_nat (c_ng C) <= cells C)%Z ->
  conservative (c_neq C) flux (c_rp C) -> capa_in_aux C -> sound_method C flux M ->
  (forall i, (0 <= i < cells C)%Z -> ~ capacity C (flat aux) i == 0) ->
  match dq_hyperbolic M C q aux qbc0 auxbc0 with
  | DQ d _ => forall m, (0 <= m < Z.of_nat (c_neq C))%Z -> total C 0 (flat aux) d m == 0
  | SemiBC _ => False
  | _ => exists eps lim cd, M = PyRecon eps lim cd /\ lim <> (-1)%Z /\ (lim = 2%Z -> cd <> 0%Z /\ cd <> 1%Z)
  end.
Proof.
  intros M C flux q aux qbc0 auxbc0 HPy Hg HP Hmx HC Hcapa HM Hk. unfold cells in *.
  destruct (semi_ok M C q aux qbc0 auxbc0 ltac:(lia) (periodic_fit C HP ltac:(lia) Hmx)) as (qbc & auxbc & Hq & Ha & ->).
  pose proof (all_q C qbc q HP Hg Hmx Hq) as Pq. pose proof (all_aux C auxbc aux HP Hg Hmx Ha) as Pa.
  cbv zeta. destruct M as [eps lim cd|r tf].
  - set (w := wave (solve_rps _ _ _ _ _ _)).
    assert (HE : forall e, (forall k, (0 <= k < Z.of_nat (c_neq C))%Z -> snd e k (Z.of_nat (c_ng C) - 1)%Z = snd e k (Z.of_nat (c_ng C) - 1 + ncells (c_bc C))%Z
        /\ fst e k (Z.of_nat (c_ng C)) = fst e k (Z.of_nat (c_ng C) + ncells (c_bc C))%Z) ->
        match (let (d, cfl) := py_semi C e auxbc in DQ (fun m i => d m (i + Z.of_nat (c_ng C))%Z) cfl) with
        | DQ d _ => forall m, (0 <= m < Z.of_nat (c_neq C))%Z -> total C 0 (flat aux) d m == 0
        | SemiBC _ => False | _ => exists eps' lim' cd', PyRecon eps lim cd = PyRecon eps' lim' cd' /\ lim' <> (-1)%Z /\ (lim' = 2%Z -> cd' <> 0%Z /\ cd' <> 1%Z) end).
    { intros e He. destruct (py_semi C e auxbc) as [d cfl] eqn:Ep. intros m Hm. unfold total, cells.
      rewrite (zsum_eq 0 _ _ (fun i => capacity C (flat aux) i * semi C (inner C None e auxbc) e auxbc m (i + Z.of_nat (c_ng C))%Z)).
      - apply (semi_zero C auxbc aux HP Hg Hmx Ha flux HC Hcapa Hk); try assumption.
        + intros k Hkx. apply He; exact Hkx.
        + intros k Hkx. apply He; exact Hkx.
        + intros i. apply (inner_flux C auxbc flux HC); [exact Hm|discriminate].
      - intros i Hi. rewrite <- py_semi_form by lia. rewrite Ep. reflexivity. }
    unfold py_reconstruct.
    destruct (Z.eqb_spec lim (-1)) as [->|N1].
    { apply HE. intros k Hkx. cbn [fst snd]. split; apply Pq; lia. }
    destruct (Z.eqb_spec lim 0) as [->|N2]; [exists eps, 0%Z, cd; split; [reflexivity|]; split; [lia|]; intros; lia|].
    destruct (Z.eqb_spec lim 1) as [->|N3]; [exists eps, 1%Z, cd; split; [reflexivity|]; split; [lia|]; intros; lia|].
    destruct (Z.eqb_spec lim 2) as [->|N4]; [|exists eps, lim, cd; split; [reflexivity|]; split; [lia|]; intros; lia].
    destruct (Z.eqb_spec cd 0) as [->|M0].
    { apply HE. intros k Hkx. cbn [fst snd]. apply (py_weno_periodic C eps (qbc k)); try lia. intros i Hi. apply Pq; lia. }
    destruct (Z.eqb_spec cd 1) as [->|M1].
    { apply HE. intros k Hkx. apply weno5_wave_periodic; try lia; [exact Pq|].
      intros m mw j Hm Hj. unfold w. cbn [solve_rps wave].
      rewrite (vec_ext (c_neq C) qbc qbc (j + 0) (j + ncells (c_bc C) + 0)) by (intros a Hx; rewrite (Pq a) by lia; f_equal; lia).
      rewrite (vec_ext (c_neq C) qbc qbc (j + 0 + 1) (j + ncells (c_bc C) + 0 + 1)) by (intros a Hx; rewrite (Pq a) by lia; f_equal; lia).
      rewrite (vec_ext (c_naux C) auxbc auxbc (j + 0) (j + ncells (c_bc C) + 0)) by (intros a Hx; rewrite (Pa a) by lia; f_equal; lia).
      rewrite (vec_ext (c_naux C) auxbc auxbc (j + 0 + 1) (j + ncells (c_bc C) + 0 + 1)) by (intros a Hx; rewrite (Pa a) by lia; f_equal; lia).
      reflexivity. }
    destruct (Z.eqb_spec cd 2) as [->|M2]; exists eps, 2%Z; [exists 2%Z|exists cd]; (split; [reflexivity|]; split; [lia|]; intros _; split; lia).
  - assert (HN : c_capa C = None) by (destruct HPy as [HN|(? & ? & ? & HN)]; [exact HN|discriminate HN]). destruct HM as [HK HT].
    destruct (f_semi tf C _ _) as [d cfl] eqn:Ef. intros m Hm. unfold total, cells.
    set (fq := fun m i => qbc m (i + Z.of_nat (c_ng C) - 1)%Z) in *. set (fa := fun m i => auxbc m (i + Z.of_nat (c_ng C) - 1)%Z) in *.
    set (e := shift_edges C (r fq fa)).
    rewrite (zsum_eq 0 _ _ (fun i => capacity C (flat aux) i * semi C (inner C tf e auxbc) e auxbc m (i + Z.of_nat (c_ng C))%Z)).
    2:{ intros i Hi. unfold e. rewrite <- f_semi_form by (exact HN || lia). fold fa. rewrite Ef. reflexivity. }
    assert (PE : forall k, (0 <= k < Z.of_nat (c_neq C))%Z -> snd (r fq fa) k 0%Z = snd (r fq fa) k (ncells (c_bc C)) /\ fst (r fq fa) k 1%Z = fst (r fq fa) k (ncells (c_bc C) + 1)%Z).
    { intros k Hkx. apply HK; try assumption.
      - intros a i Hx Hi. unfold fq. rewrite (Pq a) by lia. f_equal. lia.
      - intros a i Hx Hi. unfold fa. rewrite (Pa a) by lia. f_equal. lia. }
    apply (semi_zero C auxbc aux HP Hg Hmx Ha flux HC Hcapa Hk); try assumption.
    + intros k Hkx. unfold e, shift_edges, shift_arr. cbn [snd]. destruct (PE k Hkx) as [A _].
      replace (Z.of_nat (c_ng C) - 1 - Z.of_nat (c_ng C) + 1)%Z with 0%Z by lia. rewrite A. f_equal. lia.
    + intros k Hkx. unfold e, shift_edges, shift_arr. cbn [fst]. destruct (PE k Hkx) as [_ A].
      replace (Z.of_nat (c_ng C) - Z.of_nat (c_ng C) + 1)%Z with 1%Z by lia. rewrite A. f_equal. lia.
    + intros i. apply (inner_flux C auxbc flux HC); assumption.
Qed.
Print Assumptions C32_periodic_conservation.

(** The Fortran WENO reconstruction is sound. *)
Theorem C32_fortran_weno5_sound : forall C flux eps ql0 qr0,
  (3 <= c_ng C)%nat -> (1 <= cells C)%Z ->
  sound_method C flux (FRecon (fortran_weno5 eps (Z.of_nat (c_ng C)) (cells C) ql0 qr0) None).
Proof. intros C flux eps ql0 qr0 Hg Hm. split; [|discriminate]. apply fortran_weno5_keeps; unfold cells in *; lia. Qed.
Print Assumptions C32_fortran_weno5_sound.

(** dq(state) with the step dt is dt times dq/dt. *)
Lemma dtdx_unit C aux i : dtdx_of C aux i == c_dt C * dtdx_of (unit_dt C) aux i.
Proof. unfold dtdx_of. cbn. destruct (c_capa C); cbn [option_map py_dtdx]; unfold Qdiv; ring. Qed.
Lemma sharp_unit C aux i : sharp_dtdx C aux i == c_dt C * sharp_dtdx (unit_dt C) aux i.
Proof. unfold sharp_dtdx. cbn. destruct (c_capa C); unfold Qdiv; ring. Qed.
Lemma semi_unit C tf e aux m i :
  semi C (inner C tf e aux) e aux m i == c_dt C * semi (unit_dt C) (inner (unit_dt C) tf e aux) e aux m i.
Proof.
  unfold semi. rewrite dtdx_unit.
  change (inner (unit_dt C) tf e aux) with (inner C tf e aux). change (erps (unit_dt C) e aux) with (erps C e aux). ring.
Qed.
Theorem C32_scales : forall M C q aux qbc0 auxbc0 d cfl,
  (1 <= c_ng C)%nat -> periodic_bc (c_bc C) -> (1 <= cells C)%Z -> (Z.of_nat (c_ng C) <= cells C)%Z ->
  dq_hyperbolic M C q aux qbc0 auxbc0 = DQ d cfl ->
  exists d1 cfl1, dq_hyperbolic M (unit_dt C) q aux qbc0 auxbc0 = DQ d1 cfl1 /\
  forall m i, (0 <= i < cells C)%Z -> d m i == c_dt C * d1 m i.
Proof.
  intros M C q aux qbc0 auxbc0 d cfl Hg HP H1 Hmx. unfold cells in *.
  unfold dq_hyperbolic. cbn [unit_dt c_ng c_bc c_naux c_neq c_nw c_rp c_funs].
  destruct (apply_bcs _ _ _ _ _ _ _ _ _ _ _) as [[qb xb]|e]; [|discriminate].
  destruct M as [eps lim cd|r tf].
  - destruct (py_reconstruct _ _ _ _ _ _ _ _) as [e| |]; try discriminate.
    intros E. eexists. eexists. split; [reflexivity|].
    injection E as <- _. intros m i Hi.
    change (fst (py_semi C e (fun m i => xb m [i])) m (i + Z.of_nat (c_ng C))%Z == c_dt C * fst (py_semi (unit_dt C) e (fun m i => xb m [i])) m (i + Z.of_nat (c_ng C))%Z).
    rewrite !py_semi_form by (cbn [unit_dt c_ng c_bc]; lia). unfold semi. rewrite dtdx_unit.
    change (inner (unit_dt C) None e (fun m i => xb m [i])) with (inner C None e (fun m i => xb m [i])).
    change (erps (unit_dt C) e (fun m i => xb m [i])) with (erps C e (fun m i => xb m [i])). ring.
  - intros E. destruct (f_semi tf C _ _) as [d2 c2] eqn:E2. destruct (f_semi tf (unit_dt C) _ _) as [d3 c3] eqn:E3.
    exists (fun m i => d3 m (i + 1)%Z), c3. split; [reflexivity|]. injection E as <- _. intros m i Hi.
    set (e := r (fun m i => qb m [(i + Z.of_nat (c_ng C) - 1)%Z]) (fun m i => xb m [(i + Z.of_nat (c_ng C) - 1)%Z])) in *.
    change d2 with (fst (d2, c2)). change d3 with (fst (d3, c3)). rewrite <- E2, <- E3.
    clear E2 E3. unfold f_semi. cbn [unit_dt c_neq c_naux c_bc c_rp].
    destruct tf as [tf|]; cbn [fst]; rewrite in_slice_true by lia; rewrite sharp_unit; ring.
Qed.
Print Assumptions C32_scales.

Lemma mass_linear C aux m : linear (mass C aux m).
Proof.
  split; intros; unfold mass, total, vadd, vscale.
  - rewrite <- zsum_plus. apply zsum_eq. intros. ring.
  - rewrite <- zsum_scale. apply zsum_eq. intros. ring.
Qed.
Lemma mass_zero C aux m : mass C aux m (fun _ => 0) == 0.
Proof. unfold mass, total. apply zsum_zero. intros. ring. Qed.

Section RHS.
Variables (M : method) (C : settings) (flux : list Q -> list Q -> Z -> Q) (aux qbc0 auxbc0 : arr Q).
Hypothesis HPy : c_capa C = None \/ exists eps lim cd, M = PyRecon eps lim cd.
Hypothesis Hg : (3 <= c_ng C)%nat.
Hypothesis HP : periodic_bc (c_bc C).
Hypothesis Hmx : (Z.of_nat (c_ng C) <= cells C)%Z.
Hypothesis HC : conservative (c_neq C) flux (c_rp C).
Hypothesis Hcapa : capa_in_aux C.
Hypothesis HM : sound_method C flux M.
Hypothesis Hk : forall i, (0 <= i < cells C)%Z -> ~ capacity C (flat aux) i == 0.
Lemma rhs_mass t u m : (0 <= m < Z.of_nat (c_neq C))%Z -> mass C aux m (rhs M C aux qbc0 auxbc0 t u) == 0.
Proof.
  intros Hm. pose proof (C32_periodic_conservation M (unit_dt C) flux (as_arr u) aux qbc0 auxbc0 HPy Hg HP Hmx HC Hcapa HM Hk) as H.
  unfold mass, rhs. destruct (dq_hyperbolic M (unit_dt C) (as_arr u) aux qbc0 auxbc0) as [d cfl|e| |].
  - exact (H m Hm).
  - destruct H.
  - apply zsum_zero. intros. ring.
  - apply zsum_zero. intros. ring.
Qed.
Lemma rhs_mass_register t u m : (0 <= m < Z.of_nat (c_neq C))%Z ->
  c_capa C = None ->
  mass C aux m (rhs M (register_settings M C) aux qbc0 auxbc0 t u) == 0.
Proof.
  intros Hm HN. assert (E : register_settings M C = C).
  { clear -HN. destruct M; [|reflexivity].
    destruct C. cbn in *. rewrite HN. reflexivity. }
  rewrite E. apply rhs_mass. exact Hm.
Qed.
End RHS.

Lemma no_capacity C aux : c_capa C = None ->
  capa_in_aux C /\ (forall i, (0 <= i < cells C)%Z -> ~ capacity C (flat aux) i == 0).
Proof.
  intros HN. split.
  - intros k E. congruence.
  - intros i _. unfold capacity. rewrite HN. discriminate.
Qed.

(** Every Runge-Kutta step conserves the total, when there is no capacity function.
    The slope at the beginning of the step is evaluated on the solution's own state, the others on registers. *)
Theorem C32_runge_kutta_partial :
  forall M C flux aux qbc0 auxbc0 hook dt t q m,
  (3 <= c_ng C)%nat -> periodic_bc (c_bc C) -> (Z.of_nat (c_ng C) <= cells C)%Z ->
  conservative (c_neq C) flux (c_rp C) -> sound_method C flux M -> c_capa C = None ->
  (0 <= m < Z.of_nat (c_neq C))%Z -> (forall t u, mass C aux m (hook t u) == mass C aux m u) ->
  let f := rhs M (register_settings M C) aux qbc0 auxbc0 in
  let k0 := rhs M C aux qbc0 auxbc0 t q in
  mass C aux m (euler dt k0 t q) == mass C aux m q /\
  mass C aux m (ssp22 f hook dt k0 t q) == mass C aux m q /\
  mass C aux m (ssp33 f hook dt k0 t q) == mass C aux m q /\
  mass C aux m (ssp104 f hook dt k0 t q) == mass C aux m q /\
  forall s a b c, mass C aux m (rk_user f hook dt s a b c k0 t q) == mass C aux m q.
Proof.
  intros M C flux aux qbc0 auxbc0 hook dt t q m Hg HP Hmx HC HM Hcap Hm Hh. cbv zeta.
  destruct (no_capacity C aux Hcap) as [Hcapa Hk].
  pose proof (mass_linear C aux m) as HL.
  assert (Hf : forall t u, mass C aux m (rhs M (register_settings M C) aux qbc0 auxbc0 t u) == 0)
    by (intros; eapply rhs_mass_register; eauto).
  assert (H0 : mass C aux m (rhs M C aux qbc0 auxbc0 t q) == 0) by (eapply rhs_mass; eauto).
  repeat split; intros.
  - apply euler_keeps_L; assumption.
  - apply ssp22_keeps_L; assumption.
  - apply ssp33_keeps_L; assumption.
  - apply ssp104_keeps_L; assumption.
  - apply rk_user_keeps_L; try assumption. apply mass_zero.
Qed.
Print Assumptions C32_runge_kutta_partial.

(** The multistep updates conserve: the formulas of SSPLMMk2 and SSPLMMk3 when all saved solutions have the same
    total, and every run of the general linear multistep method 'LMM' with sum(alpha) = 1, whatever the rejected
    steps in between. *)
Theorem C32_ssplmm_partial :
  forall M C flux aux qbc0 auxbc0 dt steps dts regs fs q q' m T t,
  (c_capa C = None \/ exists eps lim cd, M = PyRecon eps lim cd) ->
  (3 <= c_ng C)%nat -> periodic_bc (c_bc C) -> (Z.of_nat (c_ng C) <= cells C)%Z ->
  conservative (c_neq C) flux (c_rp C) -> capa_in_aux C -> sound_method C flux M ->
  (forall i, (0 <= i < cells C)%Z -> ~ capacity C (flat aux) i == 0) ->
  (0 <= m < Z.of_nat (c_neq C))%Z -> ~ dt == 0 -> ~ qsum (tl dts) == 0 ->
  mass C aux m q == T -> Forall (fun r => mass C aux m r == T) regs ->
  Forall (fun k => exists t u, k = rhs M C aux qbc0 auxbc0 t u) fs ->
  ssplmm2 dt steps dts regs (rhs M C aux qbc0 auxbc0 t q) q = Some q' \/ ssplmm3 dt steps dts regs fs q = Some q' ->
  mass C aux m q' == T.
Proof.
  intros M C flux aux qbc0 auxbc0 dt steps dts regs fs q q' m T t HPy Hg HP Hmx HC Hcapa HM Hk Hm Hd Hs Hq Hr Hfs H.
  pose proof (mass_linear C aux m) as HL.
  assert (Hf : forall t u, mass C aux m (rhs M C aux qbc0 auxbc0 t u) == 0) by (intros; eapply rhs_mass; eauto).
  destruct H as [H|H].
  - exact (ssplmm2_keeps_L _ _ HL T dt steps dts regs _ q q' Hq (Hf t q) Hr Hd Hs H).
  - refine (ssplmm3_keeps_L _ _ HL T dt steps dts regs fs q q' Hq _ Hr Hd Hs H). eapply Forall_impl; [|exact Hfs]. intros k (t' & u & ->). apply Hf.
Qed.
Print Assumptions C32_ssplmm_partial.

Theorem C32_lmm_run :
  forall M C flux aux qbc0 auxbc0 m (DX : Type) (before : sol (Z * Z -> Q) DX -> DX) speed hook steps check alpha beta
    (s : solver (hist (Z * Z))) (so : sol (Z * Z -> Q) DX) tend,
  (3 <= c_ng C)%nat -> periodic_bc (c_bc C) -> (Z.of_nat (c_ng C) <= cells C)%Z ->
  conservative (c_neq C) flux (c_rp C) -> sound_method C flux M -> c_capa C = None ->
  (0 <= m < Z.of_nat (c_neq C))%Z -> (forall t u, mass C aux m (hook t u) == mass C aux m u) ->
  length alpha = Z.to_nat steps -> (1 <= steps)%Z -> qsum alpha == 1 ->
  (** a fresh solver: the registers are copies of the solution and nothing else is saved *)
  Forall (fun r => fst r = sq so) (h_regs (ext s)) -> h_fs (ext s) = [] -> h_dqdt (ext s) = (fun _ => 0) ->
  let r := multi_evolve (rhs M (register_settings M C) aux qbc0 auxbc0) speed hook LMM steps check alpha beta before s so tend in
  mass C aux m (sq (r_sol r)) == mass C aux m (sq so) /\
  Forall (fun ev => mass C aux m (sq (ev_after ev)) == mass C aux m (sq so)) (r_trace r).
Proof.
  intros M C flux aux qbc0 auxbc0 m DX before speed hook steps check alpha beta s so tend Hg HP Hmx HC HM Hcap Hm Hh Hl Hs Hsum HR HF HD.
  destruct (no_capacity C aux Hcap) as [Hcapa Hk].
  pose proof (mass_linear C aux m) as HL.
  assert (Hf : forall t u, mass C aux m (rhs M (register_settings M C) aux qbc0 auxbc0 t u) == 0) by (intros; eapply rhs_mass_register; eauto).
  cbv zeta. unfold multi_evolve.
  destruct (evolve_inv (Z * Z -> Q) DX (hist (Z * Z)) 
     (multi_step (rhs M (register_settings M C) aux qbc0 auxbc0) speed hook LMM steps check alpha beta) (multi_accept LMM steps)
     (fun so => (sq so, before so)) (hist_ok (Z * Z) (mass C aux m) (mass C aux m (sq so))) (fun q => mass C aux m q == mass C aux m (sq so))) with (s := s) (so := so) (te := tend) as [[_ HB] HT].
  - intros so' H. exact H.
  - intros ts te s' so' HA HB. apply step_keeps_lmm; try assumption; [|reflexivity]. intros _. auto.
  - split; [|reflexivity]. repeat split.
    + eapply Forall_impl; [|exact HR]. intros r ->. reflexivity.
    + rewrite HF. constructor.
    + rewrite HD. apply mass_zero.
  - split; [exact HB|]. eapply Forall_impl; [|exact HT]. intros ev [_ H]. exact H.
Qed.
Print Assumptions C32_lmm_run.

(** ** A concrete problem: Burgers' equation with a capacity function on 3 cells. *)
Definition semi_set (naux : nat) : settings :=
  mkSet 1 1 naux 3 false 2 (fun _ => 0%Z) burgers 1 (1 # 4)
        (match naux with O => None | _ => Some 0%Z end) (demo_bc Periodic) (mkFuns Q None None None None).
Definition semi_u : Z * Z -> Q := fun mi => demo_data (fst mi) [snd mi].
Definition godunov_method : method := PyRecon (1 # 1000) (-1) 0.

(** With a capacity function the Python kernel loses it on the registers, and a step of SSP33 (all other
    hypotheses of the theorem hold) changes the total: the full property is false of the Python kernel (and of the
    Fortran kernel by C81). *)
Theorem C32_runge_kutta_refuted :
  exists M C flux aux qbc0 auxbc0 dt t q,
  (3 <= c_ng C)%nat /\ periodic_bc (c_bc C) /\ (Z.of_nat (c_ng C) <= cells C)%Z /\
  conservative (c_neq C) flux (c_rp C) /\ capa_in_aux C /\ sound_method C flux M /\
  (forall i, (0 <= i < cells C)%Z -> ~ capacity C (flat aux) i == 0) /\
  ~ mass C aux 0 (ssp33 (rhs M (register_settings M C) aux qbc0 auxbc0) (fun _ u => u) dt (rhs M C aux qbc0 auxbc0 t q) t q)
    == mass C aux 0 q.
Proof.
  exists godunov_method, (semi_set 1), burgers_flux, demo_capa, zero_arr, zero_arr, (1 # 4), 0, semi_u.
  split; [vm_compute; lia|]. split; [vm_compute; tauto|]. split; [vm_compute; discriminate|].
  split; [apply burgers_conservative|]. split; [intros k E; injection E as <-; vm_compute; split; congruence|].
  split; [exact I|]. split.
  - intros i Hi. assert (E : (i = 0 \/ i = 1 \/ i = 2)%Z) by (change (cells (semi_set 1)) with 3%Z in Hi; lia).
    destruct E as [-> | [-> | ->]]; vm_compute; discriminate.
  - apply Qeq_bool_neq. vm_compute. reflexivity.
Qed.
Print Assumptions C32_runge_kutta_refuted.

Definition semi_set4 (naux : nat) : settings :=
  mkSet 1 1 naux 3 false 2 (fun _ => 0%Z) burgers 1 (1 # 4)
        (match naux with O => None | _ => Some 0%Z end) (mkDim 4 Periodic Periodic Periodic Periodic true true 1) (mkFuns Q None None None None).
Definition semi_u4 : Z * Z -> Q := fun mi => match snd mi with 0%Z => 1 | 1%Z => 3 | 2%Z => 2 | _ => 0 end.
Definition demo_capa4 : arr Q := fun _ ix => match ix with [2%Z] => 1 # 2 | _ => 1 end.
Definition weno_method : method := FRecon (fortran_weno5 (1 # 1000) 3 4 (fun _ _ => 0) (fun _ _ => 0)) None.

(** The hypotheses of the positive theorems: the Fortran kernel (WENO) without a capacity function, and the Python
    kernel with one. *)
Example C32_example :
  periodic_bc (c_bc (semi_set 1)) /\ conservative 1 burgers_flux burgers /\
  sound_method (semi_set4 0) burgers_flux weno_method /\ c_capa (semi_set4 0) = None /\
  match dq_hyperbolic weno_method (semi_set4 0) (as_arr semi_u4) zero_arr zero_arr zero_arr with
  | DQ d _ => negb (Qeq_bool (d 0%Z 1%Z) 0) = true
  | _ => False
  end /\
  match dq_hyperbolic godunov_method (semi_set 1) (as_arr semi_u) demo_capa zero_arr zero_arr with
  | DQ d _ => (negb (Qeq_bool (d 0%Z 1%Z) 0) && Qeq_bool (total (semi_set 1) 0 (flat demo_capa) d 0) 0)%bool = true
  | _ => False
  end.
Proof.
  split; [vm_compute; tauto|]. split; [apply burgers_conservative|]. split.
  - apply C32_fortran_weno5_sound; vm_compute; lia || discriminate.
  - split; [reflexivity|]. split; vm_compute; reflexivity.
Qed.
