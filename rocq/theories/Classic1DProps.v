(** Properties C17-C24 and C57: the 1D classic solver. *)
From Verif Require Import Base BCModel BCSpec BCProofs LimiterModel LimiterSpec LimiterProofs
  Classic1DModel Classic1DSpec Classic1DProofs Classic1DProofs2 Classic1DProofs3 Classic1DProofs4 Classic1DProofs5.

(** ** A concrete problem for the examples: Burgers' equation q_t + (q^2/2)_x = 0 with Roe speed, and a
    capacity function in aux component 0, on 3 cells. *)
Definition burgers : rpsolver := fun ql qr _ _ =>
  let l := hd 0 ql in let r := hd 0 qr in let s := (l + r) / 2 in
  mkOut (fun _ _ => r - l) (fun _ => s) (fun _ => pymin s 0 * (r - l)) (fun _ => pymax s 0 * (r - l)).
Definition burgers_flux : list Q -> list Q -> Z -> Q := fun q _ _ => hd 0 q * hd 0 q / 2.
Definition demo_bc (t : bctype) : dimbc := mkDim 3 t t t t true true 1.
Definition demo_set (order lim : Z) (rp : rpsolver) (naux : nat) (t : bctype) : settings :=
  mkSet 1 1 naux 2 false order (fun _ => lim) rp 1 (1 # 4)
        (match naux with O => None | _ => Some 0%Z end) (demo_bc t) (mkFuns Q None None None None).
Definition demo_data : arr Q := fun _ ix => match ix with [0%Z] => 1 | [1%Z] => 3 | [2%Z] => - (1) | _ => 0 end.
Definition demo_capa : arr Q := fun _ ix => match ix with [2%Z] => 1 # 2 | _ => 1 end.
(** Does a step succeed with a result that passes the test? *)
Definition passes (r : stepresult) (test : (Z -> Z -> Q) -> Q -> bool) : bool :=
  match r with Stepped q' cfl => test q' cfl | _ => false end.
Definition kpasses (r : option ((Z -> Z -> Q) * Q)) (test : (Z -> Z -> Q) -> Q -> bool) : bool :=
  match r with Some (q', cfl) => test q' cfl | _ => false end.
Definition nopow (x y : Q) : Q := 0.
Definition noundef (a b : Q) (n : Z) : Q := 0.
Definition zero_arr : arr Q := fun _ _ => 0.
Definition zero_arr' : Z -> Z -> Q := fun _ _ => 0.

Lemma burgers_conservative : conservative 1 burgers_flux burgers.
Proof.
  intros ql qr al ar m Hm. unfold burgers, burgers_flux, pymin, pymax. cbn [o_am o_ap].
  set (l := hd 0 ql). set (r := hd 0 qr). destruct (qltb 0 ((l + r) / 2)) eqn:E1, (qltb ((l + r) / 2) 0) eqn:E2; qprop.
  - lra.
  - field.
  - field.
  - assert (E : (l + r) / 2 == 0) by lra. setoid_replace (r * r / 2 - l * l / 2) with ((l + r) / 2 * (r - l)) by field. rewrite E. ring.
Qed.

Lemma zsum_from k n f : zsum k n f = zsum 0 n (fun i => f (i + k)%Z).
Proof. rewrite <- zsum_shift. reflexivity. Qed.

(** ** C17 *)
Section Periodic.
Variables (pow : Q -> Q -> Q) (undef : Q -> Q -> Z -> Q) (C : settings).
Notation ng := (Z.of_nat (c_ng C)).
Notation mx := (ncells (c_bc C)).
Variables (qbc auxbc : Z -> Z -> Q) (q aux : arr Q).
Hypothesis HP : periodic_bc (c_bc C).
Hypothesis Hg : (2 <= c_ng C)%nat.
Hypothesis Hmx : (ng <= mx)%Z.
Hypothesis Hq : forall m i, (- ng <= i < mx + ng)%Z -> qbc m (i + ng)%Z = q_ghost_value Q Qopp [c_bc C] q m [i].
Lemma periodic_q m i : (- ng <= i < mx + ng)%Z -> qbc m (i + ng)%Z = q m [(i mod mx)%Z].
Proof. intros Hi. rewrite Hq by exact Hi. apply ghost_q_periodic; [exact HP|lia]. Qed.
Lemma periodic_q_data n : periodic_data C n qbc.
Proof.
  intros m i _ Hi. replace i with (i - ng + ng)%Z at 1 by lia. replace (i + mx)%Z with (i - ng + 1 * mx + ng)%Z by lia.
  rewrite !periodic_q by lia. rewrite Z.mod_add by lia. reflexivity.
Qed.
Hypothesis Ha : has_aux C = true -> forall m i, (- ng <= i < mx + ng)%Z -> auxbc m (i + ng)%Z = aux_ghost_value Q [c_bc C] aux m [i].
Lemma periodic_aux_data : periodic_data C (c_naux C) auxbc.
Proof.
  intros m i Hm Hi.
  assert (HA : has_aux C = true) by (unfold has_aux; apply Nat.ltb_lt; lia).
  replace i with (i - ng + ng)%Z at 1 by lia. replace (i + mx)%Z with (i - ng + 1 * mx + ng)%Z by lia.
  rewrite !(Ha HA) by lia. rewrite !ghost_aux_periodic by (auto; lia). rewrite Z.mod_add by lia. reflexivity.
Qed.
Lemma capacity_interior i : capa_in_aux C -> (0 <= i < mx)%Z -> capacity C auxbc (i + ng)%Z = capacity C (flat aux) i.
Proof.
  intros HC Hi. unfold capacity. destruct (c_capa C) as [k|] eqn:E; [|reflexivity].
  assert (HA : has_aux C = true) by (unfold has_aux; apply Nat.ltb_lt; specialize (HC k E); lia).
  rewrite (Ha HA) by lia. rewrite ghost_aux_periodic by (auto; lia). rewrite Z.mod_small by lia. reflexivity.
Qed.
End Periodic.

Theorem C17_periodic_conservation :
  forall pow undef L C flux q aux qbc0 auxbc0,
  (2 <= c_ng C)%nat -> periodic_bc (c_bc C) -> (Z.of_nat (c_ng C) <= cells C)%Z ->
  conservative (c_neq C) flux (c_rp C) -> capa_in_aux C ->
  (forall i, (0 <= i < cells C)%Z -> ~ capacity C (flat aux) i == 0) ->
  match step_hyperbolic pow undef L C q aux qbc0 auxbc0 with
  | Stepped q' _ => forall m, (0 <= m < Z.of_nat (c_neq C))%Z ->
      total C 0 (flat aux) q' m == total C 0 (flat aux) (flat q) m
  | Stopped => L = Fortran /\ exists i, (0 <= i < cells C)%Z /\ capacity C (flat aux) i <= 0
  | BCError _ => False
  end.
Proof.
  intros pow undef L C flux q aux qbc0 auxbc0 Hg HP Hmx HC Hcapa Hk. unfold cells in *.
  destruct (step_ok pow undef C L q aux qbc0 auxbc0 ltac:(lia) (periodic_fit C HP ltac:(lia) Hmx)) as (qbc & auxbc & Hq & Ha & ->).
  destruct (kernel pow undef L C qbc auxbc) as [[q' cfl]|] eqn:EK.
  - intros m Hm. unfold total, cells.
    assert (Hkk : forall i, (Z.of_nat (c_ng C) <= i < Z.of_nat (c_ng C) + ncells (c_bc C))%Z -> ~ capacity C auxbc i == 0).
    { intros i Hi. replace i with (i - Z.of_nat (c_ng C) + Z.of_nat (c_ng C))%Z by lia.
      rewrite (capacity_interior C auxbc aux HP Hg Hmx Ha) by (auto; lia). apply Hk. lia. }
    pose proof (total_change pow undef C flux L qbc auxbc q' cfl Hg ltac:(lia) HC EK Hkk m Hm) as T.
    rewrite <- (periodic_flux pow undef C flux L qbc auxbc m Hg ltac:(lia) Hm Hcapa
        (periodic_q_data C qbc q HP Hg Hmx Hq (c_neq C)) (periodic_aux_data C auxbc aux HP Hg Hmx Ha)) in T.
    rewrite !(zsum_from (Z.of_nat (c_ng C))) in T.
    rewrite (zsum_eq 0 _ _ (fun i => capacity C auxbc (i + Z.of_nat (c_ng C))%Z * q' m (i + Z.of_nat (c_ng C))%Z)).
    2:{ intros i Hi. rewrite (capacity_interior C auxbc aux HP Hg Hmx Ha) by (auto; lia). reflexivity. }
    rewrite T. rewrite (zsum_eq 0 _ (fun i => capacity C (flat aux) i * flat q m i) (fun i => capacity C auxbc (i + Z.of_nat (c_ng C))%Z * qbc m (i + Z.of_nat (c_ng C))%Z)).
    2:{ intros i Hi. rewrite (capacity_interior C auxbc aux HP Hg Hmx Ha) by (auto; lia).
        rewrite (periodic_q C qbc q HP Hg Hmx Hq) by lia. rewrite Z.mod_small by lia. reflexivity. }
    ring.
  - destruct (kernel_stopped pow undef C L qbc auxbc EK) as (HL & k & i & Ek & Hi & Hle). split; [exact HL|].
    assert (HA : has_aux C = true) by (unfold has_aux; apply Nat.ltb_lt; specialize (Hcapa k Ek); lia).
    exists ((i - Z.of_nat (c_ng C)) mod ncells (c_bc C))%Z. split; [apply Z.mod_pos_bound; lia|].
    unfold capacity, flat. rewrite Ek. replace i with (i - Z.of_nat (c_ng C) + Z.of_nat (c_ng C))%Z in Hle by lia.
    rewrite (Ha HA) in Hle by lia. rewrite ghost_aux_periodic in Hle by (auto; lia). exact Hle.
Qed.
Print Assumptions C17_periodic_conservation.

Example C17_example :
  let C := demo_set 2 4 burgers 1 Periodic in
  periodic_bc (c_bc C) /\ conservative (c_neq C) burgers_flux (c_rp C) /\ capa_in_aux C /\
  (forall i, (0 <= i < cells C)%Z -> ~ capacity C (flat demo_capa) i == 0) /\
  forall L, passes (step_hyperbolic nopow noundef L C demo_data demo_capa zero_arr zero_arr)
    (fun q' _ => negb (qeqb (q' 0%Z 0%Z) 1) && negb (qeqb (q' 0%Z 2%Z) (- (1)))) = true.
Proof.
  cbn zeta. split; [repeat split|]. split; [apply burgers_conservative|].
  split; [intros k E; injection E as <-; cbn; lia|]. split.
  - intros i Hi. unfold capacity, flat, demo_capa. cbn [demo_set c_capa].
    assert (H : ~ (1 # 2) == 0 /\ ~ 1 == 0) by (repeat split; discriminate). destruct H as (H1 & H2).
    repeat match goal with |- ~ (match ?x with _ => _ end) == 0 => destruct x end; assumption.
  - intros []; vm_compute; reflexivity.
Qed.

(** ** C18 *)
(** With limiters that work cell by cell there is one numerical flux function [G] of the states in the four
    cells around an interface.  It does not depend on the data, it is consistent with the physical flux, and
    cell contents change only by differences of its values, whatever the ghost cells contain. *)
Theorem C18_boundary_fluxes :
  forall pow undef L C flux,
  (2 <= c_ng C)%nat -> (0 <= cells C)%Z -> conservative (c_neq C) flux (c_rp C) -> capa_in_aux C ->
  local_limiters_only pow L C ->
  exists G : list (list Q) -> list (list Q) -> Z -> Q,
  (forall u a m, length u = c_neq C -> length a = c_naux C -> (0 <= m < Z.of_nat (c_neq C))%Z ->
     at_rest (c_neq C) (c_nw C) (c_rp C) u -> G [u; u; u; u] [a; a; a; a] m == flux u a m) /\
  forall qbc auxbc q' cfl, kernel pow undef L C qbc auxbc = Some (q', cfl) ->
  let ng := Z.of_nat (c_ng C) in
  let g m e := G (around (c_neq C) qbc e) (around (c_naux C) auxbc e) m in
  (forall i, (ng <= i < ng + cells C)%Z -> ~ capacity C auxbc i == 0) ->
  forall m, (0 <= m < Z.of_nat (c_neq C))%Z ->
  (forall i, (ng <= i < ng + cells C)%Z ->
     capacity C auxbc i * q' m i == capacity C auxbc i * qbc m i - c_dt C / c_dx C * (g m (i + 1)%Z - g m i)) /\
  total C ng auxbc q' m == total C ng auxbc qbc m - c_dt C / c_dx C * (g m (ng + cells C)%Z - g m ng).
Proof.
  intros pow undef L C flux Hg Hmx HC Hcapa HL. exists (flux4 pow undef C flux L). split.
  - intros u a m Hu Ha Hm HR. apply flux4_consistent; assumption.
  - intros qbc auxbc q' cfl HK ng g Hk m Hm.
    assert (N : forall e, (ng <= e <= ng + cells C)%Z -> g m e = numflux pow undef C flux L qbc auxbc m e).
    { intros e He. unfold g. symmetry. apply numflux_flux4; assumption. }
    split.
    + intros i Hi. rewrite !N by lia. eapply flux_form; eauto.
    + rewrite !N by lia. eapply total_change; eauto.
Qed.
Print Assumptions C18_boundary_fluxes.

Example C18_example :
  let C := demo_set 2 4 burgers 1 Extrap in
  conservative (c_neq C) burgers_flux (c_rp C) /\ capa_in_aux C /\ local_limiters_only nopow Python C /\
  kpasses (kernel nopow noundef Python C (fun _ i => inject_Z (i * i)) (fun _ _ => 1 # 2)) (fun q' _ => negb (qeqb (q' 0%Z 4%Z) 16)) = true.
Proof.
  cbn zeta. split; [apply burgers_conservative|]. split; [intros k E; injection E as <-; cbn; lia|]. split.
  - intros _ mw f _ E. cbn in E. injection E as <-. apply map2_cell_by_cell.
  - vm_compute. reflexivity.
Qed.

(** ** C19 *)
Theorem C19_constant_state :
  forall pow undef L C qbc auxbc q' cfl u,
  (2 <= c_ng C)%nat -> length u = c_neq C -> at_rest (c_neq C) (c_nw C) (c_rp C) u ->
  (forall i, (0 <= i < cells C + 2 * Z.of_nat (c_ng C))%Z -> vec (c_neq C) qbc i = u) ->
  kernel pow undef L C qbc auxbc = Some (q', cfl) ->
  forall m i, (0 <= m < Z.of_nat (c_neq C))%Z -> (Z.of_nat (c_ng C) <= i < Z.of_nat (c_ng C) + cells C)%Z ->
  q' m i == qbc m i.
Proof.
  intros pow undef L C qbc auxbc q' cfl u Hg Hu HR HV HK m i Hm Hi. unfold cells in *.
  eapply (constant_kernel pow undef C L qbc auxbc q' cfl u); eauto. intros j Hj. apply HV. lia.
Qed.
Print Assumptions C19_constant_state.
(** A whole step with periodic or extrapolated boundaries. *)
Theorem C19_constant_step :
  forall pow undef L C q aux qbc0 auxbc0 u,
  (2 <= c_ng C)%nat -> fit_dim (c_ng C) (has_aux C) (Z.of_nat (c_neq C)) (c_bc C) ->
  q_lo (c_bc C) <> Wall -> q_hi (c_bc C) <> Wall ->
  length u = c_neq C -> at_rest (c_neq C) (c_nw C) (c_rp C) u ->
  (forall i, (0 <= i < cells C)%Z -> vec (c_neq C) (flat q) i = u) ->
  match step_hyperbolic pow undef L C q aux qbc0 auxbc0 with
  | Stepped q' _ => forall m i, (0 <= m < Z.of_nat (c_neq C))%Z -> (0 <= i < cells C)%Z -> q' m i == q m [i]
  | Stopped => L = Fortran /\ c_capa C <> None
  | BCError _ => False
  end.
Proof.
  intros pow undef L C q aux qbc0 auxbc0 u Hg HF W1 W2 Hu HR HV. unfold cells in *.
  destruct (step_ok pow undef C L q aux qbc0 auxbc0 ltac:(lia) HF) as (qbc & auxbc & Hq & _ & ->).
  assert (Hs : forall i, (- Z.of_nat (c_ng C) <= i < ncells (c_bc C) + Z.of_nat (c_ng C))%Z -> exists j, (0 <= j < ncells (c_bc C))%Z /\
             (forall m, qbc m (i + Z.of_nat (c_ng C))%Z = q m [j]) /\ ((0 <= i < ncells (c_bc C))%Z -> j = i)).
  { intros i Hi. exists (source_cell (q_lo (c_bc C)) (q_hi (c_bc C)) (ncells (c_bc C)) i).
    destruct HF as (_ & _ & _ & S1 & S2 & Wd & _). split; [eapply source_in; eauto|]. split.
    - intros m. rewrite Hq by exact Hi. unfold q_ghost_value. cbn [combine map rev app fold_right fst snd].
      unfold behind_wall. destruct (q_lo (c_bc C)); try contradiction; destruct (q_hi (c_bc C)); try contradiction; rewrite !andb_false_r; reflexivity.
    - intros Hi'. unfold source_cell. replace (Z.ltb i 0) with false by lia. replace (Z.leb (ncells (c_bc C)) i) with false by lia. reflexivity. }
  destruct (kernel pow undef L C qbc auxbc) as [[q' cfl]|] eqn:EK.
  - intros m i Hm Hi.
    rewrite (constant_kernel pow undef C L qbc auxbc q' cfl u Hg Hu HR EK); [| |exact Hm|lia].
    + destruct (Hs i ltac:(lia)) as (j & _ & E & Ej). rewrite E, Ej by lia. reflexivity.
    + intros k Hk. destruct (Hs (k - Z.of_nat (c_ng C))%Z ltac:(lia)) as (j & Hj & E & _).
      rewrite <- (HV j Hj). apply vec_ext. intros m' _. unfold flat. rewrite <- E. f_equal. lia.
  - destruct (kernel_stopped pow undef C L qbc auxbc EK) as (HL & k & i & Ek & _). rewrite Ek. split; [exact HL|discriminate].
Qed.
Print Assumptions C19_constant_step.
Example C19_example :
  let C := demo_set 2 3 burgers 1 Extrap in
  fit_dim (c_ng C) (has_aux C) (Z.of_nat (c_neq C)) (c_bc C) /\
  at_rest (c_neq C) (c_nw C) (c_rp C) [7 # 3] /\
  passes (step_hyperbolic nopow noundef Fortran C (fun _ _ => 7 # 3) demo_capa zero_arr zero_arr) (fun _ _ => true) = true.
Proof.
  cbn zeta. split; [unfold fit_dim, standard, wide; cbn; intuition (auto; try discriminate; try lia)|]. split.
  - intros al ar m _. unfold burgers. cbn. repeat split; intros; vm_compute; reflexivity.
  - vm_compute. reflexivity.
Qed.

(** ** C20 *)
(** The two kernels agree in the interior for orders 1 and 2 and limiters 0, 1, 3, 4 and 5, provided that
    with f-waves no speed is zero; the Courant number reported by the Fortran kernel is never larger. *)
Theorem C20_kernels_agree_partial :
  forall pow undef C qbc auxbc,
  (2 <= c_ng C)%nat -> (0 <= cells C)%Z -> c_order C = 1%Z \/ c_order C = 2%Z ->
  (forall mw, (0 <= mw < Z.of_nat (c_nw C))%Z -> In (c_mthlim C mw) [0; 1; 3; 4; 5]%Z) ->
  (c_fwave C = true -> forall ql qr al ar mw, (0 <= mw < Z.of_nat (c_nw C))%Z -> ~ o_s (c_rp C ql qr al ar) mw == 0) ->
  (forall k i, c_capa C = Some k -> (0 <= i < cells C + 2 * Z.of_nat (c_ng C))%Z -> 0 < auxbc k i) ->
  exists qp cp qf cf,
  kernel pow undef Python C qbc auxbc = Some (qp, cp) /\ kernel pow undef Fortran C qbc auxbc = Some (qf, cf) /\
  (forall m i, (Z.of_nat (c_ng C) <= i < Z.of_nat (c_ng C) + cells C)%Z -> qp m i == qf m i) /\ cf <= cp.
Proof.
  intros pow undef C qbc auxbc Hg Hmx HO HL HS HK. unfold cells in *.
  destruct (kernel pow undef Python C qbc auxbc) as [[qp cp]|] eqn:EP; [|discriminate].
  destruct (kernel pow undef Fortran C qbc auxbc) as [[qf cf]|] eqn:EF.
  - exists qp, cp, qf, cf. repeat (split; [reflexivity|]). split.
    + intros m i Hi. eapply (kernels_agree pow undef C qbc auxbc); eauto.
      intros Hw mw j Hmw _. cbn [rps solve_rps spd]. apply HS; assumption.
    + eapply cfl_fortran_le; eauto.
  - destruct (kernel_stopped pow undef C Fortran qbc auxbc EF) as (_ & k & i & Ek & Hi & Hle).
    specialize (HK k i Ek ltac:(lia)). lra.
Qed.
Print Assumptions C20_kernels_agree_partial.
(** On a periodic domain the Courant numbers agree, too. *)
Theorem C20_periodic_cfl_partial :
  forall pow undef C q aux qbc0 auxbc0,
  (2 <= c_ng C)%nat -> periodic_bc (c_bc C) -> (Z.of_nat (c_ng C) <= cells C)%Z -> capa_in_aux C ->
  match step_hyperbolic pow undef Python C q aux qbc0 auxbc0, step_hyperbolic pow undef Fortran C q aux qbc0 auxbc0 with
  | Stepped _ cp, Stepped _ cf => cp == cf
  | Stepped _ _, Stopped => exists i, (0 <= i < cells C)%Z /\ capacity C (flat aux) i <= 0
  | _, _ => False
  end.
Proof.
  intros pow undef C q aux qbc0 auxbc0 Hg HP Hmx Hcapa. unfold cells in *.
  destruct (apply_bcs_at Q Qopp (c_ng C) (has_aux C) (c_funs C) (Z.of_nat (c_neq C)) [c_bc C] q aux qbc0 auxbc0 ltac:(lia)) as (qb & xb & E & A & B & _).
  { constructor; [apply periodic_fit; auto; lia|constructor]. }
  unfold step_hyperbolic. fold (has_aux C). rewrite E.
  set (qbc := fun m i => qb m [i]). set (auxbc := fun m i => xb m [i]).
  assert (Hq : forall m i, (- Z.of_nat (c_ng C) <= i < ncells (c_bc C) + Z.of_nat (c_ng C))%Z -> qbc m (i + Z.of_nat (c_ng C))%Z = q_ghost_value Q Qopp [c_bc C] q m [i])
    by (intros m i Hi; apply (A m [i]); simpl; auto).
  assert (Ha : has_aux C = true -> forall m i, (- Z.of_nat (c_ng C) <= i < ncells (c_bc C) + Z.of_nat (c_ng C))%Z -> auxbc m (i + Z.of_nat (c_ng C))%Z = aux_ghost_value Q [c_bc C] aux m [i])
    by (intros HA m i Hi; apply (B HA m [i]); simpl; auto).
  destruct (kernel pow undef Python C qbc auxbc) as [[qp cp]|] eqn:EP; [|discriminate].
  destruct (kernel pow undef Fortran C qbc auxbc) as [[qf cf]|] eqn:EF.
  - eapply (cfl_agree pow undef C qbc auxbc); eauto; [lia|]. intros mw x Hmw Hx.
    exists (Z.of_nat (c_ng C) - 2 + ncells (c_bc C))%Z. split; [lia|].
    pose proof (periodic_q_data C qbc q HP Hg Hmx Hq (c_neq C)) as Pq. pose proof (periodic_aux_data C auxbc aux HP Hg Hmx Ha) as Pa.
    assert (S : forall i, (Z.of_nat (c_ng C) - 2 <= i <= Z.of_nat (c_ng C) + 1)%Z -> same_cell C qbc auxbc qbc auxbc i (i + ncells (c_bc C))).
    { intros i Hi. split; apply vec_ext; intros k Hk; [apply Pq|apply Pa]; assumption. }
    unfold courant in *.
    destruct (same_rp C qbc auxbc qbc auxbc (Z.of_nat (c_ng C) - 2) (Z.of_nat (c_ng C) - 2 + ncells (c_bc C))) as [[_ W] _].
    { apply S; lia. }
    { replace (Z.of_nat (c_ng C) - 2 + ncells (c_bc C) + 1)%Z with (Z.of_nat (c_ng C) - 2 + 1 + ncells (c_bc C))%Z by lia. apply S; lia. }
    rewrite <- W. rewrite <- (same_dtdx C qbc auxbc qbc auxbc (Z.of_nat (c_ng C) - 2) (Z.of_nat (c_ng C) - 2 + ncells (c_bc C)) Hcapa) by (apply S; lia).
    replace (Z.of_nat (c_ng C) - 2 + ncells (c_bc C) + 1)%Z with (Z.of_nat (c_ng C) - 2 + 1 + ncells (c_bc C))%Z by lia.
    rewrite <- (same_dtdx C qbc auxbc qbc auxbc (Z.of_nat (c_ng C) - 2 + 1) (Z.of_nat (c_ng C) - 2 + 1 + ncells (c_bc C)) Hcapa) by (apply S; lia).
    exact Hx.
  - destruct (kernel_stopped pow undef C Fortran qbc auxbc EF) as (HL & k & i & Ek & Hi & Hle).
    assert (HA : has_aux C = true) by (unfold has_aux; apply Nat.ltb_lt; specialize (Hcapa k Ek); lia).
    exists ((i - Z.of_nat (c_ng C)) mod ncells (c_bc C))%Z. split; [apply Z.mod_pos_bound; lia|].
    unfold capacity, flat. rewrite Ek. replace i with (i - Z.of_nat (c_ng C) + Z.of_nat (c_ng C))%Z in Hle by lia.
    rewrite (Ha HA) in Hle by lia. rewrite ghost_aux_periodic in Hle by (auto; lia). exact Hle.
Qed.
Print Assumptions C20_periodic_cfl_partial.
(** They do not agree in general: with limiter 2 (superbee) the new values differ; with f-waves of speed zero
    they differ; and the Courant number differs when a ghost cell carries a faster wave. *)
Definition fwave_rp : rpsolver := fun ql qr _ _ =>
  let w := hd 0 qr * hd 0 qr / 2 - hd 0 ql * hd 0 ql / 2 in
  mkOut (fun _ _ => w) (fun _ => 0) (fun _ => 0) (fun _ => w).
Definition fwave_set : settings :=
  mkSet 1 1 0 2 true 2 (fun _ => 0%Z) fwave_rp 1 (1 # 4) None (demo_bc Periodic) (mkFuns Q None None None None).
Definition steps_differ (C : settings) (q : arr Q) : bool :=
  passes (step_hyperbolic nopow noundef Python C q q zero_arr zero_arr) (fun qp _ =>
  passes (step_hyperbolic nopow noundef Fortran C q q zero_arr zero_arr) (fun qf _ =>
  negb (qeqb (qp 0%Z 1%Z) (qf 0%Z 1%Z)))).
Theorem C20_kernels_agree_refuted :
  (exists C q, c_mthlim C 0 = 2%Z /\ c_order C = 2%Z /\ c_fwave C = false /\ steps_differ C q = true) /\
  (exists C q, c_fwave C = true /\ c_mthlim C 0 = 0%Z /\ c_order C = 2%Z /\ steps_differ C q = true) /\
  (exists C qbc,
     kpasses (kernel nopow noundef Python C qbc qbc) (fun _ cp =>
     kpasses (kernel nopow noundef Fortran C qbc qbc) (fun _ cf => negb (qeqb cp cf))) = true).
Proof.
  split; [|split].
  - exists (demo_set 2 2 (advection 1) 0 Periodic), (fun _ ix => match ix with [0%Z] => 1 | [1%Z] => 3 | [2%Z] => 4 | _ => 0 end).
    repeat (split; [reflexivity|]). vm_compute. reflexivity.
  - exists fwave_set, demo_data. repeat (split; [reflexivity|]). vm_compute. reflexivity.
  - exists (demo_set 1 0 burgers 0 Extrap), (fun _ i => match i with 0%Z => 100 | _ => 1 end). vm_compute. reflexivity.
Qed.
Print Assumptions C20_kernels_agree_refuted.
Example C20_example :
  let C := demo_set 2 4 burgers 1 Extrap in
  (forall mw, (0 <= mw < Z.of_nat (c_nw C))%Z -> In (c_mthlim C mw) [0; 1; 3; 4; 5]%Z) /\ (c_fwave C = true -> False) /\
  kpasses (kernel nopow noundef Python C (fun _ i => inject_Z (i * i)) (fun _ _ => 1 # 2)) (fun q' _ => negb (qeqb (q' 0%Z 4%Z) 16)) = true.
Proof.
  cbn zeta. split; [intros; cbn; tauto|]. split; [discriminate|]. vm_compute. reflexivity.
Qed.

(** ** C21, C22 *)
(** Each new value lies between the old value and its upwind neighbour, whatever the ghost cells contain:
    order 1, or order 2 with a limiter in the TVD region. *)
Theorem C21_C22_maximum_principle :
  forall pow undef L C u qbc auxbc q' cfl,
  advection_settings u C -> (2 <= c_ng C)%nat -> 0 <= c_dt C / c_dx C -> Qabs u * (c_dt C / c_dx C) <= 1 ->
  c_order C = 1%Z \/ tvd_limiter pow L (c_mthlim C 0) (Qabs u * (c_dt C / c_dx C)) ->
  kernel pow undef L C qbc auxbc = Some (q', cfl) ->
  forall i, (Z.of_nat (c_ng C) <= i < Z.of_nat (c_ng C) + cells C)%Z ->
  exists c, 0 <= c <= 1 /\
  q' 0%Z i == (1 - c) * qbc 0%Z i + c * qbc 0%Z (if qltb 0 u then i - 1 else i + 1)%Z.
Proof.
  intros pow undef L C u qbc auxbc q' cfl HA Hg Hlam Hnu HT HK i Hi.
  destruct (adv_convex pow undef C u HA L qbc auxbc q' cfl (Qabs u * (c_dt C / c_dx C)) Hg Hlam ltac:(reflexivity) Hnu) with (i := i) as (c & Hc & E); auto.
  - destruct HT as [HT|HT]; [left|right; exact HT]. destruct L; cbn [second]; rewrite HT; reflexivity.
  - exists c. split; [exact Hc|]. rewrite E. ring.
Qed.
Print Assumptions C21_C22_maximum_principle.

(** On a periodic domain: no new extrema, and the total variation does not increase. *)
Theorem C21_C22_tvd :
  forall pow undef L C u q aux qbc0 auxbc0,
  advection_settings u C -> (2 <= c_ng C)%nat -> periodic_bc (c_bc C) -> (Z.of_nat (c_ng C) <= cells C)%Z ->
  0 <= c_dt C / c_dx C -> Qabs u * (c_dt C / c_dx C) <= 1 ->
  c_order C = 1%Z \/ tvd_limiter pow L (c_mthlim C 0) (Qabs u * (c_dt C / c_dx C)) ->
  exists q' cfl, step_hyperbolic pow undef L C q aux qbc0 auxbc0 = Stepped q' cfl /\
  tv (cells C) (q' 0%Z) <= tv (cells C) (flat q 0%Z) /\
  (forall lo hi, (forall i, (0 <= i < cells C)%Z -> lo <= flat q 0%Z i <= hi) ->
   forall i, (0 <= i < cells C)%Z -> lo <= q' 0%Z i <= hi).
Proof.
  intros pow undef L C u q aux qbc0 auxbc0 HA Hg HP Hmx Hlam Hnu HT.
  unfold cells in *. pose proof HA as (_ & _ & _ & _ & _ & Hcap).
  destruct (step_ok pow undef C L q aux qbc0 auxbc0 ltac:(lia) (periodic_fit C HP ltac:(lia) Hmx)) as (qbc & auxbc & Hq & _ & ->).
  destruct (kernel pow undef L C qbc auxbc) as [[q' cfl]|] eqn:EK.
  2:{ destruct (kernel_stopped pow undef C L qbc auxbc EK) as (_ & k & i & Ek & _). congruence. }
  exists (fun m i => q' m (i + Z.of_nat (c_ng C))%Z), cfl. split; [reflexivity|].
  assert (H : forall i, (0 <= i < ncells (c_bc C))%Z -> exists c, 0 <= c <= 1 /\
     q' 0%Z (i + Z.of_nat (c_ng C))%Z == flat q 0%Z i - c * (flat q 0%Z i - flat q 0%Z ((if qltb 0 u then i - 1 else i + 1) mod ncells (c_bc C))%Z)).
  { intros i Hi. destruct (C21_C22_maximum_principle pow undef L C u qbc auxbc q' cfl HA Hg Hlam Hnu HT EK (i + Z.of_nat (c_ng C))%Z) as (c & Hc & E); [unfold cells; lia|].
    exists c. split; [exact Hc|]. rewrite E. rewrite (periodic_q C qbc q HP Hg Hmx Hq) by lia. rewrite Z.mod_small by lia.
    replace (if qltb 0 u then i + Z.of_nat (c_ng C) - 1 else i + Z.of_nat (c_ng C) + 1)%Z with ((if qltb 0 u then i - 1 else i + 1) + Z.of_nat (c_ng C))%Z by (destruct (qltb 0 u); lia).
    rewrite (periodic_q C qbc q HP Hg Hmx Hq) by (destruct (qltb 0 u); lia). unfold flat. ring. }
  split.
  - destruct (qltb 0 u).
    + apply harten_left; [lia|]. exact H.
    + apply harten_right; [lia|]. intros i Hi. destruct (H i Hi) as (c & Hc & E). exists c. split; [exact Hc|]. rewrite E. ring.
  - intros lo hi HB i Hi. destruct (H i Hi) as (c & Hc & E). rewrite E.
    pose proof (HB i Hi) as B1. pose proof (HB ((if qltb 0 u then i - 1 else i + 1) mod ncells (c_bc C))%Z ltac:(apply Z.mod_pos_bound; lia)) as B2.
    set (a := flat q 0%Z i) in *. set (b := flat q 0%Z ((if qltb 0 u then i - 1 else i + 1) mod ncells (c_bc C))%Z) in *.
    assert (0 <= c * (b - lo)) by (apply Qmul_nonneg; lra). assert (0 <= (1 - c) * (a - lo)) by (apply Qmul_nonneg; lra).
    assert (0 <= c * (hi - b)) by (apply Qmul_nonneg; lra). assert (0 <= (1 - c) * (hi - a)) by (apply Qmul_nonneg; lra).
    split; lra.
Qed.
Print Assumptions C21_C22_tvd.

Lemma region_eq c nu phi : c == nu -> in_cfl_region c phi -> in_cfl_region nu phi.
Proof.
  intros E (A & B & D & F). split; [exact A|]. split; [exact B|]. split; [intros r|intros r Hr].
  - rewrite <- E. apply D.
  - rewrite <- E. apply F. exact Hr.
Qed.
(** Which limiters qualify: Python 1-4 for every Courant number up to 1, Python 11, 15 and 16 (which use the
    Courant number) strictly between 0 and 1, and Fortran 1-4. *)
Theorem C22_tvd_limiters :
  forall pow nu, 0 <= nu <= 1 ->
  (forall n, In n [1; 2; 3; 4]%Z -> tvd_limiter pow Python n nu /\ tvd_limiter pow Fortran n nu) /\
  (0 < nu < 1 -> forall n, In n [11; 15; 16]%Z -> tvd_limiter pow Python n nu).
Proof.
  intros pow nu Hn. split.
  - intros n Hin. simpl in Hin. repeat (destruct Hin as [<-|Hin]); try contradiction; (split; [eexists; split; [reflexivity|intros c _; apply sweby_region; [exact Hn|]]|]).
    + apply minmod_sweby.
    + exists (fun r => minmod r 0). split; [apply sweby_region; [exact Hn|apply minmod_sweby]|reflexivity].
    + apply superbee_py_sweby.
    + eexists. split; [apply sweby_region; [exact Hn|apply superbee_sweby]|reflexivity].
    + apply vanleer_sweby.
    + exists (fun r => vanleer r 0). split; [apply sweby_region; [exact Hn|apply vanleer_sweby]|reflexivity].
    + apply mc_sweby.
    + exists (fun r => mc r 0). split; [apply sweby_region; [exact Hn|apply mc_sweby]|reflexivity].
  - intros Hn' n Hin. simpl in Hin. repeat (destruct Hin as [<-|Hin]); try contradiction; eexists; (split; [reflexivity|intros c Hc; apply (region_eq c nu); [exact Hc|]]).
    + apply arora_roe_region; lra.
    + apply cfl_superbee_region; lra.
    + apply cfl_superbee_theta_region; lra.
Qed.
Print Assumptions C22_tvd_limiters.

(** At Courant number 1/2 the TVD step on the example data. *)
Example C21_C22_example :
  let C := demo_set 2 4 (advection (- (2))) 0 Periodic in
  advection_settings (- (2)) C /\ periodic_bc (c_bc C) /\ Qabs (- (2)) * (c_dt C / c_dx C) == 1 # 2 /\
  tv 3 (flat demo_data 0%Z) == 8 /\
  forall L, passes (step_hyperbolic nopow noundef L C demo_data demo_data zero_arr zero_arr)
    (fun q' _ => qltb (tv 3 (q' 0%Z)) 8 && negb (qeqb (q' 0%Z 0%Z) 1)) = true.
Proof.
  cbn zeta. split; [repeat split|]. split; [repeat split|]. split; [reflexivity|]. split; [vm_compute; reflexivity|].
  intros []; vm_compute; reflexivity.
Qed.

(** ** C23 *)
Theorem C23_unit_courant_number :
  forall pow undef L C u q aux qbc0 auxbc0,
  advection_settings u C -> (2 <= c_ng C)%nat -> periodic_bc (c_bc C) -> (Z.of_nat (c_ng C) <= cells C)%Z ->
  0 < c_dt C / c_dx C -> Qabs u * (c_dt C / c_dx C) == 1 ->
  exists q' cfl, step_hyperbolic pow undef L C q aux qbc0 auxbc0 = Stepped q' cfl /\
  forall i, (0 <= i < cells C)%Z ->
  q' 0%Z i == q 0%Z [if qltb 0 u then ((i - 1) mod cells C)%Z else ((i + 1) mod cells C)%Z].
Proof.
  intros pow undef L C u q aux qbc0 auxbc0 HA Hg HP Hmx Hlam Hnu. unfold cells in *. pose proof HA as (_ & _ & _ & _ & _ & Hcap).
  destruct (step_ok pow undef C L q aux qbc0 auxbc0 ltac:(lia) (periodic_fit C HP ltac:(lia) Hmx)) as (qbc & auxbc & Hq & _ & ->).
  destruct (kernel pow undef L C qbc auxbc) as [[q' cfl]|] eqn:EK.
  2:{ destruct (kernel_stopped pow undef C L qbc auxbc EK) as (_ & k & i & Ek & _). congruence. }
  exists (fun m i => q' m (i + Z.of_nat (c_ng C))%Z), cfl. split; [reflexivity|]. intros i Hi.
  rewrite (adv_exact pow undef C u HA L qbc auxbc q' cfl Hg Hlam Hnu EK) by lia.
  destruct (qltb 0 u).
  - replace (i + Z.of_nat (c_ng C) - 1)%Z with (i - 1 + Z.of_nat (c_ng C))%Z by lia. rewrite (periodic_q C qbc q HP Hg Hmx Hq) by lia. reflexivity.
  - replace (i + Z.of_nat (c_ng C) + 1)%Z with (i + 1 + Z.of_nat (c_ng C))%Z by lia. rewrite (periodic_q C qbc q HP Hg Hmx Hq) by lia. reflexivity.
Qed.
Print Assumptions C23_unit_courant_number.
Example C23_example :
  let C := demo_set 2 17 (advection 4) 0 Periodic in
  advection_settings 4 C /\ periodic_bc (c_bc C) /\ Qabs 4 * (c_dt C / c_dx C) == 1 /\
  passes (step_hyperbolic nopow noundef Python C demo_data demo_data zero_arr zero_arr)
    (fun q' _ => qeqb (q' 0%Z 0%Z) (- (1)) && qeqb (q' 0%Z 2%Z) 3) = true.
Proof.
  cbn zeta. split; [repeat split|]. split; [repeat split|]. split; [reflexivity|]. vm_compute. reflexivity.
Qed.

(** ** C24 *)
Theorem C24_five_cells :
  forall pow undef L C qbc auxbc qbc2 auxbc2 q' cfl q2' cfl2 m i,
  (2 <= c_ng C)%nat -> local_limiters_only pow L C -> capa_in_aux C ->
  kernel pow undef L C qbc auxbc = Some (q', cfl) -> kernel pow undef L C qbc2 auxbc2 = Some (q2', cfl2) ->
  (0 <= m < Z.of_nat (c_neq C))%Z -> (Z.of_nat (c_ng C) <= i < Z.of_nat (c_ng C) + cells C)%Z ->
  (forall k, (i - 2 <= k <= i + 2)%Z ->
     vec (c_neq C) qbc k = vec (c_neq C) qbc2 k /\ vec (c_naux C) auxbc k = vec (c_naux C) auxbc2 k) ->
  q' m i == q2' m i.
Proof. intros. eapply (stencil pow undef C L qbc auxbc qbc2 auxbc2); eauto. Qed.
Print Assumptions C24_five_cells.
(** Whatever the limiter, nothing outside the ghosted array is used. *)
Theorem C24_inside_array :
  forall pow undef L C qbc auxbc qbc2 auxbc2 q' cfl q2' cfl2 m i,
  (2 <= c_ng C)%nat -> capa_in_aux C ->
  kernel pow undef L C qbc auxbc = Some (q', cfl) -> kernel pow undef L C qbc2 auxbc2 = Some (q2', cfl2) ->
  (0 <= m < Z.of_nat (c_neq C))%Z -> (Z.of_nat (c_ng C) <= i < Z.of_nat (c_ng C) + cells C)%Z ->
  (forall k, (0 <= k < cells C + 2 * Z.of_nat (c_ng C))%Z ->
     vec (c_neq C) qbc k = vec (c_neq C) qbc2 k /\ vec (c_naux C) auxbc k = vec (c_naux C) auxbc2 k) ->
  q' m i == q2' m i.
Proof. intros. eapply (inside_array pow undef C L qbc auxbc qbc2 auxbc2); eauto. Qed.
Print Assumptions C24_inside_array.
(** Hence a step does not depend on stale contents of the ghosted arrays. *)
Theorem C24_stale_ghosts :
  forall pow undef L C q aux qbc0 auxbc0 qbc1 auxbc1,
  (2 <= c_ng C)%nat -> fit_dim (c_ng C) (has_aux C) (Z.of_nat (c_neq C)) (c_bc C) -> capa_in_aux C ->
  match step_hyperbolic pow undef L C q aux qbc0 auxbc0, step_hyperbolic pow undef L C q aux qbc1 auxbc1 with
  | Stepped q' _, Stepped q2' _ => forall m i, (0 <= m < Z.of_nat (c_neq C))%Z -> (0 <= i < cells C)%Z -> q' m i == q2' m i
  | Stopped, Stopped => True
  | _, _ => False
  end.
Proof.
  intros pow undef L C q aux qbc0 auxbc0 qbc1 auxbc1 Hg HF Hcapa.
  destruct (step_ok pow undef C L q aux qbc0 auxbc0 ltac:(lia) HF) as (qb & xb & Hq & Ha & ->).
  destruct (step_ok pow undef C L q aux qbc1 auxbc1 ltac:(lia) HF) as (qb' & xb' & Hq' & Ha' & ->).
  assert (V : forall k, (0 <= k < cells C + 2 * Z.of_nat (c_ng C))%Z ->
     vec (c_neq C) qb k = vec (c_neq C) qb' k /\ vec (c_naux C) xb k = vec (c_naux C) xb' k).
  { unfold cells. intros k Hk. replace k with (k - Z.of_nat (c_ng C) + Z.of_nat (c_ng C))%Z by lia. split; apply vec_ext; intros m Hm.
    - rewrite Hq, Hq' by lia. reflexivity.
    - assert (HA : has_aux C = true) by (unfold has_aux; apply Nat.ltb_lt; lia). rewrite (Ha HA), (Ha' HA) by lia. reflexivity. }
  assert (X : forall k i, c_capa C = Some k -> (0 <= i < cells C + 2 * Z.of_nat (c_ng C))%Z -> xb k i = xb' k i).
  { intros k i Hk Hi. destruct (V i Hi) as [_ E]. eapply vec_inj; [exact E|]. apply Hcapa. exact Hk. }
  destruct (kernel pow undef L C qb xb) as [[q' cfl]|] eqn:E1, (kernel pow undef L C qb' xb') as [[q2' cfl2]|] eqn:E2; auto.
  - intros m i Hm Hi. eapply C24_inside_array; eauto. unfold cells in *. lia.
  - exfalso. destruct (kernel_stopped pow undef C L qb' xb' E2) as (-> & k & i & Ek & Hi & Hle).
    rewrite <- (X k i Ek Hi) in Hle. revert E1. cbn [kernel]. unfold f_dtdx. rewrite Ek. cbn [option_map].
    destruct (forallb _ _) eqn:Ff; [|discriminate]. rewrite forallb_forall in Ff.
    specialize (Ff (i - Z.of_nat (c_ng C) + 1)%Z). rewrite qltb_lt in Ff. replace (i - Z.of_nat (c_ng C) + 1 + Z.of_nat (c_ng C) - 1)%Z with i in Ff by lia.
    assert (0 < xb k i) by (apply Ff; apply zrange_in; unfold cells in *; lia). lra.
  - exfalso. destruct (kernel_stopped pow undef C L qb xb E1) as (-> & k & i & Ek & Hi & Hle).
    rewrite (X k i Ek Hi) in Hle. revert E2. cbn [kernel]. unfold f_dtdx. rewrite Ek. cbn [option_map].
    destruct (forallb _ _) eqn:Ff; [|discriminate]. rewrite forallb_forall in Ff.
    specialize (Ff (i - Z.of_nat (c_ng C) + 1)%Z). rewrite qltb_lt in Ff. replace (i - Z.of_nat (c_ng C) + 1 + Z.of_nat (c_ng C) - 1)%Z with i in Ff by lia.
    assert (0 < xb' k i) by (apply Ff; apply zrange_in; unfold cells in *; lia). lra.
Qed.
Print Assumptions C24_stale_ghosts.
(** Cell 4 of the example sees cells 2 to 6 only; the data differ elsewhere. *)
Example C24_example :
  let C := demo_set 2 4 burgers 0 Extrap in
  local_limiters_only nopow Python C /\ capa_in_aux C /\
  kpasses (kernel nopow noundef Python C (fun _ i => inject_Z (i * i)) zero_arr') (fun q' cfl =>
  kpasses (kernel nopow noundef Python C (fun _ i => if Z.ltb i 2 then 99 else inject_Z (i * i)) zero_arr') (fun q2' cfl2 =>
    negb (qeqb cfl cfl2) && negb (qeqb (q' 0%Z 4%Z) 16) && negb (qeqb (q' 0%Z 2%Z) (q2' 0%Z 2%Z)))) = true.
Proof.
  cbn zeta. split; [intros _ mw f _ E; cbn in E; injection E as <-; apply map2_cell_by_cell|].
  split; [intros k E; discriminate|]. vm_compute. reflexivity.
Qed.

(** ** C57: the reported Courant number is the largest of the local ones (and 0). *)
Theorem C57_courant_number :
  forall pow undef L C qbc auxbc q' cfl,
  (0 <= cells C)%Z -> kernel pow undef L C qbc auxbc = Some (q', cfl) ->
  let ng := Z.of_nat (c_ng C) in
  let dtdx i := c_dt C / (c_dx C * capacity C auxbc i) in
  let s j mw := o_s (c_rp C (vec (c_neq C) qbc j) (vec (c_neq C) qbc (j + 1)) (vec (c_naux C) auxbc j) (vec (c_naux C) auxbc (j + 1))) mw in
  0 <= cfl /\
  (forall mw j, (0 <= mw < Z.of_nat (c_nw C))%Z -> (ng - 1 <= j < ng + cells C)%Z ->
     dtdx (j + 1)%Z * s j mw <= cfl /\ - dtdx j * s j mw <= cfl) /\
  (cfl == 0 \/ exists mw j, (0 <= mw < Z.of_nat (c_nw C))%Z /\ (ng - 2 <= j < ng + cells C)%Z /\
     (L = Fortran -> (ng - 1 <= j)%Z) /\ (cfl == dtdx (j + 1)%Z * s j mw \/ cfl == - dtdx j * s j mw)).
Proof.
  intros pow undef L C qbc auxbc q' cfl Hmx HK ng dtdx s. unfold cells in *.
  destruct (kernel_cfl_fst pow undef C L qbc auxbc q' cfl HK Hmx) as (l & (A & B & D) & E).
  assert (Ed : forall i, dtdx_of C auxbc i == dtdx i).
  { intros i. unfold dtdx_of, dtdx, capacity. destruct (c_capa C) as [k|]; cbn [option_map py_dtdx]; [reflexivity|].
    setoid_replace (c_dx C * 1) with (c_dx C) by ring. reflexivity. }
  assert (Es : forall mw j, spd (rps C qbc auxbc) mw j = s j mw).
  { intros mw j. unfold s. cbn [rps solve_rps spd]. rewrite Z.add_0_r. reflexivity. }
  split; [exact A|]. split.
  - intros mw j Hmw Hj.
    assert (Hx : forall x, In x (courant (dtdx_of C auxbc) (rps C qbc auxbc) mw j) -> x <= cfl).
    { intros x Hx. apply B. apply E. exists mw, j. split; [exact Hmw|]. split; [|exact Hx]. destruct L; cbn [first_iface]; fold ng; lia. }
    unfold courant in Hx. rewrite Es in Hx. rewrite <- !Ed. split; apply Hx; simpl; auto.
  - destruct D as [->|D]; [left; reflexivity|right]. apply E in D. destruct D as (mw & j & Hmw & Hj & Hx). exists mw, j.
    split; [exact Hmw|]. unfold courant in Hx. rewrite Es in Hx. destruct L; cbn [first_iface] in Hj; fold ng in Hj;
    (split; [lia|]); (split; [intros; try discriminate; lia|]); rewrite <- !Ed; destruct Hx as [<-|[<-|[]]]; [left|right|left|right]; reflexivity.
Qed.
Print Assumptions C57_courant_number.
Example C57_example :
  kpasses (kernel nopow noundef Fortran (demo_set 2 4 burgers 1 Extrap) (fun _ i => inject_Z (i - 4)) (fun _ _ => 1 # 2))
    (fun _ cfl => qeqb cfl (5 # 4)) = true.
Proof. vm_compute. reflexivity. Qed.
