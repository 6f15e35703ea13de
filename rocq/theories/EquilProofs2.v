(** Equilibria in SharpClaw: proofs. *)
From Verif Require Import Base BCModel BCSpec BCProofs LimiterModel Classic1DModel Classic1DSpec Classic1DProofs Classic1DProofs2 Classic1DProofs3 Classic1DProps
  TimeModel RunModel SimSpec SymSpec SymProps CapaSpec CapaProofs SharpModel WenoModel SemiModel SemiSpec SemiProofs SemiProps ReconModel EquilSpec EquilProofs.

(** ** Runge-Kutta steps with slopes that vanish *)
Section Steps.
Context {Idx : Type}.
Variables (D : Idx -> Prop) (z : Idx -> Q).
Definition near (u : Idx -> Q) : Prop := forall x, D x -> u x == z x.
Definition null (k : Idx -> Q) : Prop := forall x, D x -> k x == 0.
Variables (f hook : Q -> (Idx -> Q) -> Idx -> Q) (d : Q).
Hypothesis Hf : forall t u, near u -> null (f t u).
Hypothesis Hh : forall t u, near u -> near (hook t u).
Lemma near_dq t u : near u -> null (dq f d t u).
Proof. intros H x Hx. unfold dq, vscale. rewrite (Hf t u H x Hx). ring. Qed.
Lemma near_add u k c : near u -> null k -> near (vadd u (vscale c k)).
Proof. intros H K x Hx. unfold vadd, vscale. rewrite (H x Hx), (K x Hx). ring. Qed.
Lemma euler_near k t q : near q -> null k -> near (euler d k t q).
Proof. intros. apply near_add; assumption. Qed.
Lemma ssp22_near k t q : near q -> null k -> near (ssp22 f hook d k t q).
Proof.
  intros H K. unfold ssp22. assert (R : near (hook (t + d) (vadd q (vscale d k)))) by (apply Hh, near_add; assumption).
  intros x Hx. unfold vscale at 1, vadd at 1 2. rewrite (H x Hx), (R x Hx), (near_dq _ _ R x Hx). ring.
Qed.
Lemma ssp33_near k t q : near q -> null k -> near (ssp33 f hook d k t q).
Proof.
  intros H K. unfold ssp33. cbv zeta. set (r1 := hook (t + d) _). assert (R1 : near r1) by (apply Hh, near_add; assumption).
  set (r2 := hook (t + (1 # 2) * d) _). assert (R2 : near r2).
  { apply Hh. intros x Hx. unfold vadd, vscale. rewrite (H x Hx), (R1 x Hx), (near_dq _ _ R1 x Hx). ring. }
  intros x Hx. unfold vadd, vscale. rewrite (H x Hx), (R2 x Hx), (near_dq _ _ R2 x Hx). ring.
Qed.
Lemma stage_near s : near (snd s) -> near (snd (ssp104_stage f hook d s)).
Proof.
  intros H. unfold ssp104_stage. cbn [snd]. pose proof (Hh (fst s) (snd s) H) as R. apply near_add; [exact R|]. apply near_dq. exact R.
Qed.
Lemma iterate_near n s : near (snd s) -> near (snd (iterate n (ssp104_stage f hook d) s)).
Proof. intro H. induction n as [|n IH]; [exact H|]. apply stage_near. exact IH. Qed.
Lemma ssp104_near k t q : near q -> null k -> near (ssp104 f hook d k t q).
Proof.
  intros H K. unfold ssp104. cbv zeta. set (s1 := iterate 4 _ _).
  assert (S1 : near (snd s1)) by (apply iterate_near; cbn [snd]; apply near_add; assumption).
  set (q' := vadd (vscale (1 / 25) q) _). assert (Q' : forall x, D x -> q' x == (2 # 5) * z x).
  { intros x Hx. unfold q', vadd, vscale. rewrite (H x Hx), (S1 x Hx). field. }
  set (s2 := iterate 4 _ _). assert (S2 : near (snd s2)).
  { apply iterate_near. cbn [snd]. intros x Hx. unfold vadd, vscale. rewrite (Q' x Hx), (S1 x Hx). ring. }
  pose proof (Hh (fst s2) (snd s2) S2) as R. intros x Hx. unfold vadd, vscale. rewrite (Q' x Hx), (R x Hx), (near_dq _ _ R x Hx). ring.
Qed.
Lemma nth_null regs j : Forall null regs -> null (nth j regs (fun _ => 0)).
Proof. intro H. revert j. induction H as [|k l K _ IH]; intros [|j]; cbn [nth]; try (intros x _; reflexivity); [exact K|apply IH]. Qed.
Lemma fold_near (c : nat -> Q) regs l : Forall null regs -> forall y, near y ->
  near (fold_left (fun y j => vadd y (vscale (c j) (nth j regs (fun _ => 0)))) l y).
Proof.
  intros H. induction l as [|j l IH]; intros y Y; [exact Y|]. cbn [fold_left]. apply IH. apply near_add; [exact Y|]. apply nth_null. exact H.
Qed.
Lemma registers_null n a c k t q : near q -> null k -> Forall null (rk_registers f hook d n a c k t q).
Proof.
  intros H K. induction n as [|n IH]; cbn [rk_registers].
  - constructor; [|constructor]. intros x Hx. unfold vscale. rewrite (K x Hx). ring.
  - apply Forall_app. split; [exact IH|]. constructor; [|constructor]. unfold rk_stage. cbv zeta. apply near_dq. apply fold_near; [exact IH|]. apply Hh. exact H.
Qed.
Lemma rk_near n a b c k t q : near q -> null k -> near (rk_user f hook d n a b c k t q).
Proof. intros H K. unfold rk_user. cbv zeta. apply fold_near; [apply registers_null; assumption|exact H]. Qed.
End Steps.

(** ** The right-hand side at an equilibrium *)
Lemma vec_image n a b i j : (forall m, (0 <= m < Z.of_nat n)%Z -> b m j == a m i) -> image n (fun _ => 1) (vec n a i) (vec n b j).
Proof.
  intros H. unfold vec. split; [rewrite map_length, seq_length; reflexivity|]. split; [rewrite map_length, seq_length; reflexivity|].
  intros m Hm. rewrite (nth_indep (map (fun k => b (Z.of_nat k) j) _) 0 ((fun k => b (Z.of_nat k) j) 0%nat)) by (rewrite map_length, seq_length; lia).
  rewrite (map_nth (fun k => b (Z.of_nat k) j)).
  rewrite (nth_indep _ _ ((fun k => a (Z.of_nat k) i) 0%nat)) by (rewrite map_length, seq_length; lia).
  rewrite (map_nth (fun k => a (Z.of_nat k) i)), seq_nth by lia. replace (Z.of_nat (0 + Z.to_nat m)) with m by lia. rewrite H by exact Hm. ring.
Qed.
Section Semi.
Variable C : settings.
Notation ng := (Z.of_nat (c_ng C)).
Notation mx := (ncells (c_bc C)).
Notation neq := (c_neq C).
Hypothesis HR : regular C.
Variables (qbc auxbc : Z -> Z -> Q) (e : edges).
Hypothesis HB : forall j, (ng - 1 <= j < ng + mx)%Z ->
  balanced neq (c_nw C) (c_rp C (vec neq qbc j) (vec neq qbc (j + 1)) (vec (c_naux C) auxbc j) (vec (c_naux C) auxbc (j + 1))).
Hypothesis HL : forall m i, (0 <= m < Z.of_nat neq)%Z -> (ng <= i <= ng + mx)%Z -> fst e m i == qbc m i.
Hypothesis Hr : forall m i, (0 <= m < Z.of_nat neq)%Z -> (ng - 1 <= i < ng + mx)%Z -> snd e m i == qbc m i.
Lemma edges_balanced j m : (ng - 1 <= j < ng + mx)%Z -> (0 <= m < Z.of_nat neq)%Z -> amdq (erps C e auxbc) m j == 0 /\ apdq (erps C e auxbc) m j == 0.
Proof.
  intros Hj Hm. cbn [erps edge_rps amdq apdq]. rewrite Z.add_0_r.
  pose proof (HR _ _ _ _ _ _ _ _ (vec_image neq qbc (snd e) j j (fun m Hm => Hr m j Hm Hj))
    (vec_image neq qbc (fst e) (j + 1) (j + 1) (fun m Hm => HL m (j + 1)%Z Hm ltac:(lia)))
    (vec_image (c_naux C) auxbc auxbc j j (fun m _ => Qeq_refl _)) (vec_image (c_naux C) auxbc auxbc (j + 1) (j + 1) (fun m _ => Qeq_refl _))) as S.
  cbn [moved g_mirror] in S. destruct S as (_ & S2). cbn [moved g_mirror g_speed g_q] in S2. destruct (S2 m Hm) as (T1 & T2 & _).
  destruct (HB j Hj m Hm) as (B1 & B2 & _). rewrite T1, T2, B1, B2. split; ring.
Qed.
Lemma cells_balanced tf i m : at_rest C -> tfluct_at_rest C tf -> (ng <= i < ng + mx)%Z -> (0 <= m < Z.of_nat neq)%Z -> inner C tf e auxbc m i == 0.
Proof.
  intros HA HT Hi Hm. destruct tf as [f|]; cbn [inner].
  - apply (HT f eq_refl); [exact Hm|]. intros k Hk.
    destruct (vec_image neq qbc (fst e) i i (fun m Hm => HL m i Hm ltac:(lia))) as (_ & _ & A).
    destruct (vec_image neq qbc (snd e) i i (fun m Hm => Hr m i Hm ltac:(lia))) as (_ & _ & B).
    rewrite (A k Hk), (B k Hk). reflexivity.
  - cbn [cell_rps amdq apdq].
    pose proof (HR _ _ _ _ _ _ _ _ (vec_image neq qbc (fst e) i i (fun m Hm => HL m i Hm ltac:(lia))) (vec_image neq qbc (snd e) i i (fun m Hm => Hr m i Hm ltac:(lia)))
      (vec_image (c_naux C) auxbc auxbc i i (fun m _ => Qeq_refl _)) (vec_image (c_naux C) auxbc auxbc i i (fun m _ => Qeq_refl _))) as S.
    cbn [moved g_mirror] in S. destruct S as (_ & S2). cbn [moved g_mirror g_speed g_q] in S2. destruct (S2 m Hm) as (T1 & T2 & _).
    rewrite T1, T2. pose proof (HA (vec neq qbc i) (vec (c_naux C) auxbc i) m ltac:(unfold vec; rewrite map_length, seq_length; reflexivity)
      ltac:(unfold vec; rewrite map_length, seq_length; reflexivity) Hm) as K.
    rewrite !Qmult_1_l. exact K.
Qed.
Lemma semi_balanced tf i m : at_rest C -> tfluct_at_rest C tf -> (ng <= i < ng + mx)%Z -> (0 <= m < Z.of_nat neq)%Z ->
  semi C (inner C tf e auxbc) e auxbc m i == 0.
Proof.
  intros HA HT Hi Hm. unfold semi. rewrite (cells_balanced tf i m HA HT Hi Hm).
  destruct (edges_balanced i m ltac:(lia) Hm) as (E1 & _). destruct (edges_balanced (i - 1)%Z m ltac:(lia) Hm) as (_ & E2). rewrite E1, E2. ring.
Qed.
End Semi.

(** ** The reconstructions that leave the cell values alone where there are no waves *)
Lemma weno5_wave_rest eps neq nw N q w m i : (forall p, (0 <= p < Z.of_nat nw)%Z -> w m p (i - 1)%Z == 0) -> fst (weno5_wave eps neq nw N q w) m i == q m i.
Proof.
  intros H. unfold weno5_wave. cbn [fst]. destruct (in_slice _ _ _); [|reflexivity].
  rewrite zsum_zero; [ring|]. intros p Hp. rewrite H by lia. ring.
Qed.
Lemma weno5_wave_rest_r eps neq nw N q w m i : (forall p, (0 <= p < Z.of_nat nw)%Z -> w m p i == 0) -> snd (weno5_wave eps neq nw N q w) m i == q m i.
Proof.
  intros H. unfold weno5_wave. cbn [snd]. destruct (in_slice _ _ _); [|reflexivity].
  rewrite zsum_zero; [ring|]. intros p Hp. rewrite H by lia. ring.
Qed.
Lemma tvd2_wave_rest neq nw ng mx2 ql0 qr0 ml un w s q m i : (2 <= i <= mx2)%Z -> (forall p, (0 <= p < Z.of_nat nw)%Z -> w m p i == 0) ->
  fst (tvd2_wave neq nw ng mx2 ql0 qr0 ml un w s q) m i == q m i /\ snd (tvd2_wave neq nw ng mx2 ql0 qr0 ml un w s q) m (i - 1)%Z == q m (i - 1)%Z.
Proof.
  intros Hi H. unfold tvd2_wave. cbn [fst snd]. replace (i - 1 + 1)%Z with i by lia. rewrite in_slice_true by lia.
  assert (K : zsum 0 nw (fun p => wave_slope neq ng mx2 ml un w s m p i) == 0).
  { apply zsum_zero. intros p Hp. unfold wave_slope. destruct (_ && _)%bool; [|reflexivity]. rewrite H by lia. ring. }
  rewrite K. split; ring.
Qed.
Lemma fwave_recon_rest eps rp neq nw naux ng mx ql0 qr0 (q aux : Z -> Z -> Q) m i : (2 <= i + ng <= mx + 2 * ng)%Z ->
  (forall ul ur al ar p, (0 <= p < Z.of_nat nw)%Z -> ~ o_s (rp ul ur al ar) p == 0) ->
  (forall p, (0 <= p < Z.of_nat nw)%Z -> o_wave (rp (vec neq q (i - 1)) (vec neq q i) (vec naux aux (i - 1)) (vec naux aux i)) m p == 0) ->
  fst (fwave_recon eps rp neq nw naux ng mx ql0 qr0 q aux) m i == q m i /\
  snd (fwave_recon eps rp neq nw naux ng mx ql0 qr0 q aux) m (i - 1)%Z == q m (i - 1)%Z.
Proof.
  intros Hi HS HW. unfold fwave_recon. cbv zeta. set (R := dummy_wave rp neq naux ng q aux). unfold f_weno5_fwave. cbv zeta.
  cbn [undummy fst snd]. replace (i - 1 + ng + 1)%Z with (i + ng)%Z by lia. rewrite in_slice_true by lia.
  assert (F : forallb (fun p => forallb (fun d => (negb (in_slice 1 (mx + 2 * ng + 1) (i + ng + d)) || negb (qeqb (spd R (Z.of_nat p) (i + ng + d)%Z) 0))%bool)
    [-2; -1; 0; 1; 2]%Z) (seq 0 nw) = true).
  { apply forallb_forall. intros p Hp. apply in_seq in Hp. apply forallb_forall. intros d _. apply orb_true_iff. right. apply negb_true_iff.
    apply not_true_iff_false. intro E. apply Qeq_bool_iff in E. unfold R in E. cbn [dummy_wave spd solve_rps] in E.
    refine (HS _ _ _ _ _ _ E). lia. }
  rewrite F.
  assert (W : forall p, (0 <= p < Z.of_nat nw)%Z -> wave R m p (i + ng)%Z == 0).
  { intros p Hp. unfold R. cbn [dummy_wave wave solve_rps]. replace (i + ng - ng + -1)%Z with (i - 1)%Z by lia.
    replace (i - 1 + 1)%Z with i by lia. apply HW. exact Hp. }
  split; (rewrite zsum_zero; [unfold dummy; replace (i + ng - ng)%Z with i by lia; replace (i - 1 + ng - ng)%Z with (i - 1)%Z by lia; ring|]);
    intros p Hp; rewrite in_slice_true by lia; rewrite W by lia; unfold Qdiv; ring.
Qed.

Section Rhs.
Variable C : settings.
Notation ng := (Z.of_nat (c_ng C)).
Notation mx := (ncells (c_bc C)).
Notation neq := (c_neq C).
Hypothesis Hng : (3 <= c_ng C)%nat.
Hypothesis HF : fit_dim (c_ng C) (Nat.ltb 0 (c_naux C)) (Z.of_nat (c_neq C)) (c_bc C).
Hypothesis HR : regular C.
Hypothesis HA : at_rest C.
Lemma rhs_rest M q aux qbc0 auxbc0 : wave_based C M -> equilibrium C q aux ->
  exists d cfl, dq_hyperbolic M C q aux qbc0 auxbc0 = DQ d cfl /\ forall m i, (0 <= m < Z.of_nat neq)%Z -> (0 <= i < mx)%Z -> d m i == 0.
Proof.
  intros HM EQ. destruct (semi_ok M C q aux qbc0 auxbc0 ltac:(lia) HF) as (qbc & auxbc & Hq & Ha & ->).
  assert (HB : forall j, (ng - 1 <= j < ng + mx)%Z ->
    balanced neq (c_nw C) (c_rp C (vec neq qbc j) (vec neq qbc (j + 1)) (vec (c_naux C) auxbc j) (vec (c_naux C) auxbc (j + 1)))).
  { intros j Hj. specialize (EQ (j - ng)%Z). rewrite <- !(vec_at C q qbc _ Hq), <- !(vec_aux_at C HF aux auxbc _ Ha) in EQ by lia.
    replace (j - ng + 1 + ng)%Z with (j + 1)%Z in EQ by lia. replace (j - ng + ng)%Z with j in EQ by lia. apply EQ. unfold cells. lia. }
  assert (T0 : tfluct_at_rest C None) by (intros f E; discriminate E).
  assert (PY : forall e, (forall m i, (0 <= m < Z.of_nat neq)%Z -> (ng <= i <= ng + mx)%Z -> fst e m i == qbc m i) ->
     (forall m i, (0 <= m < Z.of_nat neq)%Z -> (ng - 1 <= i < ng + mx)%Z -> snd e m i == qbc m i) ->
     exists d cfl, (let (d, cfl) := py_semi C e auxbc in DQ (fun m i => d m (i + ng)%Z) cfl) = DQ d cfl /\
       forall m i, (0 <= m < Z.of_nat neq)%Z -> (0 <= i < mx)%Z -> d m i == 0).
  { intros e E1 E2. destruct (py_semi C e auxbc) as [d cfl] eqn:E. exists (fun m i => d m (i + ng)%Z), cfl. split; [reflexivity|]. intros m i Hm Hi.
    change d with (fst (d, cfl)). rewrite <- E, py_semi_form by lia. apply (semi_balanced C HR qbc auxbc e HB E1 E2); try assumption; lia. }
  assert (FO : forall r tf, c_capa C = None -> tfluct_at_rest C tf ->
     let e := r (fun m i => qbc m (i + ng - 1)%Z) (fun m i => auxbc m (i + ng - 1)%Z) in
     (forall m i, (0 <= m < Z.of_nat neq)%Z -> (1 <= i <= mx + 1)%Z -> fst e m i == qbc m (i + ng - 1)%Z /\ snd e m (i - 1)%Z == qbc m (i - 1 + ng - 1)%Z) ->
     exists d cfl, (let (d, cfl) := f_semi tf C e (fun m i => auxbc m (i + ng - 1)%Z) in DQ (fun m i => d m (i + 1)%Z) cfl) = DQ d cfl /\
       forall m i, (0 <= m < Z.of_nat neq)%Z -> (0 <= i < mx)%Z -> d m i == 0).
  { intros r tf HN HT e E1. destruct (f_semi tf C e _) as [d cfl] eqn:E. exists (fun m i => d m (i + 1)%Z), cfl. split; [reflexivity|]. intros m i Hm Hi.
    change d with (fst (d, cfl)). rewrite <- E, f_semi_form by (exact HN || lia).
    apply (semi_balanced C HR qbc auxbc (shift_edges C e) HB); try assumption; try lia.
    - intros k j Hk Hj. cbn [shift_edges fst]. unfold shift_arr. destruct (E1 k (j - ng + 1)%Z Hk ltac:(lia)) as (E2 & _).
      replace (j - ng + 1 + ng - 1)%Z with j in E2 by lia. exact E2.
    - intros k j Hk Hj. cbn [shift_edges snd]. unfold shift_arr. destruct (E1 k (j - ng + 2)%Z Hk ltac:(lia)) as (_ & E2).
      replace (j - ng + 2 - 1)%Z with (j - ng + 1)%Z in E2 by lia. replace (j - ng + 1 + ng - 1)%Z with j in E2 by lia. exact E2. }
  cbv zeta. destruct HM as [eps cd|eps|ml un ql0 qr0 tf HN HT|eps ql0 qr0 tf HN HT HS].
  - cbn [py_reconstruct Z.eqb]. apply PY; intros; reflexivity.
  - cbn [py_reconstruct Z.eqb Pos.eqb]. unfold py_reconstruct. cbn [Z.eqb Pos.eqb]. apply PY.
    + intros m i Hm Hi. apply weno5_wave_rest. intros p Hp. cbn [solve_rps wave]. rewrite Z.add_0_r. apply (HB (i - 1)%Z ltac:(lia) m Hm); exact Hp.
    + intros m i Hm Hi. apply weno5_wave_rest_r. intros p Hp. cbn [solve_rps wave]. rewrite Z.add_0_r. apply (HB i ltac:(lia) m Hm); exact Hp.
  - apply (FO (tvd_wave_recon ml un (c_rp C) neq (c_nw C) (c_naux C) ng (cells C) ql0 qr0) tf HN HT). intros m i Hm Hi. unfold tvd_wave_recon. cbv zeta. cbn [undummy fst snd].
    replace (i - 1 + ng)%Z with (i + ng - 1)%Z by lia.
    match goal with |- fst (tvd2_wave ?a ?b ?c ?d ?f ?g ?h ?k ?w ?s ?q2) _ _ == _ /\ _ => destruct (tvd2_wave_rest a b c d f g h k w s q2 m (i + ng)%Z) as (E1 & E2) end.
    + unfold cells. lia.
    + intros p Hp. cbn [dummy_wave wave solve_rps]. replace (i + ng - ng + -1)%Z with (i - 1)%Z by lia.
      destruct (HB (i + ng - 2)%Z ltac:(lia) m Hm) as (_ & _ & W). specialize (W p Hp).
      replace (i + ng - 2 + 1)%Z with (i + ng - 1)%Z in W by lia.
      replace (i + ng - 2)%Z with (i - 1 + ng - 1)%Z in W by lia. replace (i - 1 + 1)%Z with i by lia. exact W.
    + rewrite E1, E2. unfold dummy. split; [replace (i + ng - ng + ng - 1)%Z with (i + ng - 1)%Z by lia|replace (i + ng - 1 - ng + ng - 1)%Z with (i - 1 + ng - 1)%Z by lia; replace (i + ng - 1 - 1)%Z with (i - 1 + ng - 1)%Z by lia]; reflexivity.
  - apply (FO (fwave_recon eps (c_rp C) neq (c_nw C) (c_naux C) ng (cells C) ql0 qr0) tf HN HT). intros m i Hm Hi.
    apply (fwave_recon_rest eps (c_rp C) neq (c_nw C) (c_naux C) ng (cells C) ql0 qr0 (fun m i => qbc m (i + ng - 1)%Z) (fun m i => auxbc m (i + ng - 1)%Z) m i);
      [unfold cells; lia|exact HS|].
    intros p Hp. destruct (HB (i + ng - 2)%Z ltac:(lia) m Hm) as (_ & _ & W). specialize (W p Hp).
    replace (i + ng - 2 + 1)%Z with (i + ng - 1)%Z in W by lia. replace (i + ng - 2)%Z with (i - 1 + ng - 1)%Z in W by lia. exact W.
Qed.
End Rhs.
