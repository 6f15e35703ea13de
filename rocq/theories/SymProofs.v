(** Corresponding problems: the kernels. *)
From Verif Require Import Base BCModel BCSpec BCProofs LimiterModel LimiterSpec LimiterProofs
  Classic1DModel Classic1DSpec Classic1DProofs Classic1DProofs2 Classic1DProofs3 Classic1DProofs5 TimeModel ControllerModel SymSpec.

(** ** Comparisons and limiters respect equality *)
Lemma qltb_m a a' b b' : a == a' -> b == b' -> qltb a b = qltb a' b'.
Proof.
  intros H1 H2. destruct (qltb a' b') eqn:E; [apply qltb_lt in E; apply qltb_lt|apply qltb_ge in E; apply qltb_ge]; lra.
Qed.
Lemma qleb_m a a' b b' : a == a' -> b == b' -> qleb a b = qleb a' b'.
Proof.
  intros H1 H2. destruct (qleb a' b') eqn:E; [apply qleb_le in E; apply qleb_le|apply qleb_gt in E; apply qleb_gt]; lra.
Qed.
Lemma qeqb_m a a' b b' : a == a' -> b == b' -> qeqb a b = qeqb a' b'.
Proof.
  intros H1 H2. destruct (qeqb a' b') eqn:E; [apply qeqb_eq in E; apply qeqb_eq|apply qeqb_neq in E; apply qeqb_neq].
  - rewrite H1, H2. exact E.
  - intro K. apply E. rewrite <- H1, <- H2. exact K.
Qed.
Lemma qltb_scale k a b : 0 < k -> qltb (k * a) (k * b) = qltb a b.
Proof.
  intro H. destruct (qltb a b) eqn:E; [apply qltb_lt in E; apply qltb_lt|apply qltb_ge in E; apply qltb_ge].
  - apply Qmult_lt_l; assumption.
  - apply Qmult_le_l; assumption.
Qed.
Lemma qleb_scale k a b : 0 < k -> qleb (k * a) (k * b) = qleb a b.
Proof.
  intro H. destruct (qleb a b) eqn:E; [apply qleb_le in E; apply qleb_le|apply qleb_gt in E; apply qleb_gt].
  - apply Qmult_le_l; assumption.
  - apply Qmult_lt_l; assumption.
Qed.
#[global] Instance pymin_m : Proper (Qeq ==> Qeq ==> Qeq) pymin.
Proof. intros a a' H b b' H'. unfold pymin. rewrite (qltb_m b b' a a' H' H). destruct (qltb b' a'); assumption. Qed.
#[global] Instance pymax_m : Proper (Qeq ==> Qeq ==> Qeq) pymax.
Proof. intros a a' H b b' H'. unfold pymax. rewrite (qltb_m a a' b b' H H'). destruct (qltb a' b'); assumption. Qed.
#[global] Instance pymin3_m : Proper (Qeq ==> Qeq ==> Qeq ==> Qeq) pymin3.
Proof. intros a a' H b b' H' c c' H''. unfold pymin3. rewrite H, H', H''. reflexivity. Qed.
#[global] Instance pymax3_m : Proper (Qeq ==> Qeq ==> Qeq ==> Qeq) pymax3.
Proof. intros a a' H b b' H' c c' H''. unfold pymax3. rewrite H, H', H''. reflexivity. Qed.

Definition respects2 (phi : Q -> Q -> Q) : Prop := forall x x' y y', x == x' -> y == y' -> phi x y == phi x' y'.
Lemma python_limiter pow n f : (0 <= n <= 16)%Z -> limiter_functions pow n = Some f -> exists phi, f = map2 phi /\ respects2 phi.
Proof.
  intros Hn Hf.
  assert (K : n = 0%Z \/ n = 1%Z \/ n = 2%Z \/ n = 3%Z \/ n = 4%Z \/ n = 5%Z \/ n = 6%Z \/ n = 7%Z \/ n = 8%Z \/ n = 9%Z \/ n = 10%Z \/ n = 11%Z
    \/ n = 12%Z \/ n = 13%Z \/ n = 14%Z \/ n = 15%Z \/ n = 16%Z) by lia.
  repeat match type of K with _ \/ _ => destruct K as [K|K] end;
    subst n; cbn [limiter_functions] in Hf; try discriminate Hf; injection Hf as <-; eexists; (split; [reflexivity|]);
    intros x x' y y' Hx Hy;
    unfold minmod, superbee_py, vanleer, mc, beam_warming, fromm, albada2, albada3, vanleer_klein, roe_third, arora_roe, theta_limiter, cfl_superbee, cfl_superbee_theta; cbv zeta;
    rewrite ?Hx, ?Hy; reflexivity.
Qed.
Lemma fortran_limiter n a a' b b' k : (1 <= n <= 5)%Z -> ~ k == 0 -> a' == k * a -> b' == k * b ->
  exists p p', philim a b n = Some p /\ philim a' b' n = Some p' /\ p' == p.
Proof.
  intros Hn Hk Ha Hb.
  assert (R : b' / a' == b / a).
  { rewrite Ha, Hb. unfold Qdiv. rewrite Qinv_mult_distr.
    assert (X : k * / k == 1) by (apply Qmult_inv_r; exact Hk).
    setoid_replace (k * b * (/ k * / a)) with ((k * / k) * (b * / a)) by ring. rewrite X. ring. }
  assert (K : n = 1%Z \/ n = 2%Z \/ n = 3%Z \/ n = 4%Z \/ n = 5%Z) by lia.
  repeat match type of K with _ \/ _ => destruct K as [K|K] end;
    subst n; cbn [philim]; eexists; eexists; (split; [reflexivity|]); (split; [reflexivity|]); cbv zeta; rewrite R; reflexivity.
Qed.

(** ** One cell of the kernels *)
Section Kernel.
Variables (pow : Q -> Q -> Q) (undef : Q -> Q -> Z -> Q) (L : lang) (g : change) (C C2 : settings).
Hypothesis HG : sensible g C.
Hypothesis HC : corresponding g C C2.
Hypothesis HT : c_dt C2 == g_time g * c_dt C.
Hypothesis HL : plain_limiters L C.
Hypothesis Hcapa : capa_in_aux C.
Notation mir := (g_mirror g).
Notation neq := (c_neq C).
Notation nw := (c_nw C).
Notation mu := (g_speed g).

Definition s_fac : Q := if mir then - mu else mu.
Definition w_fac : Q := if c_fwave C then mu else if mir then -(1) else 1.
Lemma mu_pos : 0 < mu. Proof. destruct HG as (_ & H & _). exact H. Qed.
Lemma w_fac_square : 0 < w_fac * w_fac.
Proof.
  unfold w_fac. pose proof mu_pos. destruct (c_fwave C); [apply Qmul_pos; assumption|]. destruct mir; reflexivity.
Qed.

(** Interfaces j and j2 that correspond *)
Record iface (R R2 : rpdata) (j j2 : Z) : Prop := mkIface {
  if_s : forall p, (0 <= p < Z.of_nat nw)%Z -> spd R2 p j2 == s_fac * spd R p j;
  if_am : forall m, (0 <= m < Z.of_nat neq)%Z -> amdq R2 m j2 == mu * g_q g m * (if mir then apdq R m j else amdq R m j);
  if_ap : forall m, (0 <= m < Z.of_nat neq)%Z -> apdq R2 m j2 == mu * g_q g m * (if mir then amdq R m j else apdq R m j);
  if_w : forall m p, (0 <= m < Z.of_nat neq)%Z -> (0 <= p < Z.of_nat nw)%Z -> wave R2 m p j2 == w_fac * g_q g m * wave R m p j }.

Lemma dot_rel R R2 p a a2 b b2 : (0 <= p < Z.of_nat nw)%Z -> iface R R2 a a2 -> iface R R2 b b2 -> forall k,
  (forall m, (0 <= m < Z.of_nat neq)%Z -> g_q g m * g_q g m == k) ->
  zsum 0 neq (fun m => wave R2 m p a2 * wave R2 m p b2) == w_fac * w_fac * k * zsum 0 neq (fun m => wave R m p a * wave R m p b).
Proof.
  intros Hp HA HB k Hk. rewrite <- zsum_scale. apply zsum_eq. intros m Hm.
  rewrite (if_w _ _ _ _ HA m p) by lia. rewrite (if_w _ _ _ _ HB m p) by lia. rewrite <- (Hk m) by lia. ring.
Qed.
Lemma dot_comm (f h : Z -> Q) n : zsum 0 n (fun m => f m * h m) == zsum 0 n (fun m => h m * f m).
Proof. apply zsum_eq. intros. ring. Qed.

Lemma speed_sign R R2 p j j2 : (0 <= p < Z.of_nat nw)%Z -> iface R R2 j j2 -> (mir = true -> ~ spd R p j == 0) ->
  qltb 0 (spd R2 p j2) = (if mir then negb (qltb 0 (spd R p j)) else qltb 0 (spd R p j)).
Proof.
  intros Hp HI Hz. pose proof mu_pos as Hmu. pose proof (if_s _ _ _ _ HI p Hp) as E. unfold s_fac in E.
  destruct mir.
  - specialize (Hz eq_refl). destruct (qltb 0 (spd R p j)) eqn:K; cbn [negb].
    + apply qltb_lt in K. apply qltb_ge. rewrite E. pose proof (Qmul_pos mu _ Hmu K). lra.
    + apply qltb_ge in K. apply qltb_lt. rewrite E.
      assert (X : 0 < - spd R p j) by (destruct (Qlt_le_dec 0 (- spd R p j)); [assumption|exfalso; apply Hz; lra]).
      pose proof (Qmul_pos mu _ Hmu X). lra.
  - rewrite (qltb_m 0 (mu * 0) _ _ ltac:(ring) E). apply qltb_scale. exact Hmu.
Qed.
Definition up2 (j2 : Z) : Z := if mir then (j2 - 1)%Z else (j2 + 1)%Z.
Definition dn2 (j2 : Z) : Z := if mir then (j2 + 1)%Z else (j2 - 1)%Z.

Lemma facl_rel d d2 R R2 p j j2 : (0 <= p < Z.of_nat nw)%Z ->
  iface R R2 (j - 1) (dn2 j2) -> iface R R2 j j2 -> iface R R2 (j + 1) (up2 j2) ->
  (if mir then d2 j2 * mu == d (j + 1)%Z /\ d2 (j2 + 1)%Z * mu == d j else d2 j2 * mu == d j /\ d2 (j2 + 1)%Z * mu == d (j + 1)%Z) ->
  (mir = true -> ~ spd R p j == 0) ->
  facl pow undef C2 L d2 R2 p j2 == facl pow undef C L d R p j.
Proof.
  intros Hp H1 H2 H3 Hd Hz. destruct HG as (_ & Hmu & [(k & Hk & Hq)|HZ] & _).
  2: { specialize (HZ p Hp). assert (X : forall D' (d' : Z -> Q) R' j', c_mthlim D' p = 0%Z -> facl pow undef D' L d' R' p j' = 1).
    { intros D' d' R' j' E0. destruct L; cbn [facl]; [rewrite E0; destruct (any_limiter _ _); reflexivity|].
      unfold fac, f_fac. rewrite E0. destruct (any_limiter _ _); reflexivity. }
    rewrite (X C d R j HZ), (X C2 d2 R2 j2); [reflexivity|]. rewrite (co_mthlim _ _ _ HC). exact HZ. }
  set (K := w_fac * w_fac * k). assert (HK : 0 < K) by (apply Qmul_pos; [exact w_fac_square|exact Hk]).
  pose proof (dot_rel R R2 p j j2 j j2 Hp H2 H2 k Hq) as E2. fold K in E2.
  pose proof (speed_sign R R2 p j j2 Hp H2 Hz) as ES.
  assert (EZ : forall x y, x == K * y -> qeqb x 0 = qeqb y 0).
  { intros x y E. destruct (qeqb y 0) eqn:Ey; [apply qeqb_eq in Ey; apply qeqb_eq; rewrite E, Ey; ring|].
    apply qeqb_neq in Ey. apply qeqb_neq. intro X. apply Ey. rewrite E in X. destruct (Qmult_integral _ _ X); [lra|assumption]. }
  assert (ED : (if qltb 0 (spd R2 p j2) then zsum 0 neq (fun m => wave R2 m p (j2 - 1)%Z * wave R2 m p j2)
                else zsum 0 neq (fun m => wave R2 m p j2 * wave R2 m p (j2 + 1)%Z)) ==
               K * (if qltb 0 (spd R p j) then zsum 0 neq (fun m => wave R m p (j - 1)%Z * wave R m p j)
                else zsum 0 neq (fun m => wave R m p j * wave R m p (j + 1)%Z))).
  { rewrite ES. unfold up2, dn2 in *. destruct mir.
    - destruct (qltb 0 (spd R p j)); cbn [negb].
      + rewrite (dot_comm (fun m => wave R m p (j - 1)%Z) (fun m => wave R m p j)). apply (dot_rel R R2 p j j2 (j - 1)%Z (j2 + 1)%Z Hp H2 H1 k Hq).
      + rewrite (dot_comm (fun m => wave R m p j) (fun m => wave R m p (j + 1)%Z)). apply (dot_rel R R2 p (j + 1)%Z (j2 - 1)%Z j j2 Hp H3 H2 k Hq).
    - destruct (qltb 0 (spd R p j)); [apply (dot_rel R R2 p (j - 1)%Z (j2 - 1)%Z j j2 Hp H1 H2 k Hq)|apply (dot_rel R R2 p j j2 (j + 1)%Z (j2 + 1)%Z Hp H2 H3 k Hq)]. }
  pose proof (HL p Hp) as Hn. destruct HC as [Cneq Cnw Cnaux Cng Cfw Cord Cml Ccapa _ _ _ _].
  destruct L; cbn [facl].
  - rewrite Cml, Cnw, Cneq. destruct (any_limiter nw (c_mthlim C)); [|reflexivity].
    destruct (limiter_functions pow (c_mthlim C p)) as [f|] eqn:Ef; [|reflexivity].
    destruct (python_limiter pow _ f Hn Ef) as (phi & -> & Hphi).
    change (norm2 neq (wave R2) p j2) with (zsum 0 neq (fun m => wave R2 m p j2 * wave R2 m p j2)).
    change (norm2 neq (wave R) p j) with (zsum 0 neq (fun m => wave R m p j * wave R m p j)).
    rewrite (EZ _ _ E2). destruct (qeqb (zsum 0 neq (fun m => wave R m p j * wave R m p j)) 0) eqn:En; [reflexivity|].
    cbn [map2 nth]. apply Hphi.
    + unfold ratio. cbv zeta.
      change (norm2 neq (wave R2) p j2) with (zsum 0 neq (fun m => wave R2 m p j2 * wave R2 m p j2)).
      change (norm2 neq (wave R) p j) with (zsum 0 neq (fun m => wave R m p j * wave R m p j)).
      rewrite (EZ _ _ E2), En. unfold dotls. replace (j2 - 1 + 1)%Z with j2 by lia. replace (j - 1 + 1)%Z with j by lia.
      assert (A : forall (w : Z -> Z -> Z -> Q) b x y z, (if b : bool then zsum 0 neq (fun m => w m p x * w m p y) else zsum 0 neq (fun m => w m p z * w m p x)) ==
                  (if b then zsum 0 neq (fun m => w m p y * w m p x) else zsum 0 neq (fun m => w m p x * w m p z))).
      { intros w b x y z. destruct b; apply dot_comm. }
      rewrite (A (wave R2)), (A (wave R)), ED, E2.
      apply qeqb_neq in En. field. split; [exact En|lra].
    + unfold local_cfl. rewrite ES. pose proof (if_s _ _ _ _ H2 p Hp) as E. unfold s_fac in E.
      destruct mir, Hd as [D1 D2]; destruct (qltb 0 (spd R p j)); cbn [negb]; rewrite E; rewrite <- ?D1, <- ?D2;
        first [rewrite <- Qabs_opp; apply Qabs_wd; ring|apply Qabs_wd; ring].
  - unfold fac, f_fac. rewrite Cml, Cnw, Cneq. destruct (any_limiter nw (c_mthlim C)); [|reflexivity].
    destruct (Z.eqb_spec (c_mthlim C p) 0) as [|Hne]; [reflexivity|]. unfold f_factor. cbv zeta.
    rewrite (EZ _ _ E2). destruct (qeqb (zsum 0 neq (fun m => wave R m p j * wave R m p j)) 0); [reflexivity|].
    unfold f_phi. destruct (fortran_limiter (c_mthlim C p) _ _ _ _ K ltac:(lia) ltac:(lra) E2 ED) as (x & y & -> & -> & E). exact E.
Qed.

Hypothesis HW : no_standing_fwaves g L C.
Lemma pre_rel s s2 : s2 == s_fac * s -> (mir = true -> c_fwave C = true -> L = Fortran -> ~ s == 0) ->
  pre C2 L s2 * w_fac == (if mir then -(1) else 1) * mu * pre C L s.
Proof.
  intros E Hs. pose proof mu_pos as Hmu. unfold pre, py_pre, f_pre, w_fac, s_fac in *. rewrite (co_fwave _ _ _ HC).
  assert (N : forall x, 0 < x -> 0 < mu * x) by (intros; apply Qmul_pos; assumption).
  destruct (c_fwave C).
  - destruct L.
    + unfold npsign. destruct (Q_dec s 0) as [[Hn|Hp]|H0].
      * specialize (N (- s) ltac:(lra)). destruct mir.
        -- rewrite (proj2 (qltb_ge s2 0)) by lra. rewrite (proj2 (qltb_lt 0 s2)) by lra. rewrite (proj2 (qltb_lt s 0)) by lra. ring.
        -- rewrite (proj2 (qltb_lt s2 0)) by lra. rewrite (proj2 (qltb_lt s 0)) by lra. ring.
      * specialize (N s Hp). destruct mir.
        -- rewrite (proj2 (qltb_lt s2 0)) by lra. rewrite (proj2 (qltb_ge s 0)) by lra. rewrite (proj2 (qltb_lt 0 s)) by lra. ring.
        -- rewrite (proj2 (qltb_ge s2 0)) by lra. rewrite (proj2 (qltb_lt 0 s2)) by lra. rewrite (proj2 (qltb_ge s 0)) by lra. rewrite (proj2 (qltb_lt 0 s)) by lra. ring.
      * assert (Z2 : s2 == 0) by (rewrite E, H0; ring).
        rewrite (proj2 (qltb_ge s2 0)) by lra. rewrite (proj2 (qltb_ge 0 s2)) by lra. rewrite (proj2 (qltb_ge s 0)) by lra. rewrite (proj2 (qltb_ge 0 s)) by lra. ring.
    + unfold dsign1. destruct (Q_dec s 0) as [[Hn|Hp]|H0].
      * specialize (N (- s) ltac:(lra)). destruct mir.
        -- rewrite (proj2 (qltb_ge s2 0)) by lra. rewrite (proj2 (qltb_lt s 0)) by lra. ring.
        -- rewrite (proj2 (qltb_lt s2 0)) by lra. rewrite (proj2 (qltb_lt s 0)) by lra. ring.
      * specialize (N s Hp). destruct mir.
        -- rewrite (proj2 (qltb_lt s2 0)) by lra. rewrite (proj2 (qltb_ge s 0)) by lra. ring.
        -- rewrite (proj2 (qltb_ge s2 0)) by lra. rewrite (proj2 (qltb_ge s 0)) by lra. ring.
      * destruct mir; [exfalso; exact (Hs eq_refl eq_refl eq_refl H0)|].
        assert (Z2 : s2 == 0) by (rewrite E, H0; ring).
        rewrite (proj2 (qltb_ge s2 0)) by lra. rewrite (proj2 (qltb_ge s 0)) by lra. ring.
  - assert (A : Qabs s2 == mu * Qabs s).
    { rewrite E. rewrite Qabs_Qmult. destruct mir; [rewrite Qabs_opp|]; rewrite (Qabs_pos mu) by lra; reflexivity. }
    destruct L; rewrite A; destruct mir; ring.
Qed.

(** Correction fluxes at the left edges of cells e and e2 *)
Lemma corr_rel d d2 R R2 m e e2 : (0 <= m < Z.of_nat neq)%Z ->
  iface R R2 (e - 2) (dn2 (e2 - 1)) -> iface R R2 (e - 1) (e2 - 1) -> iface R R2 e (up2 (e2 - 1)) ->
  (if mir then d2 (e2 - 1)%Z * mu == d e /\ d2 e2 * mu == d (e - 1)%Z else d2 (e2 - 1)%Z * mu == d (e - 1)%Z /\ d2 e2 * mu == d e) ->
  (forall p, (0 <= p < Z.of_nat nw)%Z -> mir = true -> c_fwave C = true -> L = Fortran -> ~ spd R p (e - 1)%Z == 0) ->
  corr (c_nw C2) (pre C2 L) (facl pow undef C2 L d2 R2) d2 R2 m e2 ==
  (if mir then -(1) else 1) * mu * g_q g m * corr nw (pre C L) (facl pow undef C L d R) d R m e.
Proof.
  intros Hm H1 H2 H3 Hd Hz. unfold corr. rewrite (co_nw _ _ _ HC), <- zsum_scale. apply zsum_eq. intros p Hp.
  pose proof (pre_rel _ _ (if_s _ _ _ _ H2 p ltac:(lia)) (Hz p ltac:(lia))) as EP.
  rewrite (if_w _ _ _ _ H2 m p Hm ltac:(lia)).
  assert (EA : Qabs (spd R2 p (e2 - 1)%Z) * ((1 # 2) * (d2 (e2 - 1)%Z + d2 e2)) ==
               Qabs (spd R p (e - 1)%Z) * ((1 # 2) * (d (e - 1)%Z + d e))).
  { rewrite (if_s _ _ _ _ H2 p ltac:(lia)), Qabs_Qmult. pose proof mu_pos.
    setoid_replace (Qabs s_fac) with mu by (unfold s_fac; destruct mir; [rewrite Qabs_opp|]; apply Qabs_pos; lra).
    destruct mir, Hd as [<- <-]; ring. }
  rewrite EA.
  set (om := 1 - Qabs (spd R p (e - 1)%Z) * ((1 # 2) * (d (e - 1)%Z + d e))).
  destruct (Qeq_dec (spd R p (e - 1)%Z) 0) as [H0|H0].
  - (* a standing wave *)
    destruct mir eqn:Emir.
    + assert (P1 : pre C L (spd R p (e - 1)%Z) == 0).
      { specialize (Hz p ltac:(lia) eq_refl). unfold pre, py_pre, f_pre, npsign, dsign1 in *. destruct (c_fwave C), L.
        - rewrite (proj2 (qltb_ge _ 0)) by lra. rewrite (proj2 (qltb_ge 0 _)) by lra. reflexivity.
        - exfalso. exact (Hz eq_refl eq_refl H0).
        - rewrite H0. reflexivity.
        - rewrite H0. reflexivity. }
      assert (P2 : pre C2 L (spd R2 p (e2 - 1)%Z) == 0).
      { rewrite P1 in EP. assert (X : pre C2 L (spd R2 p (e2 - 1)%Z) * w_fac == 0) by (rewrite EP; ring).
        apply Qmult_integral in X. destruct X as [X|X]; [exact X|]. exfalso. pose proof w_fac_square as Y. rewrite X in Y. lra. }
      rewrite P1, P2. ring.
    + assert (F : facl pow undef C2 L d2 R2 p (e2 - 1) == facl pow undef C L d R p (e - 1)).
      { apply facl_rel; [lia| | | | |]; rewrite ?Emir.
        - replace (e - 1 - 1)%Z with (e - 2)%Z by lia. exact H1.
        - exact H2.
        - replace (e - 1 + 1)%Z with e by lia. exact H3.
        - replace (e2 - 1 + 1)%Z with e2 by lia. replace (e - 1 + 1)%Z with e by lia. exact Hd.
        - discriminate. }
      rewrite F.
      setoid_replace ((1 # 2) * pre C2 L (spd R2 p (e2 - 1)%Z) * om * (facl pow undef C L d R p (e - 1)%Z * (w_fac * g_q g m * wave R m p (e - 1)%Z)))
        with (pre C2 L (spd R2 p (e2 - 1)%Z) * w_fac * ((1 # 2) * om * facl pow undef C L d R p (e - 1)%Z * g_q g m * wave R m p (e - 1)%Z)) by ring.
      rewrite EP. ring.
  - assert (F : facl pow undef C2 L d2 R2 p (e2 - 1) == facl pow undef C L d R p (e - 1)).
    { apply facl_rel; [lia| | | | |].
      - replace (e - 1 - 1)%Z with (e - 2)%Z by lia. exact H1.
      - exact H2.
      - replace (e - 1 + 1)%Z with e by lia. exact H3.
      - replace (e2 - 1 + 1)%Z with e2 by lia. replace (e - 1 + 1)%Z with e by lia. exact Hd.
      - intros _. exact H0. }
    rewrite F.
    setoid_replace ((1 # 2) * pre C2 L (spd R2 p (e2 - 1)%Z) * om * (facl pow undef C L d R p (e - 1)%Z * (w_fac * g_q g m * wave R m p (e - 1)%Z)))
      with (pre C2 L (spd R2 p (e2 - 1)%Z) * w_fac * ((1 # 2) * om * facl pow undef C L d R p (e - 1)%Z * g_q g m * wave R m p (e - 1)%Z)) by ring.
    rewrite EP. ring.
Qed.
End Kernel.
