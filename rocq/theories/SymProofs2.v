(** Corresponding problems: whole steps of the 1D classic solver. *)
From Verif Require Import Base BCModel BCSpec BCProofs LimiterModel LimiterSpec LimiterProofs
  Classic1DModel Classic1DSpec Classic1DProofs Classic1DProofs2 Classic1DProofs3 Classic1DProofs5 TimeModel ControllerModel SymSpec SymProofs.

Section Ghosted.
Variables (pow : Q -> Q -> Q) (undef : Q -> Q -> Z -> Q) (L : lang) (g : change) (C C2 : settings).
Hypothesis HG : sensible g C.
Hypothesis HC : corresponding g C C2.
Hypothesis HT : c_dt C2 == g_time g * c_dt C.
Hypothesis HL : plain_limiters L C.
Hypothesis Hcapa : capa_in_aux C.
Hypothesis HW : no_standing_fwaves g L C.
Hypothesis Hng : (2 <= c_ng C)%nat.
Notation mir := (g_mirror g).
Notation neq := (c_neq C).
Notation nw := (c_nw C).
Notation naux := (c_naux C).
Notation ng := (Z.of_nat (c_ng C)).
Notation mx := (ncells (c_bc C)).
Notation mu := (g_speed g).
Variables qbc auxbc qbc2 auxbc2 : Z -> Z -> Q.
Notation R := (rps C qbc auxbc).
Notation R2 := (rps C2 qbc2 auxbc2).
Notation d := (dtdx_of C auxbc).
Notation d2 := (dtdx_of C2 auxbc2).

Definition cell_rel (i i2 : Z) : Prop :=
  (forall m, (0 <= m < Z.of_nat neq)%Z -> qbc2 m i2 == g_q g m * qbc m i) /\
  (forall m, (0 <= m < Z.of_nat naux)%Z -> auxbc2 m i2 == g_aux g m * auxbc m i).
Lemma vec_length n (a : Z -> Z -> Q) i : length (vec n a i) = n.
Proof. unfold vec. rewrite map_length, seq_length. reflexivity. Qed.
Lemma image_vec n f (a b : Z -> Z -> Q) i i2 : (forall m, (0 <= m < Z.of_nat n)%Z -> b m i2 == f m * a m i) -> image n f (vec n a i) (vec n b i2).
Proof.
  intro H. split; [apply vec_length|]. split; [apply vec_length|]. intros m Hm.
  rewrite (vec_nth n b m i2 0 Hm), (vec_nth n a m i 0 Hm). apply H. exact Hm.
Qed.
Lemma same_ncells : ncells (c_bc C2) = mx.
Proof. rewrite (co_bc _ _ _ HC). destruct mir; reflexivity. Qed.

Lemma iface_of j j2 : cell_rel j (if mir then j2 + 1 else j2)%Z -> cell_rel (j + 1) (if mir then j2 else j2 + 1)%Z -> iface g C R R2 j j2.
Proof.
  intros [A1 A2] [B1 B2]. pose proof (co_rp _ _ _ HC) as K.
  pose proof (K _ _ _ _ _ _ _ _ (image_vec neq (g_q g) qbc qbc2 _ _ A1) (image_vec neq (g_q g) qbc qbc2 _ _ B1)
                (image_vec naux (g_aux g) auxbc auxbc2 _ _ A2) (image_vec naux (g_aux g) auxbc auxbc2 _ _ B2)) as [E1 E2].
  unfold s_fac, w_fac.
  assert (X : (if mir then c_rp C2 (vec neq qbc2 (if mir then j2 else j2 + 1)) (vec neq qbc2 (if mir then j2 + 1 else j2))
                               (vec naux auxbc2 (if mir then j2 else j2 + 1)) (vec naux auxbc2 (if mir then j2 + 1 else j2))
               else c_rp C2 (vec neq qbc2 (if mir then j2 + 1 else j2)) (vec neq qbc2 (if mir then j2 else j2 + 1))
                               (vec naux auxbc2 (if mir then j2 + 1 else j2)) (vec naux auxbc2 (if mir then j2 else j2 + 1)))%Z =
              c_rp C2 (vec neq qbc2 (j2 + 0)) (vec neq qbc2 (j2 + 0 + 1)) (vec naux auxbc2 (j2 + 0)) (vec naux auxbc2 (j2 + 0 + 1)))
    by (rewrite Z.add_0_r; destruct mir; reflexivity).
  rewrite X in E1, E2.
  constructor; intros; cbn [Classic1DProofs2.rps solve_rps spd amdq apdq wave];
    rewrite (co_neq _ _ _ HC), (co_naux _ _ _ HC), (Z.add_0_r j).
  - exact (E1 p H).
  - exact (proj1 (E2 m H)).
  - exact (proj1 (proj2 (E2 m H))).
  - exact (proj2 (proj2 (E2 m H)) p H0).
Qed.
Lemma dtdx_rel i i2 : cell_rel i i2 -> d2 i2 * mu == d i.
Proof.
  intros [_ A]. destruct HG as (HTm & Hmu & _ & Hk). unfold dtdx_of. rewrite (co_capa _ _ _ HC).
  assert (X : g_time g * / g_time g == 1) by (apply Qmult_inv_r; lra). assert (Y : mu * / mu == 1) by (apply Qmult_inv_r; lra).
  destruct (c_capa C) as [k|] eqn:E; cbn [option_map py_dtdx].
  - rewrite (A k) by (apply Hcapa; exact E). rewrite (Hk k eq_refl), HT, (co_dx _ _ _ HC). unfold Qdiv. rewrite !Qinv_mult_distr.
    setoid_replace (g_time g * c_dt C * (/ g_time g * / mu * / c_dx C * (/ 1 * / auxbc k i)) * mu)
      with ((g_time g * / g_time g) * (mu * / mu) * (c_dt C * (/ c_dx C * / auxbc k i)) * / 1) by ring.
    rewrite X, Y. setoid_replace (/ 1) with 1 by reflexivity. ring.
  - rewrite HT, (co_dx _ _ _ HC). unfold Qdiv. rewrite !Qinv_mult_distr.
    setoid_replace (g_time g * c_dt C * (/ g_time g * / mu * / c_dx C) * mu)
      with ((g_time g * / g_time g) * (mu * / mu) * (c_dt C * / c_dx C)) by ring.
    rewrite X, Y. ring.
Qed.

Lemma local_only : local_limiters_only pow L C.
Proof.
  intros E mw f Hmw Hf. pose proof (HL mw Hmw) as Hn. rewrite E in Hn. destruct (python_limiter pow _ f Hn Hf) as (phi & -> & _).
  apply map2_cell_by_cell.
Qed.
Lemma local_only2 : local_limiters_only pow L C2.
Proof.
  intros E mw f Hmw Hf. rewrite (co_nw _ _ _ HC) in Hmw. rewrite (co_mthlim _ _ _ HC) in Hf. exact (local_only E mw f Hmw Hf).
Qed.

Definition dir (k : Z) : Z := if mir then (- k)%Z else k.
Lemma cell_update q' c q2' c2 m i i2 :
  kernel pow undef L C qbc auxbc = Some (q', c) -> kernel pow undef L C2 qbc2 auxbc2 = Some (q2', c2) ->
  (0 <= m < Z.of_nat neq)%Z -> (ng <= i < ng + mx)%Z -> (ng <= i2 < ng + mx)%Z ->
  (forall k, (-2 <= k <= 2)%Z -> cell_rel (i + k) (i2 + dir k)) -> q2' m i2 == g_q g m * q' m i.
Proof.
  intros HK HK2 Hm Hi Hi2 HS.
  assert (Hn2 : (2 <= c_ng C2)%nat) by (rewrite (co_ng _ _ _ HC); exact Hng).
  rewrite (kernel_form pow undef C L _ _ _ _ Hng HK m i Hi).
  rewrite (kernel_form pow undef C2 L _ _ _ _ Hn2 HK2 m i2) by (rewrite (co_ng _ _ _ HC), same_ncells; exact Hi2).
  assert (S' : forall a b, (if mir then a + b = i + i2 else a - b = i - i2)%Z -> (-2 <= a - i <= 2)%Z -> cell_rel a b).
  { intros a b E Ha. specialize (HS (a - i)%Z Ha). replace (i + (a - i))%Z with a in HS by lia.
    replace (i2 + dir (a - i))%Z with b in HS by (unfold dir; destruct mir; lia). exact HS. }
  assert (IF : forall a b, (if mir then a + b = i + i2 - 1 else a - b = i - i2)%Z -> (-2 <= a - i <= 1)%Z -> iface g C R R2 a b).
  { intros a b E Ha. apply iface_of; apply S'; destruct mir; lia. }
  assert (DD : forall a b, (if mir then a + b = i + i2 else a - b = i - i2)%Z -> (-2 <= a - i <= 2)%Z -> d2 b * mu == d a).
  { intros a b E Ha. apply dtdx_rel. apply S'; assumption. }
  assert (CR : forall e e2, (if mir then e + e2 = i + i2 + 1 else e - e2 = i - i2)%Z -> (i <= e <= i + 1)%Z ->
     corr (c_nw C2) (pre C2 L) (facl pow undef C2 L d2 R2) d2 R2 m e2 ==
     (if mir then -(1) else 1) * mu * g_q g m * corr nw (pre C L) (facl pow undef C L d R) d R m e).
  { intros e e2 E He. apply corr_rel; try assumption.
    - apply IF; [unfold dn2; destruct mir; lia|lia].
    - apply IF; [destruct mir; lia|lia].
    - apply IF; [unfold up2; destruct mir; lia|lia].
    - destruct mir eqn:Em; split; apply DD; lia.
    - intros p Hp M F Fo. cbn [Classic1DProofs2.rps solve_rps spd]. apply (HW M F Fo). exact Hp. }
  unfold update.
  assert (F1 : forall e, (ng <= e <= ng + mx)%Z -> corr nw (pre C L) (fac pow undef C L d R) d R m e = corr nw (pre C L) (facl pow undef C L d R) d R m e)
    by (intros; apply corr_facl; [exact Hng|exact local_only|assumption]).
  assert (F2 : forall e, (ng <= e <= ng + mx)%Z -> corr (c_nw C2) (pre C2 L) (fac pow undef C2 L d2 R2) d2 R2 m e = corr (c_nw C2) (pre C2 L) (facl pow undef C2 L d2 R2) d2 R2 m e)
    by (intros; apply corr_facl; [exact Hn2|exact local_only2|rewrite (co_ng _ _ _ HC), same_ncells; assumption]).
  rewrite !F1, !F2 by lia.
  assert (ES : second C2 L = second C L) by (unfold second; rewrite (co_order _ _ _ HC); reflexivity). rewrite ES.
  destruct (S' i i2 ltac:(destruct mir; lia) ltac:(lia)) as [Eq _]. rewrite (Eq m Hm).
  pose proof (DD i i2 ltac:(destruct mir; lia) ltac:(lia)) as Di.
  destruct mir eqn:Em.
  - pose proof (if_ap _ _ _ _ _ _ (IF i (i2 - 1)%Z ltac:(lia) ltac:(lia)) m Hm) as E1.
    pose proof (if_am _ _ _ _ _ _ (IF (i - 1)%Z i2 ltac:(lia) ltac:(lia)) m Hm) as E2. rewrite Em in E1, E2.
    destruct (second C L); rewrite <- Di, E1, E2; [rewrite (CR i (i2 + 1)%Z), (CR (i + 1)%Z i2) by lia|]; ring.
  - pose proof (if_ap _ _ _ _ _ _ (IF (i - 1)%Z (i2 - 1)%Z ltac:(lia) ltac:(lia)) m Hm) as E1.
    pose proof (if_am _ _ _ _ _ _ (IF i i2 ltac:(lia) ltac:(lia)) m Hm) as E2. rewrite Em in E1, E2.
    destruct (second C L); rewrite <- Di, E1, E2; [rewrite (CR i i2), (CR (i + 1)%Z (i2 + 1)%Z) by lia|]; ring.
Qed.

(** The Courant number *)
Lemma courant_rel p j j2 : (0 <= p < Z.of_nat nw)%Z ->
  cell_rel j (if mir then j2 + 1 else j2)%Z -> cell_rel (j + 1) (if mir then j2 else j2 + 1)%Z ->
  (forall x, In x (courant d R p j) -> exists y, In y (courant d2 R2 p j2) /\ y == x) /\
  (forall y, In y (courant d2 R2 p j2) -> exists x, In x (courant d R p j) /\ y == x).
Proof.
  intros Hp HA HB. pose proof (if_s _ _ _ _ _ _ (iface_of j j2 HA HB) p Hp) as E. unfold s_fac in E.
  pose proof (dtdx_rel _ _ HA) as D1. pose proof (dtdx_rel _ _ HB) as D2.
  assert (X : if mir then d2 (j2 + 1)%Z * spd R2 p j2 == - d j * spd R p j /\ - d2 j2 * spd R2 p j2 == d (j + 1)%Z * spd R p j
              else d2 (j2 + 1)%Z * spd R2 p j2 == d (j + 1)%Z * spd R p j /\ - d2 j2 * spd R2 p j2 == - d j * spd R p j).
  { destruct mir; rewrite E, <- D1, <- D2; split; ring. }
  unfold courant. destruct mir, X as [X1 X2]; split; intros z [<-|[<-|[]]]; eexists; (split; [|first [exact X1|exact X2|symmetry; exact X1|symmetry; exact X2]]); cbn; auto.
Qed.
Lemma cfl_rel q' c q2' c2 : (0 <= mx)%Z ->
  kernel pow undef L C qbc auxbc = Some (q', c) -> kernel pow undef L C2 qbc2 auxbc2 = Some (q2', c2) ->
  (forall j, (first_iface C L <= j < ng + mx)%Z -> exists j2, (first_iface C L <= j2 < ng + mx)%Z /\
     cell_rel j (if mir then j2 + 1 else j2)%Z /\ cell_rel (j + 1) (if mir then j2 else j2 + 1)%Z) ->
  (forall j2, (first_iface C L <= j2 < ng + mx)%Z -> exists j, (first_iface C L <= j < ng + mx)%Z /\
     cell_rel j (if mir then j2 + 1 else j2)%Z /\ cell_rel (j + 1) (if mir then j2 else j2 + 1)%Z) ->
  c2 == c.
Proof.
  intros Hmx HK HK2 HA HB.
  destruct (kernel_cfl_fst pow undef C L _ _ _ _ HK Hmx) as (l & M & I).
  destruct (kernel_cfl_fst pow undef C2 L _ _ _ _ HK2) as (l2 & M2 & I2); [rewrite same_ncells; exact Hmx|].
  assert (EF : first_iface C2 L = first_iface C L) by (unfold first_iface; rewrite (co_ng _ _ _ HC); reflexivity).
  rewrite EF, (co_ng _ _ _ HC), same_ncells, (co_nw _ _ _ HC) in I2.
  apply Qle_antisym.
  - apply (is_max_le _ _ _ _ _ _ M2 M); [lra|]. intros x Hx. apply I2 in Hx. destruct Hx as (p & j2 & Hp & Hj2 & Hx).
    destruct (HB j2 Hj2) as (j & Hj & A & B). destruct (courant_rel p j j2 Hp A B) as [_ K]. destruct (K x Hx) as (y & Hy & E).
    exists y. split; [apply I; exists p, j; auto|lra].
  - apply (is_max_le _ _ _ _ _ _ M M2); [lra|]. intros x Hx. apply I in Hx. destruct Hx as (p & j & Hp & Hj & Hx).
    destruct (HA j Hj) as (j2 & Hj2 & A & B). destruct (courant_rel p j j2 Hp A B) as [K _]. destruct (K x Hx) as (y & Hy & E).
    exists y. split; [apply I2; exists p, j2; auto|lra].
Qed.
Lemma kernel_none : (forall i, (0 <= i < mx + 2 * ng)%Z -> exists i2, (0 <= i2 < mx + 2 * ng)%Z /\ cell_rel i i2) ->
  kernel pow undef L C qbc auxbc = None -> kernel pow undef L C2 qbc2 auxbc2 = None.
Proof.
  intros HA HK. destruct (kernel_stopped pow undef C L qbc auxbc HK) as (EL & k & i & Ek & Hi & Hle). rewrite EL. cbn [kernel].
  destruct (HA i Hi) as (i2 & Hi2 & _ & A). rewrite (co_capa _ _ _ HC), Ek. cbn [option_map]. unfold f_dtdx.
  rewrite (co_ng _ _ _ HC), same_ncells.
  replace (forallb _ _) with false; [reflexivity|]. symmetry. apply not_true_iff_false. rewrite forallb_forall. intro F.
  specialize (F (i2 - ng + 1)%Z). rewrite zrange_in in F. specialize (F ltac:(lia)). apply qltb_lt in F.
  replace (i2 - ng + 1 + ng - 1)%Z with i2 in F by lia. rewrite (A k) in F by (apply Hcapa; exact Ek).
  destruct HG as (_ & _ & _ & H1). rewrite (H1 k Ek) in F. lra.
Qed.
Lemma kernel_none2 : (forall i2, (0 <= i2 < mx + 2 * ng)%Z -> exists i, (0 <= i < mx + 2 * ng)%Z /\ cell_rel i i2) ->
  kernel pow undef L C2 qbc2 auxbc2 = None -> kernel pow undef L C qbc auxbc = None.
Proof.
  intros HA HK. destruct (kernel_stopped pow undef C2 L qbc2 auxbc2 HK) as (EL & k & i2 & Ek & Hi2 & Hle). rewrite EL. cbn [kernel].
  rewrite (co_ng _ _ _ HC), same_ncells in Hi2. rewrite (co_capa _ _ _ HC) in Ek.
  destruct (HA i2 Hi2) as (i & Hi & _ & A). rewrite Ek. cbn [option_map]. unfold f_dtdx.
  replace (forallb _ _) with false; [reflexivity|]. symmetry. apply not_true_iff_false. rewrite forallb_forall. intro F.
  specialize (F (i - ng + 1)%Z). rewrite zrange_in in F. specialize (F ltac:(lia)). apply qltb_lt in F.
  replace (i - ng + 1 + ng - 1)%Z with i in F by lia. rewrite (A k) in Hle by (apply Hcapa; exact Ek).
  destruct HG as (_ & _ & _ & H1). rewrite (H1 k Ek) in Hle. lra.
Qed.
End Ghosted.
