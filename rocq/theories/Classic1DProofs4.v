(** Proofs about the 1D classic solver, part 4: scalar advection. *)
From Verif Require Import Base BCModel BCSpec BCProofs LimiterModel LimiterSpec LimiterProofs
  Classic1DModel Classic1DSpec Classic1DProofs Classic1DProofs2 Classic1DProofs3.

(** ** Total variation *)
Lemma zsum_le lo n f g : (forall i, (lo <= i < lo + Z.of_nat n)%Z -> f i <= g i) -> zsum lo n f <= zsum lo n g.
Proof.
  induction n; intros H; cbn [zsum]; [lra|].
  assert (zsum lo n f <= zsum lo n g) by (apply IHn; intros; apply H; lia).
  assert (f (lo + Z.of_nat n)%Z <= g (lo + Z.of_nat n)%Z) by (apply H; lia). lra.
Qed.
Lemma zsum_rot n g : (0 < n)%Z -> zsum 0 (Z.to_nat n) (fun i => g ((i + 1) mod n)%Z) == zsum 0 (Z.to_nat n) g.
Proof.
  intros Hn. destruct (Z.to_nat n) as [|k] eqn:E; [lia|].
  rewrite (zsum_first 0 k g). cbn [zsum]. replace ((0 + Z.of_nat k + 1) mod n)%Z with 0%Z.
  - rewrite (zsum_eq 0 k _ (fun i => g (i + 1)%Z)).
    + rewrite (zsum_shift 0 k 1 g). ring.
    + intros i Hi. rewrite Z.mod_small by lia. reflexivity.
  - replace (0 + Z.of_nat k + 1)%Z with n by lia. rewrite Z.mod_same by lia. reflexivity.
Qed.
Lemma pred_succ n i : (0 <= i < n)%Z -> (((i + 1) mod n - 1) mod n = i)%Z.
Proof. intros H. rewrite Zminus_mod_idemp_l. replace (i + 1 - 1)%Z with i by lia. apply Z.mod_small. exact H. Qed.
Lemma succ_pred n i : (0 <= i < n)%Z -> (((i - 1) mod n + 1) mod n = i)%Z.
Proof. intros H. rewrite Zplus_mod_idemp_l. replace (i - 1 + 1)%Z with i by lia. apply Z.mod_small. exact H. Qed.

Lemma finite_choice (P : Z -> Q -> Prop) n : (forall i, (0 <= i < Z.of_nat n)%Z -> exists c, P i c) ->
  exists f, forall i, (0 <= i < Z.of_nat n)%Z -> P i (f i).
Proof.
  induction n; intros H; [exists (fun _ => 0); intros; lia|].
  destruct IHn as [f Hf]; [intros; apply H; lia|]. destruct (H (Z.of_nat n) ltac:(lia)) as [c Hc].
  exists (fun i => if Z.eqb i (Z.of_nat n) then c else f i). intros i Hi.
  destruct (Z.eqb_spec i (Z.of_nat n)) as [->|Hne]; [exact Hc|apply Hf; lia].
Qed.

Lemma Qabs_comb a b x y : 0 <= a -> 0 <= b -> Qabs (a * x + b * y) <= a * Qabs x + b * Qabs y.
Proof.
  intros Ha Hb. eapply Qle_trans; [apply Qabs_triangle|]. rewrite !Qabs_Qmult, (Qabs_pos a Ha), (Qabs_pos b Hb). lra.
Qed.

(** Harten: upwind coefficients in [0,1] imply that the total variation does not increase. *)
Lemma harten_left n P q' : (0 < n)%Z ->
  (forall i, (0 <= i < n)%Z -> exists c, 0 <= c <= 1 /\ q' i == P i - c * (P i - P ((i - 1) mod n)%Z)) ->
  tv n q' <= tv n P.
Proof.
  intros Hn H. destruct (finite_choice (fun i c => 0 <= c <= 1 /\ q' i == P i - c * (P i - P ((i - 1) mod n)%Z)) (Z.to_nat n)) as [c Hc].
  { intros i Hi. apply H. lia. }
  set (D := fun i => P ((i + 1) mod n)%Z - P i).
  assert (M : forall i, (0 <= (i mod n) < n)%Z) by (intros; apply Z.mod_pos_bound; exact Hn).
  unfold tv.
  apply Qle_trans with (zsum 0 (Z.to_nat n) (fun i => (1 - c ((i + 1) mod n)%Z) * Qabs (D i)) +
                        zsum 0 (Z.to_nat n) (fun i => c i * Qabs (D ((i - 1) mod n)%Z))).
  - rewrite <- zsum_plus. apply zsum_le. intros i Hi.
    destruct (Hc i ltac:(lia)) as [C1 E1]. destruct (Hc ((i + 1) mod n)%Z) as [C2 E2]; [specialize (M (i + 1)%Z); lia|].
    rewrite pred_succ in E2 by lia.
    apply Qle_trans with (Qabs ((1 - c ((i + 1) mod n)%Z) * D i + c i * D ((i - 1) mod n)%Z)).
    + rewrite E1, E2. unfold D. rewrite succ_pred by lia.
      match goal with |- Qabs ?x <= Qabs ?y => setoid_replace x with y by ring end. lra.
    + apply Qabs_comb; lra.
  - rewrite <- (zsum_rot n (fun i => c i * Qabs (D ((i - 1) mod n)%Z)) Hn). rewrite <- zsum_plus.
    apply zsum_le. intros i Hi. rewrite pred_succ by lia. fold (D i). lra.
Qed.
Lemma harten_right n P q' : (0 < n)%Z ->
  (forall i, (0 <= i < n)%Z -> exists c, 0 <= c <= 1 /\ q' i == P i + c * (P ((i + 1) mod n)%Z - P i)) ->
  tv n q' <= tv n P.
Proof.
  intros Hn H. destruct (finite_choice (fun i c => 0 <= c <= 1 /\ q' i == P i + c * (P ((i + 1) mod n)%Z - P i)) (Z.to_nat n)) as [c Hc].
  { intros i Hi. apply H. lia. }
  set (D := fun i => P ((i + 1) mod n)%Z - P i).
  assert (M : forall i, (0 <= (i mod n) < n)%Z) by (intros; apply Z.mod_pos_bound; exact Hn).
  unfold tv.
  apply Qle_trans with (zsum 0 (Z.to_nat n) (fun i => c ((i + 1) mod n)%Z * Qabs (D ((i + 1) mod n)%Z)) +
                        zsum 0 (Z.to_nat n) (fun i => (1 - c i) * Qabs (D i))).
  - rewrite <- zsum_plus. apply zsum_le. intros i Hi.
    destruct (Hc i ltac:(lia)) as [C1 E1]. destruct (Hc ((i + 1) mod n)%Z) as [C2 E2]; [specialize (M (i + 1)%Z); lia|].
    apply Qle_trans with (Qabs (c ((i + 1) mod n)%Z * D ((i + 1) mod n)%Z + (1 - c i) * D i)).
    + rewrite E1, E2. unfold D.
      match goal with |- Qabs ?x <= Qabs ?y => setoid_replace x with y by ring end. lra.
    + apply Qabs_comb; lra.
  - rewrite (zsum_rot n (fun i => c i * Qabs (D i)) Hn). rewrite <- zsum_plus.
    apply zsum_le. intros i Hi. fold (D i). lra.
Qed.

(** ** Limited waves *)
(** What a limiter in the TVD region does to a jump [d] whose upwind neighbour is [dm]. *)
Definition tame (nu x d dm : Q) : Prop :=
  exists a b, x == a * d /\ x == b * dm /\ 0 <= a /\ 0 <= b /\ a * (1 - nu) <= 2 /\ b * nu <= 2.
Lemma tame_zero nu x d dm : x == 0 -> tame nu x d dm.
Proof. intros H. exists 0, 0. rewrite H. repeat split; try lra; ring. Qed.
Lemma tame_phi nu phi x d dm r : in_cfl_region nu phi -> r * d == dm -> x == phi r * d -> tame nu x d dm.
Proof.
  intros (A1 & A2 & A3 & A4) Hr Hx. destruct (Qlt_le_dec 0 r) as [H|H].
  - exists (phi r), (phi r / r). split; [exact Hx|].
    assert (Hinv : r * / r == 1) by (apply Qmult_inv_r; lra).
    assert (Hip : 0 < / r) by (apply Qinv_lt_0_compat; exact H).
    split; [rewrite Hx, <- Hr; unfold Qdiv; setoid_replace (phi r * / r * (r * d)) with (phi r * d * (r * / r)) by ring; rewrite Hinv; ring|].
    split; [apply A1|]. split; [unfold Qdiv; apply Qmul_nonneg; [apply A1|lra]|]. split; [apply A3|].
    specialize (A4 r ltac:(lra)). unfold Qdiv. setoid_replace (phi r * / r * nu) with (/ r * (phi r * nu)) by ring.
    setoid_replace 2 with (/ r * (2 * r)) by (setoid_replace (/ r * (2 * r)) with (2 * (r * / r)) by ring; rewrite Hinv; ring).
    apply Qmult_le_l; assumption.
  - apply tame_zero. rewrite Hx, (A2 r H). ring.
Qed.

(** The coefficient of the upwind difference in a second-order step. *)
Lemma harten_coefficient nu x xm d q q' (Hnu : 0 <= nu <= 1) e1 e2 :
  tame nu x e1 d -> tame nu xm d e2 ->
  q' == q - nu * d - (1 # 2) * nu * (1 - nu) * (x - xm) ->
  exists c, 0 <= c <= 1 /\ q' == q - c * d.
Proof.
  intros (a & b & _ & E1 & _ & B1 & _ & B2) (a' & b' & E3 & _ & A1 & _ & A2 & _) E.
  exists (nu + (1 # 2) * nu * (1 - nu) * (b - a')). split; [|rewrite E, E1, E3; ring].
  assert (0 <= nu * (1 - nu)) by (apply Qmul_nonneg; lra).
  assert (P1 : 0 <= nu * (1 - nu) * a') by (apply Qmul_nonneg; lra).
  assert (P2 : 0 <= nu * (1 - nu) * b) by (apply Qmul_nonneg; lra).
  assert (P3 : 0 <= nu * (2 - a' * (1 - nu))) by (apply Qmul_nonneg; lra).
  assert (P4 : 0 <= (1 - nu) * (2 - b * nu)) by (apply Qmul_nonneg; lra).
  split; lra.
Qed.

Section A.
Variable pow : Q -> Q -> Q.
Variable undef : Q -> Q -> Z -> Q.
Variable C : settings.
Variable u : Q.
Hypothesis HA : advection_settings u C.
Notation ng := (Z.of_nat (c_ng C)).
Notation mx := (ncells (c_bc C)).
Notation lam := (c_dt C / c_dx C).

Lemma adv_dtdx auxbc i : dtdx_of C auxbc i = lam.
Proof. destruct HA as (_ & _ & _ & _ & _ & E). unfold dtdx_of. rewrite E. reflexivity. Qed.
Lemma adv_rps qbc auxbc m mw j :
  wave (rps C qbc auxbc) m mw j == qbc 0%Z (j + 1)%Z - qbc 0%Z j /\ spd (rps C qbc auxbc) mw j = u /\
  amdq (rps C qbc auxbc) m j == pymin u 0 * (qbc 0%Z (j + 1)%Z - qbc 0%Z j) /\
  apdq (rps C qbc auxbc) m j == pymax u 0 * (qbc 0%Z (j + 1)%Z - qbc 0%Z j).
Proof.
  destruct HA as (E1 & _ & _ & _ & E2 & _). cbn [rps solve_rps wave spd amdq apdq]. rewrite E1, E2. unfold advection. cbn [vec seq map hd o_wave o_s o_am o_ap].
  rewrite Z.add_0_r. repeat split; reflexivity.
Qed.
(** The limited jump at an interface. *)
Definition xj (L : lang) (qbc auxbc : Z -> Z -> Q) (j : Z) : Q :=
  fac pow undef C L (dtdx_of C auxbc) (rps C qbc auxbc) 0 j * (qbc 0%Z (j + 1)%Z - qbc 0%Z j).

Lemma adv_form L qbc auxbc q' cfl : (2 <= c_ng C)%nat -> kernel pow undef L C qbc auxbc = Some (q', cfl) ->
  forall i, (ng <= i < ng + mx)%Z ->
  q' 0%Z i == qbc 0%Z i - lam * (pymax u 0 * (qbc 0%Z i - qbc 0%Z (i - 1)%Z) + pymin u 0 * (qbc 0%Z (i + 1)%Z - qbc 0%Z i))
   - (if second C L then lam * ((1 # 2) * Qabs u * (1 - Qabs u * lam) * (xj L qbc auxbc i - xj L qbc auxbc (i - 1))) else 0).
Proof.
  intros Hg HK i Hi. rewrite (kernel_form pow undef C L qbc auxbc q' cfl Hg HK 0%Z i Hi). unfold update. rewrite adv_dtdx.
  destruct (adv_rps qbc auxbc 0%Z 0%Z (i - 1)%Z) as (_ & _ & _ & E1). destruct (adv_rps qbc auxbc 0%Z 0%Z i) as (_ & _ & E2 & _).
  rewrite E1, E2. replace (i - 1 + 1)%Z with i by lia.
  assert (K : forall e, corr (c_nw C) (pre C L) (fac pow undef C L (dtdx_of C auxbc) (rps C qbc auxbc)) (dtdx_of C auxbc) (rps C qbc auxbc) 0 e
     == (1 # 2) * Qabs u * (1 - Qabs u * lam) * xj L qbc auxbc (e - 1)).
  { intros e. unfold corr. destruct HA as (_ & -> & _ & Ew & _). cbn [zsum]. change (0 + Z.of_nat 0)%Z with 0%Z.
    destruct (adv_rps qbc auxbc 0%Z 0%Z (e - 1)%Z) as (W & S & _). rewrite S, W, !adv_dtdx.
    assert (P : pre C L u = Qabs u) by (destruct L; cbn [pre]; unfold py_pre, f_pre; rewrite Ew; reflexivity). rewrite P.
    unfold xj. ring. }
  destruct (second C L).
  - rewrite !K. replace (i + 1 - 1)%Z with i by lia. ring.
  - ring.
Qed.

Lemma any_limiter_true : (0 < c_mthlim C 0)%Z -> any_limiter (c_nw C) (c_mthlim C) = true.
Proof. destruct HA as (_ & -> & _). intros H. unfold any_limiter. cbn [seq existsb]. apply orb_true_iff. left. change (Z.of_nat 0) with 0%Z. lia. Qed.

(** Both kernels' limiters are tame on advection. *)
Lemma adv_tame L qbc auxbc nu j : tvd_limiter pow L (c_mthlim C 0) nu -> Qabs (u * lam) == nu -> (1 <= j < mx + 2 * ng - 2)%Z ->
  tame nu (xj L qbc auxbc j) (qbc 0%Z (j + 1)%Z - qbc 0%Z j)
    (if qltb 0 u then qbc 0%Z j - qbc 0%Z (j - 1)%Z else qbc 0%Z (j + 2)%Z - qbc 0%Z (j + 1)%Z).
Proof.
  intros HT Hnu Hj. unfold xj.
  set (D := qbc 0%Z (j + 1)%Z - qbc 0%Z j).
  destruct (Qeq_dec D 0) as [Hz|Hz]; [apply tame_zero; rewrite Hz; ring|].
  assert (En : norm2 (c_neq C) (wave (rps C qbc auxbc)) 0 j == D * D).
  { unfold norm2. destruct HA as (E & _). rewrite E at 1. cbn [zsum]. destruct (adv_rps qbc auxbc (0 + Z.of_nat 0) 0 j) as (W & _). rewrite W. fold D. ring. }
  assert (Hn0 : ~ D * D == 0). { intros H. apply Hz. apply Qmult_integral in H. tauto. }
  assert (Ed : forall k, dotls (c_neq C) (wave (rps C qbc auxbc)) 0 k == (qbc 0%Z (k + 2)%Z - qbc 0%Z (k + 1)%Z) * (qbc 0%Z (k + 1)%Z - qbc 0%Z k)).
  { intros k. unfold dotls. destruct HA as (E & _). rewrite E at 1. cbn [zsum].
    destruct (adv_rps qbc auxbc (0 + Z.of_nat 0) 0 k) as (W & _). destruct (adv_rps qbc auxbc (0 + Z.of_nat 0) 0 (k + 1)%Z) as (W' & _).
    rewrite W, W'. replace (k + 1 + 1)%Z with (k + 2)%Z by lia. ring. }
  set (DM := if qltb 0 u then qbc 0%Z j - qbc 0%Z (j - 1)%Z else qbc 0%Z (j + 2)%Z - qbc 0%Z (j + 1)%Z).
  assert (Es : (if qltb 0 u then dotls (c_neq C) (wave (rps C qbc auxbc)) 0 (j - 1)%Z else dotls (c_neq C) (wave (rps C qbc auxbc)) 0 j) == DM * D).
  { unfold DM, D. destruct (qltb 0 u); rewrite Ed; [|ring]. replace (j - 1 + 2)%Z with (j + 1)%Z by lia. replace (j - 1 + 1)%Z with j by lia. ring. }
  assert (Hsp : spd (rps C qbc auxbc) 0 j = u) by (destruct (adv_rps qbc auxbc 0 0 j) as (_ & S & _); exact S).
  assert (Hq : qeqb (norm2 (c_neq C) (wave (rps C qbc auxbc)) 0 j) 0 = false) by (apply qeqb_neq; rewrite En; exact Hn0).
  destruct L; cbn [tvd_limiter] in HT.
  - destruct HT as (phi & Ef & Hphi).
    assert (Hpos : (0 < c_mthlim C 0)%Z).
    { revert Ef. unfold limiter_functions. destruct (c_mthlim C 0); try discriminate. lia. }
    rewrite (fac_facl pow undef C Python).
    2:{ intros _ mw f Hmw Hf. destruct HA as (_ & E & _). rewrite E in Hmw. replace mw with 0%Z in Hf by lia. rewrite Ef in Hf. injection Hf as <-. apply map2_cell_by_cell. }
    2:{ destruct HA as (_ & -> & _). lia. }
    2:{ exact Hj. }
    cbn [facl]. rewrite any_limiter_true, Ef, Hq by exact Hpos. cbn [map2 nth].
    eapply tame_phi with (r := ratio (c_neq C) (wave (rps C qbc auxbc)) (spd (rps C qbc auxbc)) 0 j).
    + apply (Hphi (local_cfl (spd (rps C qbc auxbc)) (dtdx_of C auxbc) 0 j)).
      unfold local_cfl. rewrite Hsp, !adv_dtdx. destruct (qltb 0 u); exact Hnu.
    + unfold ratio. rewrite Hq, Hsp, Es, En. field. exact Hz.
    + reflexivity.
  - destruct HT as (phi & Hreg & Hp).
    assert (Hpos : (0 < c_mthlim C 0)%Z).
    { specialize (Hp 0 0). revert Hp. unfold philim. destruct (c_mthlim C 0); try discriminate. lia. }
    cbn [fac]. unfold f_fac. rewrite any_limiter_true by exact Hpos. replace (Z.eqb (c_mthlim C 0) 0) with false by lia.
    unfold f_factor. fold (norm2 (c_neq C) (wave (rps C qbc auxbc)) 0 j). rewrite Hq, Hsp. unfold f_phi. rewrite Hp.
    eapply tame_phi; [exact Hreg| |reflexivity].
    assert (Es' : (if qltb 0 u then zsum 0 (c_neq C) (fun m => wave (rps C qbc auxbc) m 0 (j - 1)%Z * wave (rps C qbc auxbc) m 0 j)
        else zsum 0 (c_neq C) (fun m => wave (rps C qbc auxbc) m 0 j * wave (rps C qbc auxbc) m 0 (j + 1)%Z)) == DM * D).
    { rewrite <- Es. destruct (qltb 0 u); unfold dotls; apply zsum_eq; intros; [replace (j - 1 + 1)%Z with j by lia|]; ring. }
    rewrite Es', En. field. exact Hz.
Qed.

(** Every new value is the old one moved towards the upwind neighbour, by at most the whole difference. *)
Theorem adv_convex L qbc auxbc q' cfl nu :
  (2 <= c_ng C)%nat -> 0 <= lam -> Qabs u * lam == nu -> nu <= 1 ->
  second C L = false \/ tvd_limiter pow L (c_mthlim C 0) nu ->
  kernel pow undef L C qbc auxbc = Some (q', cfl) ->
  forall i, (ng <= i < ng + mx)%Z ->
  exists c, 0 <= c <= 1 /\
  q' 0%Z i == qbc 0%Z i - c * (qbc 0%Z i - qbc 0%Z (if qltb 0 u then i - 1 else i + 1)%Z).
Proof.
  intros Hg Hlam Hnu Hnu1 HT HK i Hi. pose proof (adv_form L qbc auxbc q' cfl Hg HK i Hi) as E.
  assert (Hnu0 : 0 <= nu) by (rewrite <- Hnu; apply Qmul_nonneg; [apply Qabs_nonneg|exact Hlam]).
  assert (HN : Qabs (u * lam) == nu) by (rewrite Qabs_Qmult, (Qabs_pos lam Hlam); exact Hnu).
  destruct (qltb 0 u) eqn:Eu.
  - assert (Hu : 0 < u) by (apply qltb_lt; exact Eu).
    assert (M1 : pymax u 0 == u). { unfold pymax. replace (qltb u 0) with false by (symmetry; apply qltb_ge; lra). reflexivity. }
    assert (M2 : pymin u 0 == 0). { unfold pymin. rewrite Eu. reflexivity. }
    assert (M3 : Qabs u == u) by (apply Qabs_pos; lra).
    rewrite M1, M2 in E. rewrite M3 in Hnu.
    destruct (second C L).
    + rewrite M3 in E. destruct HT as [HT|HT]; [discriminate|].
      pose proof (adv_tame L qbc auxbc nu i HT HN ltac:(lia)) as T1. pose proof (adv_tame L qbc auxbc nu (i - 1) HT HN ltac:(lia)) as T2.
      rewrite Eu in T1, T2. replace (i - 1 + 1)%Z with i in T2 by lia.
      eapply harten_coefficient; [|exact T1|exact T2|]; [lra|]. rewrite E, <- Hnu. ring.
    + exists nu. split; [lra|]. rewrite E, <- Hnu. ring.
  - assert (Hu : u <= 0) by (apply qltb_ge; exact Eu).
    assert (M1 : pymax u 0 == 0). { unfold pymax. destruct (qltb u 0) eqn:E0; [reflexivity|]. apply qltb_ge in E0. lra. }
    assert (M2 : pymin u 0 == u). { unfold pymin. rewrite Eu. reflexivity. }
    assert (M3 : Qabs u == - u) by (apply Qabs_neg; lra).
    rewrite M1, M2 in E. rewrite M3 in Hnu.
    destruct (second C L).
    + rewrite M3 in E. destruct HT as [HT|HT]; [discriminate|].
      pose proof (adv_tame L qbc auxbc nu i HT HN ltac:(lia)) as T1. pose proof (adv_tame L qbc auxbc nu (i - 1) HT HN ltac:(lia)) as T2.
      rewrite Eu in T1, T2. replace (i - 1 + 1)%Z with i in T2 by lia. replace (i - 1 + 2)%Z with (i + 1)%Z in T2 by lia.
      assert (T1' : tame nu (- xj L qbc auxbc i) (qbc 0%Z i - qbc 0%Z (i + 1)%Z) (- (qbc 0%Z (i + 2)%Z - qbc 0%Z (i + 1)%Z))).
      { destruct T1 as (a & b & X1 & X2 & R). exists a, b. split; [rewrite X1; ring|]. split; [rewrite X2; ring|exact R]. }
      assert (T2' : tame nu (- xj L qbc auxbc (i - 1)) (- (qbc 0%Z i - qbc 0%Z (i - 1)%Z)) (qbc 0%Z i - qbc 0%Z (i + 1)%Z)).
      { destruct T2 as (a & b & X1 & X2 & R). exists a, b. split; [rewrite X1; ring|]. split; [rewrite X2; ring|exact R]. }
      eapply harten_coefficient; [|exact T2'|exact T1'|]; [lra|]. rewrite E, <- Hnu. ring.
    + exists nu. split; [lra|]. rewrite E, <- Hnu. ring.
Qed.

(** Courant number one. *)
Theorem adv_exact L qbc auxbc q' cfl :
  (2 <= c_ng C)%nat -> 0 < lam -> Qabs u * lam == 1 ->
  kernel pow undef L C qbc auxbc = Some (q', cfl) ->
  forall i, (ng <= i < ng + mx)%Z ->
  q' 0%Z i == qbc 0%Z (if qltb 0 u then i - 1 else i + 1)%Z.
Proof.
  intros Hg Hlam Hnu HK i Hi. pose proof (adv_form L qbc auxbc q' cfl Hg HK i Hi) as E.
  assert (Z0 : (if second C L then lam * ((1 # 2) * Qabs u * (1 - Qabs u * lam) * (xj L qbc auxbc i - xj L qbc auxbc (i - 1))) else 0) == 0).
  { destruct (second C L); [|reflexivity]. rewrite Hnu. ring. }
  rewrite Z0 in E. rewrite E. destruct (qltb 0 u) eqn:Eu.
  - assert (Hu : 0 < u) by (apply qltb_lt; exact Eu).
    assert (M1 : pymax u 0 == u). { unfold pymax. replace (qltb u 0) with false by (symmetry; apply qltb_ge; lra). reflexivity. }
    assert (M2 : pymin u 0 == 0). { unfold pymin. rewrite Eu. reflexivity. }
    rewrite M1, M2. rewrite (Qabs_pos u) in Hnu by lra.
    setoid_replace (qbc 0%Z i - lam * (u * (qbc 0%Z i - qbc 0%Z (i - 1)%Z) + 0 * (qbc 0%Z (i + 1)%Z - qbc 0%Z i)) - 0)
      with (qbc 0%Z i - u * lam * (qbc 0%Z i - qbc 0%Z (i - 1)%Z)) by ring. rewrite Hnu. ring.
  - assert (Hu : u <= 0) by (apply qltb_ge; exact Eu).
    assert (M1 : pymax u 0 == 0). { unfold pymax. destruct (qltb u 0) eqn:E0; [reflexivity|]. apply qltb_ge in E0. lra. }
    assert (M2 : pymin u 0 == u). { unfold pymin. rewrite Eu. reflexivity. }
    rewrite M1, M2. rewrite (Qabs_neg u) in Hnu by lra.
    setoid_replace (qbc 0%Z i - lam * (0 * (qbc 0%Z i - qbc 0%Z (i - 1)%Z) + u * (qbc 0%Z (i + 1)%Z - qbc 0%Z i)) - 0)
      with (qbc 0%Z i + - u * lam * (qbc 0%Z (i + 1)%Z - qbc 0%Z i)) by ring. rewrite Hnu. ring.
Qed.
End A.

(** Sweby's region lies in the TVD region of every Courant number up to one. *)
Lemma sweby_region phi nu : 0 <= nu <= 1 -> in_sweby phi -> in_cfl_region nu phi.
Proof.
  intros Hn (A & B & D & _). split; [intros; apply A|]. split; [exact D|]. split; intros r.
  - assert (0 <= phi r * nu) by (apply Qmul_nonneg; [apply A|lra]). specialize (A r). lra.
  - intros Hr. specialize (B r Hr). specialize (A r).
    assert (0 <= phi r * (1 - nu)) by (apply Qmul_nonneg; lra). lra.
Qed.
