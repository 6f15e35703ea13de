(** Proofs about the 1D classic solver, part 2: both kernels in Python indices, conservation,
    constants, stencil. *)
From Verif Require Import Base BCModel BCSpec BCProofs LimiterModel LimiterProofs Classic1DModel Classic1DSpec Classic1DProofs.

Section S.
Variable pow : Q -> Q -> Q.
Variable undef : Q -> Q -> Z -> Q.
Variable C : settings.
Notation neq := (c_neq C).
Notation nw := (c_nw C).
Notation ng := (Z.of_nat (c_ng C)).
Notation mx := (ncells (c_bc C)).

Definition second (L : lang) : bool :=
  match L with Python => Z.eqb (c_order C) 2 | Fortran => negb (Z.eqb (c_order C) 1) end.
Definition pre (L : lang) : Q -> Q :=
  match L with Python => py_pre (c_fwave C) | Fortran => f_pre (c_fwave C) end.
Definition dtdx_of (auxbc : Z -> Z -> Q) : Z -> Q :=
  py_dtdx (c_dt C) (c_dx C) (option_map (fun k => auxbc k) (c_capa C)).
Definition rps (qbc auxbc : Z -> Z -> Q) : rpdata := solve_rps (c_rp C) neq (c_naux C) 0 qbc auxbc.
Definition fac (L : lang) (dtdx : Z -> Q) (R : rpdata) : Z -> Z -> Q :=
  match L with
  | Python => py_fac pow neq nw ng mx (c_mthlim C) (wave R) (spd R) dtdx
  | Fortran => f_fac neq nw (c_mthlim C) undef (wave R) (spd R)
  end.

Lemma update_shift k sec p fc fc' dtdx dtdx' R R' q q' m i :
  (forall mw j, fc' mw j = fc mw (j + k)%Z) -> (forall j, dtdx' j = dtdx (j + k)%Z) ->
  (forall m mw j, wave R' m mw j = wave R m mw (j + k)%Z) ->
  (forall mw j, spd R' mw j = spd R mw (j + k)%Z) ->
  (forall m j, amdq R' m j = amdq R m (j + k)%Z) -> (forall m j, apdq R' m j = apdq R m (j + k)%Z) ->
  (forall m j, q' m j = q m (j + k)%Z) ->
  update nw sec p fc' dtdx' R' q' m i = update nw sec p fc dtdx R q m (i + k)%Z.
Proof.
  intros H1 H2 H3 H4 H5 H6 H7. unfold update.
  assert (Cc : forall e, corr nw p fc' dtdx' R' m e = corr nw p fc dtdx R m (e + k)%Z).
  { intros e. unfold corr. apply zsum_ext. intros mw _. rewrite H1, !H2, H3, H4.
    replace (e + k - 1)%Z with (e - 1 + k)%Z by lia. reflexivity. }
  rewrite !Cc, H2, H5, H6, H7. replace (i + k - 1)%Z with (i - 1 + k)%Z by lia.
  replace (i + k + 1)%Z with (i + 1 + k)%Z by lia. reflexivity.
Qed.

Lemma vec_shift n (a : Z -> Z -> Q) i k : vec n (fun m j => a m (j + k)%Z) i = vec n a (i + k)%Z.
Proof. reflexivity. Qed.
Lemma vec_ext n (a b : Z -> Z -> Q) i j : (forall m, (0 <= m < Z.of_nat n)%Z -> a m i = b m j) -> vec n a i = vec n b j.
Proof. intros H. unfold vec. apply map_ext_in. intros m Hm. apply in_seq in Hm. apply H. lia. Qed.

Lemma f_fac_shift w s w' s' k mw i :
  (forall m mw j, w' m mw j = w m mw (j + k)%Z) -> (forall mw j, s' mw j = s mw (j + k)%Z) ->
  f_fac neq nw (c_mthlim C) undef w' s' mw i = f_fac neq nw (c_mthlim C) undef w s mw (i + k)%Z.
Proof.
  intros Hw Hs. unfold f_fac. destruct (any_limiter _ _); [|reflexivity]. destruct (Z.eqb _ 0); [reflexivity|].
  unfold f_factor. rewrite Hs.
  rewrite (zsum_ext 0 neq (fun m => w' m mw i * w' m mw i) (fun m => w m mw (i + k)%Z * w m mw (i + k)%Z)) by (intros; rewrite Hw; reflexivity).
  rewrite (zsum_ext 0 neq (fun m => w' m mw (i - 1)%Z * w' m mw i) (fun m => w m mw (i + k - 1)%Z * w m mw (i + k)%Z))
    by (intros; rewrite !Hw; replace (i - 1 + k)%Z with (i + k - 1)%Z by lia; reflexivity).
  rewrite (zsum_ext 0 neq (fun m => w' m mw i * w' m mw (i + 1)%Z) (fun m => w m mw (i + k)%Z * w m mw (i + k + 1)%Z))
    by (intros; rewrite !Hw; replace (i + 1 + k)%Z with (i + k + 1)%Z by lia; reflexivity).
  reflexivity.
Qed.

(** Both kernels compute the wave-propagation update in the interior. *)
Theorem kernel_form L qbc auxbc q' cfl :
  (2 <= c_ng C)%nat -> kernel pow undef L C qbc auxbc = Some (q', cfl) ->
  forall m i, (ng <= i < ng + mx)%Z ->
  q' m i == update nw (second L) (pre L) (fac L (dtdx_of auxbc) (rps qbc auxbc)) (dtdx_of auxbc) (rps qbc auxbc) qbc m i.
Proof.
  intros Hg HK m i Hi. destruct L; cbn [kernel] in HK.
  - injection HK as HK. replace q' with (fst (q', cfl)) by reflexivity. rewrite <- HK. apply py_kernel_interior; [lia|exact Hi].
  - destruct (f_dtdx ng mx (c_dt C) (c_dx C) (option_map (fun k i => auxbc k (i + ng - 1)%Z) (c_capa C))) as [d|] eqn:Ed; [|discriminate].
    destruct (f_kernel _ _ _ _ _ _ _ _ _ _) as [qf cf] eqn:Ek. injection HK as HK1 HK2. subst q'.
    replace qf with (fst (qf, cf)) by reflexivity. rewrite <- Ek.
    rewrite f_kernel_interior by lia.
    assert (Hd : forall j, d j = dtdx_of auxbc (j + (ng - 1))%Z).
    { intros j. unfold dtdx_of. unfold f_dtdx in Ed. destruct (c_capa C) as [kc|]; cbn [option_map py_dtdx] in *.
      - destruct (forallb _ _); [|discriminate]. injection Ed as <-. replace (j + (ng - 1))%Z with (j + ng - 1)%Z by lia. reflexivity.
      - injection Ed as <-. reflexivity. }
    assert (HR : forall j, c_rp C (vec neq (fun m i => qbc m (i + ng - 1)%Z) (j + 1 + -1)) (vec neq (fun m i => qbc m (i + ng - 1)%Z) (j + 1 + -1 + 1))
                  (vec (c_naux C) (fun m i => auxbc m (i + ng - 1)%Z) (j + 1 + -1)) (vec (c_naux C) (fun m i => auxbc m (i + ng - 1)%Z) (j + 1 + -1 + 1)) =
               c_rp C (vec neq qbc (j + (ng - 1) + 0)) (vec neq qbc (j + (ng - 1) + 0 + 1))
                  (vec (c_naux C) auxbc (j + (ng - 1) + 0)) (vec (c_naux C) auxbc (j + (ng - 1) + 0 + 1))).
    { intros j. f_equal; apply vec_ext; intros; f_equal; lia. }
    rewrite (update_shift (ng - 1) (negb (Z.eqb (c_order C) 1)) (f_pre (c_fwave C))
       (fac Fortran (dtdx_of auxbc) (rps qbc auxbc)) _ (dtdx_of auxbc) d (rps qbc auxbc) _ qbc).
    + cbn [second pre]. replace (i - ng + 1 + (ng - 1))%Z with i by lia. reflexivity.
    + intros mw j. cbn [fac].
      rewrite (f_fac_shift (wave (rps qbc auxbc)) (spd (rps qbc auxbc)) _ _ (ng - 2)).
      * f_equal. lia.
      * intros m' mw' j'. cbn [wave solve_rps rps].
        specialize (HR (j' - 1)%Z). replace (j' - 1 + 1)%Z with j' in HR by lia.
        replace (j' - 1 + (ng - 1) + 0)%Z with (j' + (ng - 2) + 0)%Z in HR by lia. rewrite HR. reflexivity.
      * intros mw' j'. cbn [spd solve_rps rps].
        specialize (HR (j' - 1)%Z). replace (j' - 1 + 1)%Z with j' in HR by lia.
        replace (j' - 1 + (ng - 1) + 0)%Z with (j' + (ng - 2) + 0)%Z in HR by lia. rewrite HR. reflexivity.
    + exact Hd.
    + intros. cbn [f_shift wave solve_rps rps]. rewrite HR. reflexivity.
    + intros. cbn [f_shift spd solve_rps rps]. rewrite HR. reflexivity.
    + intros. cbn [f_shift amdq solve_rps rps]. rewrite HR. reflexivity.
    + intros. cbn [f_shift apdq solve_rps rps]. rewrite HR. reflexivity.
    + intros. f_equal. lia.
Qed.

(** ** The correction flux at two places with equal surroundings *)
Definition same_waves (R R' : rpdata) (j j' : Z) : Prop :=
  (forall m mw, (0 <= m < Z.of_nat neq)%Z -> wave R m mw j = wave R' m mw j') /\
  (forall mw, spd R mw j = spd R' mw j').

Lemma norm2_same R R' mw j j' : same_waves R R' j j' -> norm2 neq (wave R) mw j = norm2 neq (wave R') mw j'.
Proof. intros [H _]. apply zsum_ext. intros m Hm. rewrite H by lia. reflexivity. Qed.
Lemma ratio_same R R' mw j j' :
  same_waves R R' (j - 1) (j' - 1) -> same_waves R R' j j' -> same_waves R R' (j + 1) (j' + 1) ->
  ratio neq (wave R) (spd R) mw j = ratio neq (wave R') (spd R') mw j'.
Proof.
  intros [A1 A2] [B1 B2] [C1 C2]. unfold ratio. rewrite (norm2_same R R' mw j j') by (split; assumption).
  destruct (qeqb _ 0); [reflexivity|]. rewrite B2. f_equal.
  destruct (qltb 0 _); unfold dotls; apply zsum_ext; intros m Hm.
  - replace (j - 1 + 1)%Z with j by lia. replace (j' - 1 + 1)%Z with j' by lia.
    rewrite A1, B1 by lia. reflexivity.
  - rewrite C1, B1 by lia. reflexivity.
Qed.
Lemma local_cfl_same R R' d d' mw j j' :
  same_waves R R' j j' -> d j = d' j' -> d (j + 1)%Z = d' (j' + 1)%Z ->
  local_cfl (spd R) d mw j = local_cfl (spd R') d' mw j'.
Proof. intros [_ H] E1 E2. unfold local_cfl. rewrite H, E1, E2. reflexivity. Qed.

(** Same run, two interfaces: all limiters. *)
Lemma fac_uniform L d R mw j j' :
  same_waves R R (j - 1) (j' - 1) -> same_waves R R j j' -> same_waves R R (j + 1) (j' + 1) ->
  d j = d j' -> d (j + 1)%Z = d (j' + 1)%Z ->
  (1 <= j < mx + 2 * ng - 2)%Z -> (1 <= j' < mx + 2 * ng - 2)%Z ->
  fac L d R mw j = fac L d R mw j'.
Proof.
  intros A B Cc E1 E2 Hj Hj'. destruct L; cbn [fac].
  - unfold py_fac. destruct (any_limiter _ _); [|reflexivity].
    destruct (limiter_functions pow (c_mthlim C mw)) as [f|] eqn:Ef; [|reflexivity].
    rewrite (norm2_same R R mw j j') by exact B. destruct (qeqb _ 0); [reflexivity|].
    destruct (table_uniform _ _ _ Ef) as [U F].
    set (js := zrange 1 (Z.to_nat (mx + 2 * ng - 3))).
    assert (Hl : length (map (ratio neq (wave R) (spd R) mw) js) = length (map (local_cfl (spd R) d mw) js))
      by (rewrite !map_length; reflexivity).
    assert (K : nth_error (f (map (ratio neq (wave R) (spd R) mw) js) (map (local_cfl (spd R) d mw) js)) (Z.to_nat (j - 1)) =
                nth_error (f (map (ratio neq (wave R) (spd R) mw) js) (map (local_cfl (spd R) d mw) js)) (Z.to_nat (j' - 1))).
    { apply U; [exact Hl| |]; unfold js; rewrite !zrange_nth_error by lia; f_equal.
      - apply ratio_same; assumption.
      - apply local_cfl_same; assumption. }
    apply (f_equal (fun o => match o with Some x => x | None => 0 end)) in K.
    rewrite <- !nth_default_eq. exact K.
  - unfold f_fac. destruct (any_limiter _ _); [|reflexivity]. destruct (Z.eqb _ 0); [reflexivity|].
    unfold f_factor. destruct A as [A1 A2], B as [B1 B2], Cc as [C1 C2].
    rewrite B2.
    rewrite (zsum_ext 0 neq (fun m => wave R m mw j * wave R m mw j) (fun m => wave R m mw j' * wave R m mw j')) by (intros; rewrite B1 by lia; reflexivity).
    rewrite (zsum_ext 0 neq (fun m => wave R m mw (j - 1)%Z * wave R m mw j) (fun m => wave R m mw (j' - 1)%Z * wave R m mw j'))
      by (intros; rewrite A1, B1 by lia; reflexivity).
    rewrite (zsum_ext 0 neq (fun m => wave R m mw j * wave R m mw (j + 1)%Z) (fun m => wave R m mw j' * wave R m mw (j' + 1)%Z))
      by (intros; rewrite B1, C1 by lia; reflexivity).
    reflexivity.
Qed.

Lemma corr_same p fc fc' d d' R R' m e e' : (0 <= m < Z.of_nat neq)%Z ->
  same_waves R R' (e - 1) (e' - 1) -> (forall mw, fc mw (e - 1)%Z = fc' mw (e' - 1)%Z) ->
  d (e - 1)%Z = d' (e' - 1)%Z -> d e = d' e' ->
  corr nw p fc d R m e = corr nw p fc' d' R' m e'.
Proof.
  intros Hm [A1 A2] H E1 E2. unfold corr. apply zsum_ext. intros mw _.
  rewrite A1, A2, H, E1, E2 by exact Hm. reflexivity.
Qed.

(** ** Conservation *)
Lemma capacity_dtdx auxbc i : ~ capacity C auxbc i == 0 -> capacity C auxbc i * dtdx_of auxbc i == c_dt C / c_dx C.
Proof.
  unfold capacity, dtdx_of. destruct (c_capa C) as [k|]; cbn [option_map py_dtdx]; intros H.
  - unfold Qdiv. rewrite Qinv_mult_distr. setoid_replace (auxbc k i * (c_dt C * (/ c_dx C * / auxbc k i)))
      with (c_dt C * / c_dx C * (auxbc k i * / auxbc k i)) by ring. rewrite Qmult_inv_r by exact H. ring.
  - ring.
Qed.

(** Numerical flux at the left edge of cell e. *)
Definition numflux (flux : list Q -> list Q -> Z -> Q) (L : lang) (qbc auxbc : Z -> Z -> Q) (m e : Z) : Q :=
  flux (vec neq qbc (e - 1)) (vec (c_naux C) auxbc (e - 1)) m + amdq (rps qbc auxbc) m (e - 1)%Z +
  (if second L then corr nw (pre L) (fac L (dtdx_of auxbc) (rps qbc auxbc)) (dtdx_of auxbc) (rps qbc auxbc) m e else 0).

Theorem flux_form flux L qbc auxbc q' cfl :
  (2 <= c_ng C)%nat -> conservative neq flux (c_rp C) ->
  kernel pow undef L C qbc auxbc = Some (q', cfl) ->
  forall m i, (0 <= m < Z.of_nat neq)%Z -> (ng <= i < ng + mx)%Z -> ~ capacity C auxbc i == 0 ->
  capacity C auxbc i * q' m i ==
  capacity C auxbc i * qbc m i - c_dt C / c_dx C * (numflux flux L qbc auxbc m (i + 1) - numflux flux L qbc auxbc m i).
Proof.
  intros Hg HC HK m i Hm Hi Hk. rewrite (kernel_form L qbc auxbc q' cfl Hg HK m i Hi).
  rewrite <- (capacity_dtdx auxbc i Hk). unfold update, numflux.
  replace (i + 1 - 1)%Z with i by lia.
  pose proof (HC (vec neq qbc (i - 1)) (vec neq qbc i) (vec (c_naux C) auxbc (i - 1)) (vec (c_naux C) auxbc i) m Hm) as E.
  assert (A : apdq (rps qbc auxbc) m (i - 1)%Z == flux (vec neq qbc i) (vec (c_naux C) auxbc i) m
     - flux (vec neq qbc (i - 1)) (vec (c_naux C) auxbc (i - 1)) m - amdq (rps qbc auxbc) m (i - 1)%Z).
  { cbn [rps solve_rps apdq amdq]. replace (i - 1 + 0)%Z with (i - 1)%Z by lia. replace (i - 1 + 1)%Z with i by lia. lra. }
  rewrite A. destruct (second L); ring.
Qed.

Theorem total_change flux L qbc auxbc q' cfl :
  (2 <= c_ng C)%nat -> (0 <= mx)%Z -> conservative neq flux (c_rp C) ->
  kernel pow undef L C qbc auxbc = Some (q', cfl) ->
  (forall i, (ng <= i < ng + mx)%Z -> ~ capacity C auxbc i == 0) ->
  forall m, (0 <= m < Z.of_nat neq)%Z ->
  zsum ng (Z.to_nat mx) (fun i => capacity C auxbc i * q' m i) ==
  zsum ng (Z.to_nat mx) (fun i => capacity C auxbc i * qbc m i) -
  c_dt C / c_dx C * (numflux flux L qbc auxbc m (ng + mx) - numflux flux L qbc auxbc m ng).
Proof.
  intros Hg Hmx HC HK Hk m Hm.
  rewrite (zsum_eq ng (Z.to_nat mx) _ (fun i => capacity C auxbc i * qbc m i -
     c_dt C / c_dx C * (numflux flux L qbc auxbc m (i + 1) - numflux flux L qbc auxbc m i))).
  2:{ intros i Hi. eapply flux_form; eauto; [lia|]. apply Hk. lia. }
  rewrite zsum_minus, zsum_scale, zsum_telescope. replace (ng + Z.of_nat (Z.to_nat mx))%Z with (ng + mx)%Z by lia.
  reflexivity.
Qed.

(** Periodic ghost cells. *)
Definition periodic_data (n : nat) (a : Z -> Z -> Q) : Prop :=
  forall m i, (0 <= m < Z.of_nat n)%Z -> (ng - 2 <= i <= ng + 1)%Z -> a m i = a m (i + mx)%Z.

Theorem periodic_flux flux L qbc auxbc m :
  (2 <= c_ng C)%nat -> (1 <= mx)%Z -> (0 <= m < Z.of_nat neq)%Z ->
  (forall k, c_capa C = Some k -> (0 <= k < Z.of_nat (c_naux C))%Z) ->
  periodic_data neq qbc -> periodic_data (c_naux C) auxbc ->
  numflux flux L qbc auxbc m ng = numflux flux L qbc auxbc m (ng + mx).
Proof.
  intros Hg Hmx Hm Hcapa Pq Pa. unfold numflux.
  assert (V : forall i, (ng - 2 <= i <= ng + 1)%Z -> vec neq qbc i = vec neq qbc (i + mx)).
  { intros i Hi. apply vec_ext. intros k Hk. apply Pq; assumption. }
  assert (W : forall i, (ng - 2 <= i <= ng + 1)%Z -> vec (c_naux C) auxbc i = vec (c_naux C) auxbc (i + mx)).
  { intros i Hi. apply vec_ext. intros k Hk. apply Pa; assumption. }
  assert (D : forall i, (ng - 2 <= i <= ng + 1)%Z -> dtdx_of auxbc i = dtdx_of auxbc (i + mx)%Z).
  { intros i Hi. unfold dtdx_of. destruct (c_capa C) as [k|]; cbn [option_map py_dtdx]; [|reflexivity].
    rewrite (Pa k i) by (auto; lia). reflexivity. }
  assert (RR : forall j, (ng - 2 <= j <= ng)%Z ->
     c_rp C (vec neq qbc (j + 0)) (vec neq qbc (j + 0 + 1)) (vec (c_naux C) auxbc (j + 0)) (vec (c_naux C) auxbc (j + 0 + 1)) =
     c_rp C (vec neq qbc (j + mx + 0)) (vec neq qbc (j + mx + 0 + 1)) (vec (c_naux C) auxbc (j + mx + 0)) (vec (c_naux C) auxbc (j + mx + 0 + 1))).
  { intros j Hj. rewrite (V (j + 0)%Z), (V (j + 0 + 1)%Z), (W (j + 0)%Z), (W (j + 0 + 1)%Z) by lia.
    replace (j + mx + 0)%Z with (j + 0 + mx)%Z by lia. replace (j + 0 + mx + 1)%Z with (j + 0 + 1 + mx)%Z by lia. reflexivity. }
  assert (SW : forall j, (ng - 2 <= j <= ng)%Z -> same_waves (rps qbc auxbc) (rps qbc auxbc) j (j + mx)).
  { intros j Hj. split; intros; cbn [rps solve_rps wave spd]; rewrite RR by lia; reflexivity. }
  rewrite (V (ng - 1)%Z), (W (ng - 1)%Z) by lia. replace (ng + mx - 1)%Z with (ng - 1 + mx)%Z by lia.
  f_equal; [f_equal|].
  - cbn [rps solve_rps amdq]. rewrite (RR (ng - 1)%Z) by lia. reflexivity.
  - destruct (second L); [|reflexivity].
    apply corr_same; try assumption.
    + replace (ng + mx - 1)%Z with (ng - 1 + mx)%Z by lia. apply SW. lia.
    + intros mw. replace (ng + mx - 1)%Z with (ng - 1 + mx)%Z by lia. apply fac_uniform; try lia.
      * replace (ng - 1 + mx - 1)%Z with (ng - 1 - 1 + mx)%Z by lia. apply SW. lia.
      * apply SW. lia.
      * replace (ng - 1 + mx + 1)%Z with (ng - 1 + 1 + mx)%Z by lia. apply SW. lia.
      * apply D. lia.
      * replace (ng - 1 + mx + 1)%Z with (ng - 1 + 1 + mx)%Z by lia. apply D. lia.
    + replace (ng + mx - 1)%Z with (ng - 1 + mx)%Z by lia. apply D. lia.
    + apply D. lia.
Qed.
End S.
