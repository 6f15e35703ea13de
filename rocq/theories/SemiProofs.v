(** Proofs about the SharpClaw semi-discretisation. *)
From Verif Require Import Base BCModel BCSpec BCProofs LimiterModel Classic1DModel Classic1DSpec
  Classic1DProofs Classic1DProofs2 Classic1DProofs3 SharpModel SharpSpec WenoModel WenoProofs SemiModel SemiSpec.

Section S.
Variable C : settings.
Notation neq := (c_neq C).
Notation naux := (c_naux C).
Notation ng := (Z.of_nat (c_ng C)).
Notation mx := (ncells (c_bc C)).
Notation dtdx_of := (dtdx_of C).

(** The right-hand side in closed form, Python indices. *)
Definition erps (e : edges) (aux : Z -> Z -> Q) : rpdata := edge_rps (c_rp C) neq naux 0 e aux.
Definition semi (T : Z -> Z -> Q) (e : edges) (aux : Z -> Z -> Q) (m i : Z) : Q :=
  - dtdx_of aux i * (amdq (erps e aux) m i + apdq (erps e aux) m (i - 1)%Z + T m i).

Definition inner (tf : option (list Q -> list Q -> list Q -> list Q -> Z -> Q)) (e : edges) (aux : Z -> Z -> Q) (m i : Z) : Q :=
  match tf with
  | Some tf => tf (vec neq (fst e) i) (vec neq (snd e) i) (vec naux aux i) (vec naux aux i) m
  | None => amdq (cell_rps (c_rp C) neq naux e aux) m i + apdq (cell_rps (c_rp C) neq naux e aux) m i
  end.

Lemma py_semi_form e aux m i : (ng <= i < ng + mx)%Z ->
  fst (py_semi C e aux) m i == semi (inner None e aux) e aux m i.
Proof.
  intros Hi. unfold py_semi, semi, inner. cbn [fst]. rewrite in_slice_true by lia. unfold erps, dtdx_of. ring.
Qed.

(** Shift of all arrays from Fortran to Python indices *)
Definition shift_arr (a : Z -> Z -> Q) : Z -> Z -> Q := fun m i => a m (i - ng + 1)%Z.
Definition shift_edges (e : edges) : edges := (shift_arr (fst e), shift_arr (snd e)).
Lemma f_semi_form tf e aux m i : c_capa C = None -> (0 <= i < mx)%Z ->
  fst (f_semi tf C e (fun m i => aux m (i + ng - 1)%Z)) m (i + 1)%Z == semi (inner tf (shift_edges e) aux) (shift_edges e) aux m (i + ng)%Z.
Proof.
  intros HN Hi.
  set (fa := fun m i => aux m (i + ng - 1)%Z).
  assert (EV : forall j, vec neq (fst e) j = vec neq (fst (shift_edges e)) (j + ng - 1)).
  { intros j. apply vec_ext. intros k _. cbn [shift_edges fst]. unfold shift_arr. f_equal. lia. }
  assert (EW : forall j, vec neq (snd e) j = vec neq (snd (shift_edges e)) (j + ng - 1)).
  { intros j. apply vec_ext. intros k _. cbn [shift_edges snd]. unfold shift_arr. f_equal. lia. }
  assert (EA : forall j, vec naux fa j = vec naux aux (j + ng - 1)) by reflexivity.
  assert (D : sharp_dtdx C fa (i + 1)%Z = dtdx_of aux (i + ng)%Z).
  { unfold sharp_dtdx, dtdx_of. rewrite HN. reflexivity. }
  assert (R : forall j, c_rp C (vec neq (snd e) (j + -1)) (vec neq (fst e) (j + -1 + 1)) (vec naux fa (j + -1)) (vec naux fa (j + -1 + 1))
     = c_rp C (vec neq (snd (shift_edges e)) (j + ng - 2 + 0)) (vec neq (fst (shift_edges e)) (j + ng - 2 + 0 + 1)) (vec naux aux (j + ng - 2 + 0)) (vec naux aux (j + ng - 2 + 0 + 1))).
  { intros j. rewrite !EV, !EW, !EA. f_equal; f_equal; lia. }
  unfold f_semi, semi, inner. fold fa.
  destruct tf as [tf|]; cbn [fst]; rewrite in_slice_true by lia; rewrite D; cbn [edge_rps erps cell_rps amdq apdq]; rewrite !R, !EV, !EW, !EA.
  - replace (i + 1 + 1 + ng - 2)%Z with (i + ng)%Z by lia. replace (i + 1 + ng - 2)%Z with (i + ng - 1)%Z by lia.
    replace (i + 1 + ng - 1)%Z with (i + ng)%Z by lia. ring.
  - replace (i + 1 + 1 + ng - 2)%Z with (i + ng)%Z by lia. replace (i + 1 + ng - 2)%Z with (i + ng - 1)%Z by lia.
    replace (i + 1 + ng - 1)%Z with (i + ng)%Z by lia. ring.
Qed.

(** Numerical flux at the left edge of cell e0 *)
Definition eflux (flux : list Q -> list Q -> Z -> Q) (e : edges) (aux : Z -> Z -> Q) (m x : Z) : Q :=
  flux (vec neq (snd e) (x - 1)) (vec naux aux (x - 1)) m + amdq (erps e aux) m (x - 1)%Z.

Lemma semi_flux flux T e aux m i :
  conservative neq flux (c_rp C) -> (0 <= m < Z.of_nat neq)%Z -> ~ capacity C aux i == 0 ->
  T m i == flux (vec neq (snd e) i) (vec naux aux i) m - flux (vec neq (fst e) i) (vec naux aux i) m ->
  capacity C aux i * semi T e aux m i == - (c_dt C / c_dx C) * (eflux flux e aux m (i + 1) - eflux flux e aux m i).
Proof.
  intros HC Hm Hk HT. unfold semi. rewrite HT.
  setoid_replace (capacity C aux i * (- dtdx_of aux i * (amdq (erps e aux) m i + apdq (erps e aux) m (i - 1)%Z +
     (flux (vec neq (snd e) i) (vec naux aux i) m - flux (vec neq (fst e) i) (vec naux aux i) m))))
   with (- (capacity C aux i * dtdx_of aux i) * (amdq (erps e aux) m i + apdq (erps e aux) m (i - 1)%Z +
     (flux (vec neq (snd e) i) (vec naux aux i) m - flux (vec neq (fst e) i) (vec naux aux i) m))) by ring.
  rewrite (capacity_dtdx C aux i Hk). unfold eflux. replace (i + 1 - 1)%Z with i by lia.
  assert (A : apdq (erps e aux) m (i - 1)%Z == flux (vec neq (fst e) i) (vec naux aux i) m
     - flux (vec neq (snd e) (i - 1)) (vec naux aux (i - 1)) m - amdq (erps e aux) m (i - 1)%Z).
  { cbn [erps edge_rps apdq amdq]. replace (i - 1 + 0)%Z with (i - 1)%Z by lia. replace (i - 1 + 1)%Z with i by lia.
    pose proof (HC (vec neq (snd e) (i - 1)) (vec neq (fst e) i) (vec naux aux (i - 1)) (vec naux aux i) m Hm). lra. }
  rewrite A. ring.
Qed.

Lemma semi_total flux T e aux m :
  conservative neq flux (c_rp C) -> (0 <= m < Z.of_nat neq)%Z -> (0 <= mx)%Z ->
  (forall i, (ng <= i < ng + mx)%Z -> ~ capacity C aux i == 0) ->
  (forall i, T m i == flux (vec neq (snd e) i) (vec naux aux i) m - flux (vec neq (fst e) i) (vec naux aux i) m) ->
  zsum ng (Z.to_nat mx) (fun i => capacity C aux i * semi T e aux m i) ==
  - (c_dt C / c_dx C) * (eflux flux e aux m (ng + mx) - eflux flux e aux m ng).
Proof.
  intros HC Hm Hmx Hk HT.
  rewrite (zsum_eq ng (Z.to_nat mx) _ (fun i => - (c_dt C / c_dx C) * (eflux flux e aux m (i + 1) - eflux flux e aux m i))).
  2:{ intros i Hi. apply semi_flux; auto. apply Hk. lia. }
  rewrite zsum_scale, zsum_telescope. replace (ng + Z.of_nat (Z.to_nat mx))%Z with (ng + mx)%Z by lia. reflexivity.
Qed.

Lemma eflux_periodic flux e aux m :
  (forall k, (0 <= k < Z.of_nat neq)%Z -> snd e k (ng - 1)%Z = snd e k (ng - 1 + mx)%Z) ->
  (forall k, (0 <= k < Z.of_nat neq)%Z -> fst e k ng = fst e k (ng + mx)%Z) ->
  (forall k, (0 <= k < Z.of_nat naux)%Z -> aux k (ng - 1)%Z = aux k (ng - 1 + mx)%Z /\ aux k ng = aux k (ng + mx)%Z) ->
  eflux flux e aux m ng = eflux flux e aux m (ng + mx).
Proof.
  intros Hr Hl Ha. unfold eflux. cbn [erps edge_rps amdq].
  replace (ng - 1 + 0)%Z with (ng - 1)%Z by lia. replace (ng - 1 + 1)%Z with ng by lia.
  replace (ng + mx - 1 + 0)%Z with (ng - 1 + mx)%Z by lia. replace (ng + mx - 1)%Z with (ng - 1 + mx)%Z by lia.
  replace (ng - 1 + mx + 1)%Z with (ng + mx)%Z by lia.
  rewrite (vec_ext neq (snd e) (snd e) (ng - 1) (ng - 1 + mx) Hr).
  rewrite (vec_ext neq (fst e) (fst e) ng (ng + mx) Hl).
  rewrite (vec_ext naux aux aux (ng - 1) (ng - 1 + mx)) by (intros; apply Ha; assumption).
  rewrite (vec_ext naux aux aux ng (ng + mx)) by (intros; apply Ha; assumption).
  reflexivity.
Qed.

(** The Python reconstructions on periodic data *)
Definition periodic_all (n : nat) (a : Z -> Z -> Q) : Prop :=
  forall m i, (0 <= m < Z.of_nat n)%Z -> (0 <= i < 2 * ng)%Z -> a m i = a m (i + mx)%Z.

Lemma py_weno_periodic eps (a : Z -> Q) : (3 <= ng)%Z -> (1 <= mx)%Z ->
  (forall i, (0 <= i < 2 * ng)%Z -> a i = a (i + mx)%Z) ->
  snd (py_weno eps (mx + 2 * ng) a) (ng - 1)%Z = snd (py_weno eps (mx + 2 * ng) a) (ng - 1 + mx)%Z /\
  fst (py_weno eps (mx + 2 * ng) a) ng = fst (py_weno eps (mx + 2 * ng) a) (ng + mx)%Z.
Proof.
  intros Hg Hmx P. unfold py_weno. cbn [fst snd].
  rewrite !in_slice_true by lia. unfold shu. cbv zeta. split.
  - replace (ng - 1 - 2 * 1 + 1)%Z with (ng - 2)%Z by lia. replace (ng - 1 - 2 * 1)%Z with (ng - 3)%Z by lia.
    replace (ng - 1 - 1 + 1)%Z with (ng - 1)%Z by lia. replace (ng - 1 - 1)%Z with (ng - 2)%Z by lia.
    replace (ng - 1 + 1 + 1)%Z with (ng + 1)%Z by lia. replace (ng - 1 + 1)%Z with ng by lia. replace (ng - 1 + 2)%Z with (ng + 1)%Z by lia.
    replace (ng - 1 + mx - 2 * 1 + 1)%Z with (ng - 2 + mx)%Z by lia. replace (ng - 1 + mx - 2 * 1)%Z with (ng - 3 + mx)%Z by lia.
    replace (ng - 1 + mx - 1 + 1)%Z with (ng - 1 + mx)%Z by lia. replace (ng - 1 + mx - 1)%Z with (ng - 2 + mx)%Z by lia.
    replace (ng - 1 + mx + 1 + 1)%Z with (ng + 1 + mx)%Z by lia. replace (ng - 1 + mx + 1)%Z with (ng + mx)%Z by lia. replace (ng - 1 + mx + 2)%Z with (ng + 1 + mx)%Z by lia.
    rewrite <- !P by lia. reflexivity.
  - replace (ng - 1 - 2 * -1 + 1)%Z with (ng + 2)%Z by lia. replace (ng - 1 - 2 * -1)%Z with (ng + 1)%Z by lia.
    replace (ng - 1 - -1 + 1)%Z with (ng + 1)%Z by lia. replace (ng - 1 - -1)%Z with ng by lia.
    replace (ng - 1 + -1 + 1)%Z with (ng - 1)%Z by lia. replace (ng - 1 + -1)%Z with (ng - 2)%Z by lia.
    replace (ng - 1 + 1)%Z with ng by lia. replace (ng - 1 + 2)%Z with (ng + 1)%Z by lia. replace (ng - 1 - 1)%Z with (ng - 2)%Z by lia.
    replace (ng + mx - 1 - 2 * -1 + 1)%Z with (ng + 2 + mx)%Z by lia. replace (ng + mx - 1 - 2 * -1)%Z with (ng + 1 + mx)%Z by lia.
    replace (ng + mx - 1 - -1 + 1)%Z with (ng + 1 + mx)%Z by lia. replace (ng + mx - 1 - -1)%Z with (ng + mx)%Z by lia.
    replace (ng + mx - 1 + -1 + 1)%Z with (ng - 1 + mx)%Z by lia. replace (ng + mx - 1 + -1)%Z with (ng - 2 + mx)%Z by lia.
    replace (ng + mx - 1 + 1)%Z with (ng + mx)%Z by lia. replace (ng + mx - 1 + 2)%Z with (ng + 1 + mx)%Z by lia. replace (ng + mx - 1 - 1)%Z with (ng - 2 + mx)%Z by lia.
    replace (ng + mx - 1)%Z with (ng - 1 + mx)%Z by lia.
    rewrite <- !P by lia. reflexivity.
Qed.

Lemma wave_factor_same eps w k mw i i' : 
  (forall m d, (0 <= m < Z.of_nat neq)%Z -> (-2 <= d <= 2)%Z -> (-2 <= k * d <= 1)%Z -> w m mw (i + d)%Z = w m mw (i' + d)%Z) ->
  (k = 1 \/ k = -1)%Z ->
  wave_factor eps neq w k mw i = wave_factor eps neq w k mw i'.
Proof.
  intros H Hk.
  assert (Dd : forall d, (-2 <= d <= 2)%Z -> (-2 <= k * d <= 1)%Z ->
     zsum 0 neq (fun m => w m mw (i + d)%Z * w m mw i) = zsum 0 neq (fun m => w m mw (i' + d)%Z * w m mw i')).
  { intros d Hd1 Hd2. apply zsum_ext. intros m Hm. rewrite (H m d) by lia.
    pose proof (H m 0%Z ltac:(lia) ltac:(lia) ltac:(lia)) as E. rewrite !Z.add_0_r in E. rewrite E. reflexivity. }
  unfold wave_factor.
  pose proof (Dd 0%Z ltac:(lia) ltac:(lia)) as E0. rewrite !Z.add_0_r in E0.
  pose proof (Dd (- 2 * k)%Z ltac:(lia) ltac:(lia)) as E1.
  pose proof (Dd (- k)%Z ltac:(lia) ltac:(lia)) as E2.
  pose proof (Dd k ltac:(lia) ltac:(lia)) as E3.
  replace (i - 2 * k)%Z with (i + -2 * k)%Z by lia. replace (i' - 2 * k)%Z with (i' + -2 * k)%Z by lia.
  replace (i - k)%Z with (i + - k)%Z by lia. replace (i' - k)%Z with (i' + - k)%Z by lia.
  cbv zeta beta. rewrite E0, E1, E2, E3. reflexivity.
Qed.

Lemma weno5_wave_periodic eps q w : (3 <= ng)%Z -> (1 <= mx)%Z ->
  periodic_all neq q ->
  (forall m mw j, (0 <= m < Z.of_nat neq)%Z -> (0 <= j < 2 * ng - 1)%Z -> w m mw j = w m mw (j + mx)%Z) ->
  forall m, (0 <= m < Z.of_nat neq)%Z ->
  snd (weno5_wave eps neq (c_nw C) (mx + 2 * ng) q w) m (ng - 1)%Z = snd (weno5_wave eps neq (c_nw C) (mx + 2 * ng) q w) m (ng - 1 + mx)%Z /\
  fst (weno5_wave eps neq (c_nw C) (mx + 2 * ng) q w) m ng = fst (weno5_wave eps neq (c_nw C) (mx + 2 * ng) q w) m (ng + mx)%Z.
Proof.
  intros Hg Hmx P W m Hm. unfold weno5_wave. cbn [fst snd]. rewrite !in_slice_true by lia. split.
  - rewrite <- P by lia. f_equal. apply zsum_ext. intros mw _. rewrite <- W by lia. f_equal.
    apply wave_factor_same; [|auto]. intros k d Hk Hd1 Hd2. rewrite W by lia. f_equal. lia.
  - rewrite <- P by lia. f_equal. replace (ng + mx - 1)%Z with (ng - 1 + mx)%Z by lia. apply zsum_ext. intros mw _. rewrite <- W by lia. f_equal.
    apply wave_factor_same; [|auto]. intros k d Hk Hd1 Hd2. rewrite W by lia. f_equal. lia.
Qed.
End S.

(** The Fortran WENO routine on periodic data *)
Lemma fortran_weno5_keeps eps neq naux ng mx ql0 qr0 : (3 <= ng)%Z -> (1 <= mx)%Z ->
  keeps_period neq naux ng mx (fortran_weno5 eps ng mx ql0 qr0).
Proof.
  intros Hg Hmx q aux P _ m Hm. unfold fortran_weno5, f_weno5. cbn [fst snd]. rewrite !in_slice_true by lia.
  assert (E : forall j j', j' = (j + mx)%Z -> (j = ng \/ j = ng + 1)%Z ->
    pyweno eps (fun i => q m (i - ng)%Z) j = pyweno eps (fun i => q m (i - ng)%Z) j').
  { intros j j' -> Hj. unfold pyweno.
    replace (j + mx - ng)%Z with (j - ng + mx)%Z by lia. replace (j + mx + 1 - ng)%Z with (j + 1 - ng + mx)%Z by lia.
    replace (j + mx + 2 - ng)%Z with (j + 2 - ng + mx)%Z by lia. replace (j + mx - 1 - ng)%Z with (j - 1 - ng + mx)%Z by lia.
    replace (j + mx - 2 - ng)%Z with (j - 2 - ng + mx)%Z by lia.
    rewrite <- !P by lia. reflexivity. }
  rewrite (E (0 + ng)%Z (mx + ng)%Z), (E (1 + ng)%Z (mx + 1 + ng)%Z) by lia. split; reflexivity.
Qed.
