(** Proofs about parallel runs, part 2: the 1D classic kernel on the array of one process computes what the
    serial kernel computes in the same cells. *)
From Verif Require Import Base BCModel BCSpec BCProofs LimiterModel LimiterSpec LimiterProofs
  Classic1DModel Classic1DSpec Classic1DProofs Classic1DProofs2 Classic1DProofs3 Classic1DProofs5
  GeometrySpec ParallelModel ParallelSpec ParallelProofs.

(** Exact form of Fortran's limiter loop. *)
Definition f_lim_at (neq : nat) (undef : Q -> Q -> Z -> Q) (w : Z -> Z -> Q) (s : Z -> Q) (lim m i : Z) : Q :=
  let n2 := zsum 0 neq (fun m => w m i * w m i) in
  if qeqb n2 0 then w m i
  else f_phi undef lim n2 (if qltb 0 (s i) then zsum 0 neq (fun m => w m (i - 1)%Z * w m i)
                     else zsum 0 neq (fun m => w m i * w m (i + 1)%Z)) * w m i.
Lemma f_limiter_exact neq undef lim s w n :
  let st := fold_left (f_limiter_body neq undef lim s) (zrange 0 (S n)) (w, 0) in
  forall m i, (1 <= i <= Z.of_nat n)%Z -> fst st m i = f_lim_at neq undef w s lim m i.
Proof.
  induction n; cbv zeta; [intros; lia|].
  rewrite zrange_S, fold_left_app. cbn [fold_left].
  destruct (f_limiter_loop neq undef lim s w n) as (A & _ & C). cbv zeta in A, C, IHn.
  destruct (fold_left (f_limiter_body neq undef lim s) (zrange 0 (S n)) (w, 0)) as [w' dr] eqn:E.
  cbn [fst snd] in A, C, IHn.
  set (k := (0 + Z.of_nat (S n))%Z). assert (Hk : k = (Z.of_nat n + 1)%Z) by (unfold k; lia).
  assert (Wk : forall m, w' m k = w m k) by (intros; apply C; lia).
  assert (Wk1 : forall m, w' m (k + 1)%Z = w m (k + 1)%Z) by (intros; apply C; lia).
  unfold f_limiter_body. cbn [fst snd].
  rewrite (zsum_ext 0 neq (fun m => w' m k * w' m k) (fun m => w m k * w m k)) by (intros; rewrite Wk; reflexivity).
  rewrite (zsum_ext 0 neq (fun m => w' m k * w' m (k + 1)%Z) (fun m => w m k * w m (k + 1)%Z))
    by (intros; rewrite Wk, Wk1; reflexivity).
  replace (Z.eqb k 0) with false by lia. intros m i Hi.
  destruct (qeqb (zsum 0 neq (fun m => w m k * w m k)) 0) eqn:E0; cbn [fst snd].
  - destruct (Z.eq_dec i k) as [->|Hne]; [|apply IHn; lia]. rewrite Wk. unfold f_lim_at. rewrite E0. reflexivity.
  - destruct (Z.eqb_spec i k) as [->|Hne]; [|apply IHn; lia].
    rewrite Wk. unfold f_lim_at. rewrite E0. unfold f_phi.
    rewrite A. replace (Z.of_nat n) with (k - 1)%Z by lia. replace (k - 1 + 1)%Z with k by lia. reflexivity.
Qed.
Lemma f_lim_at_same neq undef w w' s s' lim m i i' :
  (0 <= m < Z.of_nat neq)%Z ->
  (forall m d, (0 <= m < Z.of_nat neq)%Z -> (-1 <= d <= 1)%Z -> w m (i + d)%Z = w' m (i' + d)%Z) -> s i = s' i' ->
  f_lim_at neq undef w s lim m i = f_lim_at neq undef w' s' lim m i'.
Proof.
  intros Hm HW Hs. unfold f_lim_at. rewrite Hs.
  assert (W0 : forall m, (0 <= m < Z.of_nat neq)%Z -> w m i = w' m i').
  { intros k Hk. specialize (HW k 0%Z Hk). rewrite !Z.add_0_r in HW. apply HW. lia. }
  assert (W1 : forall m, (0 <= m < Z.of_nat neq)%Z -> w m (i + 1)%Z = w' m (i' + 1)%Z).
  { intros k Hk. apply HW; [exact Hk|lia]. }
  assert (W2 : forall m, (0 <= m < Z.of_nat neq)%Z -> w m (i - 1)%Z = w' m (i' - 1)%Z).
  { intros k Hk. apply (HW k (-1)%Z); [exact Hk|lia]. }
  rewrite (W0 m Hm).
  rewrite (zsum_ext 0 neq (fun m => w m i * w m i) (fun m => w' m i' * w' m i')) by (intros; rewrite W0 by lia; reflexivity).
  rewrite (zsum_ext 0 neq (fun m => w m (i - 1)%Z * w m i) (fun m => w' m (i' - 1)%Z * w' m i')) by (intros; rewrite W0, W2 by lia; reflexivity).
  rewrite (zsum_ext 0 neq (fun m => w m i * w m (i + 1)%Z) (fun m => w' m i' * w' m (i' + 1)%Z)) by (intros; rewrite W0, W1 by lia; reflexivity).
  reflexivity.
Qed.

Section W.
Variable pow : Q -> Q -> Q.
Variable undef : Q -> Q -> Z -> Q.
Variable C : settings.
Notation neq := (c_neq C).
Notation nw := (c_nw C).
Notation ng := (Z.of_nat (c_ng C)).
Notation mx := (ncells (c_bc C)).
Variables (mx' o : Z).
Hypothesis Hg : (2 <= c_ng C)%nat.
Hypothesis Ho : (0 <= o)%Z.
Hypothesis Hmx : (o + mx' <= mx)%Z.

Section Py.
Variables (R' R : rpdata) (d' d : Z -> Q) (q' q : Z -> Z -> Q) (m : Z).
Hypothesis Hm : (0 <= m < Z.of_nat neq)%Z.
Hypothesis HL : local_limiters_only pow Python C.
Hypothesis W : forall j, (0 <= j < mx' + 2 * ng - 1)%Z -> same_waves C R' R j (j + o).
Hypothesis A : forall j, (0 <= j < mx' + 2 * ng - 1)%Z -> amdq R' m j = amdq R m (j + o)%Z /\ apdq R' m j = apdq R m (j + o)%Z.
Hypothesis Dd : forall j, (0 <= j < mx' + 2 * ng)%Z -> d' j = d (j + o)%Z.
Hypothesis Qq : forall i, (0 <= i < mx' + 2 * ng)%Z -> q' m i = q m (i + o)%Z.

Lemma py_limit_window mw j : (0 <= mw < Z.of_nat nw)%Z -> (1 <= j < mx' + 2 * ng - 2)%Z ->
  py_limit pow neq ng mx' (c_mthlim C) (wave R') (spd R') d' m mw j =
  py_limit pow neq ng mx (c_mthlim C) (wave R) (spd R) d m mw (j + o)%Z.
Proof.
  intros Hmw Hj. unfold py_limit.
  assert (Wj : wave R' m mw j = wave R m mw (j + o)%Z) by (apply W; [lia|exact Hm]).
  destruct (limiter_functions pow (c_mthlim C mw)) as [f|] eqn:Ef; [|exact Wj].
  rewrite !in_slice_true by lia. cbv zeta.
  rewrite (norm2_same C R' R mw j (j + o)) by (apply W; lia).
  rewrite Wj. destruct (qeqb _ 0); [reflexivity|]. f_equal. apply nth_of_nth_error.
  pose proof (HL eq_refl mw f Hmw Ef) as Hc.
  rewrite (local_singleton pow (c_mthlim C mw) f (map (ratio neq (wave R') (spd R') mw) (zrange 1 (Z.to_nat (mx' + 2 * ng - 3)))) (map (local_cfl (spd R') d' mw) (zrange 1 (Z.to_nat (mx' + 2 * ng - 3)))) (Z.to_nat (j - 1)) (ratio neq (wave R') (spd R') mw j) (local_cfl (spd R') d' mw j) Ef Hc);
    [|rewrite !map_length; reflexivity|apply zrange_nth_error; lia|apply zrange_nth_error; lia].
  rewrite (local_singleton pow (c_mthlim C mw) f (map (ratio neq (wave R) (spd R) mw) (zrange 1 (Z.to_nat (mx + 2 * ng - 3)))) (map (local_cfl (spd R) d mw) (zrange 1 (Z.to_nat (mx + 2 * ng - 3)))) (Z.to_nat (j + o - 1)) (ratio neq (wave R) (spd R) mw (j + o)) (local_cfl (spd R) d mw (j + o)) Ef Hc);
    [|rewrite !map_length; reflexivity|apply zrange_nth_error; lia|apply zrange_nth_error; lia].
  rewrite (ratio_same C R' R mw j (j + o)), (local_cfl_same C R' R d' d mw j (j + o)); [reflexivity|..].
  - apply W; lia.
  - apply Dd; lia.
  - rewrite Dd by lia. f_equal. lia.
  - replace (j + o - 1)%Z with (j - 1 + o)%Z by lia. apply W; lia.
  - apply W; lia.
  - replace (j + o + 1)%Z with (j + 1 + o)%Z by lia. apply W; lia.
Qed.

Lemma py_flux_window i : (ng <= i <= ng + mx')%Z ->
  py_flux nw ng mx' (c_fwave C) d' (spd R') (if any_limiter nw (c_mthlim C) then py_limit pow neq ng mx' (c_mthlim C) (wave R') (spd R') d' else wave R') m i =
  py_flux nw ng mx (c_fwave C) d (spd R) (if any_limiter nw (c_mthlim C) then py_limit pow neq ng mx (c_mthlim C) (wave R) (spd R) d else wave R) m (i + o)%Z.
Proof.
  intros Hi. unfold py_flux. rewrite !in_slice_true by lia. apply zsum_ext. intros mw Hmw. cbv zeta.
  rewrite (Dd i), (Dd (i - 1)) by lia. replace (i + o - 1)%Z with (i - 1 + o)%Z by lia.
  assert (S1 : spd R' mw (i - 1)%Z = spd R mw (i - 1 + o)%Z) by (apply W; lia). rewrite S1.
  assert (L : (if any_limiter nw (c_mthlim C) then py_limit pow neq ng mx' (c_mthlim C) (wave R') (spd R') d' else wave R') m mw (i - 1)%Z
     = (if any_limiter nw (c_mthlim C) then py_limit pow neq ng mx (c_mthlim C) (wave R) (spd R) d else wave R) m mw (i - 1 + o)%Z).
  { destruct (any_limiter _ _); [apply py_limit_window; lia|]. apply W; [lia|exact Hm]. }
  rewrite L. reflexivity.
Qed.

Lemma py_kernel_window i : (ng <= i < ng + mx')%Z ->
  fst (py_kernel pow neq nw ng mx' (c_fwave C) (c_order C) (c_mthlim C) d' R' q') m i =
  fst (py_kernel pow neq nw ng mx (c_fwave C) (c_order C) (c_mthlim C) d R q) m (i + o)%Z.
Proof.
  intros Hi.
  assert (G : py_godunov ng mx' d' R' q' m i = py_godunov ng mx d R q m (i + o)%Z).
  { unfold py_godunov. rewrite !in_slice_true by lia. rewrite Dd, Qq by lia.
    destruct (A i ltac:(lia)) as [-> _]. destruct (A (i - 1)%Z ltac:(lia)) as [_ ->].
    replace (i + o - 1)%Z with (i - 1 + o)%Z by lia. reflexivity. }
  unfold py_kernel. cbv zeta. destruct (Z.eqb (c_order C) 2); cbn [fst]; [|exact G].
  rewrite !in_slice_true by lia. rewrite G, Dd by lia. rewrite !py_flux_window by lia.
  replace (i + o + 1)%Z with (i + 1 + o)%Z by lia. reflexivity.
Qed.
End Py.

Section Fo.
(** The same in Fortran indices. *)
Variables (R' R : rpdata) (d' d : Z -> Q) (q' q : Z -> Z -> Q) (m : Z).
Hypothesis Hm : (0 <= m < Z.of_nat neq)%Z.
Hypothesis W : forall j, (2 - ng <= j <= mx' + ng)%Z -> same_waves C R' R j (j + o).
Hypothesis A : forall j, (2 - ng <= j <= mx' + ng)%Z -> amdq R' m j = amdq R m (j + o)%Z /\ apdq R' m j = apdq R m (j + o)%Z.
Hypothesis Dd : forall j, (1 - ng <= j <= mx' + ng)%Z -> d' j = d (j + o)%Z.
Hypothesis Qq : forall i, (1 - ng <= i <= mx' + ng)%Z -> q' m i = q m (i + o)%Z.

Lemma f_limiter_window mw i : (1 <= i <= mx' + 1)%Z ->
  f_limiter neq mx' (c_mthlim C) undef (wave R') (spd R') m mw i =
  f_limiter neq mx (c_mthlim C) undef (wave R) (spd R) m mw (i + o)%Z.
Proof.
  intros Hi. unfold f_limiter. destruct (Z.eqb (c_mthlim C mw) 0); [apply W; [lia|exact Hm]|].
  replace (Z.to_nat (mx' + 2)) with (S (Z.to_nat (mx' + 1))) by lia.
  replace (Z.to_nat (mx + 2)) with (S (Z.to_nat (mx + 1))) by lia.
  rewrite !f_limiter_exact by lia. apply f_lim_at_same; [exact Hm| |apply W; lia].
  intros k e Hk He. replace (i + o + e)%Z with (i + e + o)%Z by lia. apply W; [lia|exact Hk].
Qed.
Lemma f_kernel_window i : (1 <= i <= mx')%Z ->
  fst (f_kernel neq nw mx' (c_fwave C) (c_order C) (c_mthlim C) undef d' R' q') m i =
  fst (f_kernel neq nw mx (c_fwave C) (c_order C) (c_mthlim C) undef d R q) m (i + o)%Z.
Proof.
  intros Hi.
  assert (G : f_godunov mx' d' R' q' m i = f_godunov mx d R q m (i + o)%Z).
  { unfold f_godunov. rewrite !in_slice_true by lia. rewrite Dd, Qq by lia.
    destruct (A i ltac:(lia)) as [_ ->]. destruct (A (i + 1)%Z ltac:(lia)) as [-> _].
    replace (i + o + 1)%Z with (i + 1 + o)%Z by lia. reflexivity. }
  assert (F : forall e, (1 <= e <= mx' + 1)%Z ->
    f_flux nw mx' (c_fwave C) d' (spd R') (if any_limiter nw (c_mthlim C) then f_limiter neq mx' (c_mthlim C) undef (wave R') (spd R') else wave R') m e =
    f_flux nw mx (c_fwave C) d (spd R) (if any_limiter nw (c_mthlim C) then f_limiter neq mx (c_mthlim C) undef (wave R) (spd R) else wave R) m (e + o)%Z).
  { intros e He. unfold f_flux. rewrite !in_slice_true by lia. apply zsum_ext. intros mw Hmw. cbv zeta.
    rewrite (Dd e), (Dd (e - 1)) by lia. replace (e + o - 1)%Z with (e - 1 + o)%Z by lia.
    assert (S1 : spd R' mw e = spd R mw (e + o)%Z) by (apply W; lia). rewrite S1.
    assert (L : (if any_limiter nw (c_mthlim C) then f_limiter neq mx' (c_mthlim C) undef (wave R') (spd R') else wave R') m mw e
       = (if any_limiter nw (c_mthlim C) then f_limiter neq mx (c_mthlim C) undef (wave R) (spd R) else wave R) m mw (e + o)%Z).
    { destruct (any_limiter _ _); [apply f_limiter_window; lia|]. apply W; [lia|exact Hm]. }
    rewrite L. reflexivity. }
  unfold f_kernel. cbv zeta. destruct (Z.eqb (c_order C) 1); cbn [fst]; [exact G|].
  rewrite !in_slice_true by lia. rewrite G, Dd by lia. rewrite !F by lia.
  replace (i + o + 1)%Z with (i + 1 + o)%Z by lia. reflexivity.
Qed.
End Fo.
End W.

(** ** When the Fortran kernel stops *)
Lemma kernel_stops pow undef L C qbc auxbc : (exists k i, c_capa C = Some k /\ (0 <= i < ncells (c_bc C) + 2 * Z.of_nat (c_ng C))%Z /\ auxbc k i <= 0) ->
  L = Fortran -> kernel pow undef L C qbc auxbc = None.
Proof.
  intros (k & i & Hk & Hi & Hle) ->. cbn [kernel]. unfold f_dtdx. rewrite Hk. cbn [option_map].
  replace (forallb _ _) with false; [reflexivity|]. symmetry. apply not_true_is_false. intros H. rewrite forallb_forall in H.
  specialize (H (i - Z.of_nat (c_ng C) + 1)%Z). rewrite zrange_in in H. specialize (H ltac:(lia)). cbv beta in H.
  replace (i - Z.of_nat (c_ng C) + 1 + Z.of_nat (c_ng C) - 1)%Z with i in H by lia.
  apply qltb_lt in H. lra.
Qed.

(** ** One process and the serial run *)
Section P.
Variable pow : Q -> Q -> Q.
Variable undef : Q -> Q -> Z -> Q.
Variable C : settings.
Variable D' : dimbc.
Variable o : Z.
Notation neq := (c_neq C).
Notation nw := (c_nw C).
Notation ng := (Z.of_nat (c_ng C)).
Notation mx := (ncells (c_bc C)).
Notation mx' := (ncells D').
Notation C' := (with_bc C D').
Variable L : lang.
Hypothesis Hg : (2 <= c_ng C)%nat.
Hypothesis HL : local_limiters_only pow L C.
Hypothesis HC : capa_in_aux C.
Hypothesis Ho : (0 <= o)%Z.
Hypothesis Hmx : (o + mx' <= mx)%Z.
Variables qbc' auxbc' qbc auxbc : Z -> Z -> Q.
Hypothesis HS : forall k, (0 <= k < mx' + 2 * ng)%Z -> same_cell C qbc' auxbc' qbc auxbc k (k + o).

Lemma kernel_window q1 c1 q2 c2 m i :
  kernel pow undef L C' qbc' auxbc' = Some (q1, c1) -> kernel pow undef L C qbc auxbc = Some (q2, c2) ->
  (0 <= m < Z.of_nat neq)%Z -> (ng <= i < ng + mx')%Z -> q1 m i = q2 m (i + o)%Z.
Proof.
  intros H1 H2 Hm Hi.
  assert (RP : forall j, (0 <= j < mx' + 2 * ng - 1)%Z -> same_waves C (rps C qbc' auxbc') (rps C qbc auxbc) j (j + o) /\
    (forall m, amdq (rps C qbc' auxbc') m j = amdq (rps C qbc auxbc) m (j + o)%Z /\ apdq (rps C qbc' auxbc') m j = apdq (rps C qbc auxbc) m (j + o)%Z)).
  { intros j Hj. apply same_rp; [apply HS; lia|]. replace (j + o + 1)%Z with (j + 1 + o)%Z by lia. apply HS; lia. }
  assert (DD : forall j, (0 <= j < mx' + 2 * ng)%Z -> dtdx_of C auxbc' j = dtdx_of C auxbc (j + o)%Z).
  { intros j Hj. eapply same_dtdx; [exact HC|]. apply HS; exact Hj. }
  assert (QQ : forall j, (0 <= j < mx' + 2 * ng)%Z -> qbc' m j = qbc m (j + o)%Z).
  { intros j Hj. destruct (HS j Hj) as [E _]. exact (vec_inj _ _ _ _ _ m E Hm). }
  destruct L.
  - cbn [kernel] in H1, H2. injection H1 as H1. injection H2 as H2.
    replace q1 with (fst (q1, c1)) by reflexivity. replace q2 with (fst (q2, c2)) by reflexivity. rewrite <- H1, <- H2.
    apply (py_kernel_window pow C mx' o Hg Ho Hmx); try assumption.
    + intros j Hj. apply RP; exact Hj.
    + intros j Hj. apply RP; exact Hj.
  - cbn [kernel c_ng c_dt c_dx c_capa c_bc c_neq c_nw c_naux c_fwave c_order c_mthlim c_rp with_bc] in H1, H2.
    destruct (f_dtdx ng mx' _ _ _) as [d'|] eqn:Ed'; [|discriminate].
    destruct (f_dtdx ng mx _ _ _) as [d|] eqn:Ed; [|discriminate].
    destruct (f_kernel neq nw mx' _ _ _ _ _ _ _) as [qf' cf'] eqn:Ek'. destruct (f_kernel neq nw mx _ _ _ _ _ _ _) as [qf cf] eqn:Ek.
    injection H1 as <- _. injection H2 as <- _.
    replace qf with (fst (qf, cf)) by reflexivity. replace qf' with (fst (qf', cf')) by reflexivity. rewrite <- Ek, <- Ek'.
    replace (i + o - ng + 1)%Z with (i - ng + 1 + o)%Z by lia.
    assert (Hd : forall (a : Z -> Z -> Q) n d, f_dtdx ng n (c_dt C) (c_dx C) (option_map (fun k i => a k (i + ng - 1)%Z) (c_capa C)) = Some d ->
       forall j, d j = dtdx_of C a (j + ng - 1)%Z).
    { clear. intros a n d Ed j. unfold dtdx_of. unfold f_dtdx in Ed. destruct (c_capa C) as [kc|]; cbn [option_map py_dtdx] in *.
      - destruct (forallb _ _); [|discriminate]. injection Ed as <-. reflexivity.
      - injection Ed as <-. reflexivity. }
    assert (HR : forall (q a : Z -> Z -> Q) j,
       let RF := solve_rps (c_rp C) neq (c_naux C) (-1) (fun m i => q m (i + ng - 1)%Z) (fun m i => a m (i + ng - 1)%Z) in
       same_waves C RF (rps C q a) j (j + ng - 2) /\ (forall m, amdq RF m j = amdq (rps C q a) m (j + ng - 2)%Z /\ apdq RF m j = apdq (rps C q a) m (j + ng - 2)%Z)).
    { clear. intros q a j. cbv zeta.
      assert (E : c_rp C (vec neq (fun m i => q m (i + ng - 1)%Z) (j + -1)) (vec neq (fun m i => q m (i + ng - 1)%Z) (j + -1 + 1))
                  (vec (c_naux C) (fun m i => a m (i + ng - 1)%Z) (j + -1)) (vec (c_naux C) (fun m i => a m (i + ng - 1)%Z) (j + -1 + 1)) =
               c_rp C (vec neq q (j + ng - 2 + 0)) (vec neq q (j + ng - 2 + 0 + 1))
                  (vec (c_naux C) a (j + ng - 2 + 0)) (vec (c_naux C) a (j + ng - 2 + 0 + 1))).
      { f_equal; apply vec_ext; intros; f_equal; lia. }
      unfold same_waves. cbn [solve_rps rps wave spd amdq apdq]. rewrite E. auto. }
    apply (f_kernel_window undef C mx' o); try assumption; try lia.
    + intros j Hj. destruct (HR qbc' auxbc' j) as [[A1 A2] _]. destruct (HR qbc auxbc (j + o)%Z) as [[B1 B2] _].
      destruct (RP (j + ng - 2)%Z ltac:(lia)) as [[E1 E2] _]. replace (j + o + ng - 2)%Z with (j + ng - 2 + o)%Z in * by lia.
      split; intros; [rewrite A1, B1 by assumption; apply E1; assumption|rewrite A2, B2; apply E2].
    + intros j Hj. destruct (HR qbc' auxbc' j) as [_ A1]. destruct (HR qbc auxbc (j + o)%Z) as [_ B1].
      destruct (RP (j + ng - 2)%Z ltac:(lia)) as [_ E1]. replace (j + o + ng - 2)%Z with (j + ng - 2 + o)%Z in * by lia.
      destruct (A1 m) as [-> ->]. destruct (B1 m) as [-> ->]. apply E1.
    + intros j Hj. rewrite (Hd _ _ _ Ed'), (Hd _ _ _ Ed). rewrite DD by lia. f_equal. lia.
    + intros j Hj. rewrite QQ by lia. f_equal. lia.
Qed.

(** The local Courant numbers are Courant numbers of the serial run. *)
Lemma courant_window mw j x : (0 <= j < mx' + 2 * ng - 1)%Z ->
  In x (courant (dtdx_of C auxbc') (rps C qbc' auxbc') mw j) <-> In x (courant (dtdx_of C auxbc) (rps C qbc auxbc) mw (j + o)).
Proof.
  intros Hj. destruct (same_rp C qbc' auxbc' qbc auxbc j (j + o)) as [[_ E] _].
  - apply HS; lia.
  - replace (j + o + 1)%Z with (j + 1 + o)%Z by lia. apply HS; lia.
  - unfold courant. rewrite E.
    rewrite (same_dtdx C qbc' auxbc' qbc auxbc j (j + o) HC) by (apply HS; lia).
    rewrite (same_dtdx C qbc' auxbc' qbc auxbc (j + 1) (j + 1 + o) HC) by (apply HS; lia).
    replace (j + 1 + o)%Z with (j + o + 1)%Z by lia. reflexivity.
Qed.
End P.
