(** Proofs about parallel SharpClaw runs, part 4: reconstructions of the Fortran code that are local. *)
From Verif Require Import Base Classic1DModel Classic1DProofs Classic1DProofs2 Classic1DProofs3 WenoModel SemiModel ReconModel PSharpSpec PSharpProofs.

Lemma pyweno_window eps q q' i i' : (forall d, (-2 <= d <= 2)%Z -> q' (i' + d)%Z = q (i + d)%Z) -> pyweno eps q' i' = pyweno eps q i.
Proof.
  intros H. unfold pyweno.
  pose proof (H (-2) ltac:(lia))%Z as H1. pose proof (H (-1) ltac:(lia))%Z as H2. pose proof (H 0 ltac:(lia))%Z as H3.
  pose proof (H 1 ltac:(lia))%Z as H4. pose proof (H 2 ltac:(lia))%Z as H5. rewrite !Z.add_0_r in H3.
  change (i' - 1)%Z with (i' + -1)%Z. change (i - 1)%Z with (i + -1)%Z. change (i' - 2)%Z with (i' + -2)%Z. change (i - 2)%Z with (i + -2)%Z.
  rewrite H1, H2, H3, H4, H5. reflexivity.
Qed.
Lemma centre_window q q' i i' : (forall d, (-2 <= d <= 1)%Z -> q' (i' + d)%Z = q (i + d)%Z) -> centre q' i' = centre q i.
Proof.
  intros H. unfold centre.
  pose proof (H (-2) ltac:(lia))%Z as H1. pose proof (H (-1) ltac:(lia))%Z as H2. pose proof (H 0 ltac:(lia))%Z as H3.
  pose proof (H 1 ltac:(lia))%Z as H4. rewrite !Z.add_0_r in H3.
  change (i' - 1)%Z with (i' + -1)%Z. change (i - 1)%Z with (i + -1)%Z. change (i' - 2)%Z with (i' + -2)%Z. change (i - 2)%Z with (i + -2)%Z.
  rewrite H1, H2, H3, H4. reflexivity.
Qed.
Lemma correction_same eps k h h' : (k = 1 \/ k = -1)%Z -> (forall d, (-2 <= d <= 2)%Z -> (-2 <= k * d <= 1)%Z -> h' d = h d) -> correction eps k h' = correction eps k h.
Proof.
  intros Hk H. unfold correction. rewrite (H (-2 * k)%Z), (H (-k)%Z), (H 0%Z), (H k) by lia. reflexivity.
Qed.

Lemma weno5_local eps neq naux ng ql0 qr0 : (3 <= ng)%Z ->
  local_recon neq naux ng (fun n => fortran_weno5 eps ng n (ql0 n) (qr0 n)).
Proof.
  intros Hg n n' o q q' a a' Hn Ho Hb Hq Ha m Hm. unfold fortran_weno5, f_weno5. cbn [fst snd].
  split; intros i Hi; rewrite !in_slice_true by lia; f_equal; apply pyweno_window; intros d Hd;
    replace (i + ng + d - ng)%Z with (i + d)%Z by lia; rewrite Hq by lia; f_equal; lia.
Qed.
Lemma first_order_local neq naux ng : (1 <= ng)%Z -> local_recon neq naux ng (fun _ q _ => (q, q)).
Proof. intros Hg n n' o q q' a a' Hn Ho Hb Hq Ha m Hm. cbn [fst snd]. split; intros i Hi; apply Hq; lia. Qed.

(** Data of two grids around the interfaces. *)
Section Grid.
Variables (neq naux : nat) (ng n' o : Z) (q q' a a' : Z -> Z -> Q).
Hypothesis Hg : (3 <= ng)%Z.
Hypothesis Hn : (1 <= n')%Z.
Hypothesis Hq : forall m i, (0 <= m < Z.of_nat neq)%Z -> (1 - ng <= i <= n' + ng)%Z -> q' m i = q m (i + o)%Z.
Hypothesis Ha : forall m i, (0 <= m < Z.of_nat naux)%Z -> (1 - ng <= i <= n' + ng)%Z -> a' m i = a m (i + o)%Z.

Lemma eigen_window E i : (2 <= i <= n' + 2 * ng)%Z ->
  (forall p m, ev_left E neq naux ng q' a' p m i = ev_left E neq naux ng q a p m (i + o)%Z) /\
  (forall m p, ev_right E neq naux ng q' a' m p i = ev_right E neq naux ng q a m p (i + o)%Z).
Proof.
  intros Hi. unfold ev_left, ev_right.
  replace (i + o - 1 - ng)%Z with (i - 1 - ng + o)%Z by lia. replace (i + o - ng)%Z with (i - ng + o)%Z by lia.
  rewrite (vec_ext neq q' q (i - 1 - ng) (i - 1 - ng + o)), (vec_ext neq q' q (i - ng) (i - ng + o)) by (intros; apply Hq; lia).
  rewrite (vec_ext naux a' a (i - 1 - ng) (i - 1 - ng + o)), (vec_ext naux a' a (i - ng) (i - ng + o)) by (intros; apply Ha; lia).
  auto.
Qed.
Lemma dummy_window m i i' : (0 <= m < Z.of_nat neq)%Z -> (1 <= i <= n' + 2 * ng)%Z -> i' = (i + o)%Z -> dummy ng q' m i = dummy ng q m i'.
Proof. intros Hm Hi ->. unfold dummy. rewrite Hq by lia. f_equal. lia. Qed.
Lemma wave_window rp i i' : (2 <= i <= n' + 2 * ng)%Z -> i' = (i + o)%Z ->
  forall m p, wave (dummy_wave rp neq naux ng q' a') m p i = wave (dummy_wave rp neq naux ng q a) m p i'.
Proof.
  intros Hi -> m p. unfold dummy_wave. cbn [wave solve_rps].
  replace (i - ng + -1 + 1)%Z with (i - ng)%Z by lia. replace (i + o - ng + -1 + 1)%Z with (i - ng + o)%Z by lia.
  replace (i + o - ng + -1)%Z with (i - ng + -1 + o)%Z by lia.
  rewrite (vec_ext neq q' q (i - ng + -1) (i - ng + -1 + o)), (vec_ext neq q' q (i - ng) (i - ng + o)) by (intros; apply Hq; lia).
  rewrite (vec_ext naux a' a (i - ng + -1) (i - ng + -1 + o)), (vec_ext naux a' a (i - ng) (i - ng + o)) by (intros; apply Ha; lia).
  reflexivity.
Qed.
End Grid.

Lemma char_local eps E neq naux ng ql0 qr0 hh0 : (3 <= ng)%Z ->
  local_recon neq naux ng (fun n => char_recon eps E neq naux ng n (ql0 n) (qr0 n) (hh0 n)).
Proof.
  intros Hg n n' o q q' a a' Hn Ho Hb Hq Ha m Hm. unfold char_recon, undummy, weno5_char. cbn [fst snd].
  assert (K : forall k i i', (k = 1 \/ k = -1)%Z -> (ng + 1 <= i <= n' + ng + 1)%Z -> i' = (i + o)%Z ->
    centre (dummy ng q' m) i + zsum 0 neq (fun p => ev_right E neq naux ng q' a' m p i * correction eps k (char_h neq ng (n' + 2 * ng) (ev_left E neq naux ng q' a') (hh0 n') (dummy ng q') p i)) =
    centre (dummy ng q m) i' + zsum 0 neq (fun p => ev_right E neq naux ng q a m p i' * correction eps k (char_h neq ng (n + 2 * ng) (ev_left E neq naux ng q a) (hh0 n) (dummy ng q) p i'))).
  { intros k i i' Hk Hi ->. f_equal.
    - apply centre_window. intros d Hd. apply (dummy_window neq ng n' o q q' Hq); lia.
    - apply zsum_ext. intros p _. destruct (eigen_window neq naux ng n' o q q' a a' Hq Ha E i ltac:(lia)) as [EL ER]. rewrite ER. f_equal.
      apply correction_same; [exact Hk|]. intros d Hd Hd'. unfold char_h. rewrite !in_slice_true by lia.
      apply zsum_ext. intros m0 Hm0. rewrite EL.
      rewrite (dummy_window neq ng n' o q q' Hq m0 (i + d)%Z (i + o + d)%Z), (dummy_window neq ng n' o q q' Hq m0 (i + d - 1)%Z (i + o + d - 1)%Z) by lia. reflexivity. }
  split; intros i Hi; rewrite !in_slice_true by lia; apply K; lia.
Qed.
Lemma trans_local eps E neq naux ng ql0 qr0 hh0 : (3 <= ng)%Z ->
  local_recon neq naux ng (fun n => trans_recon eps E neq naux ng n (ql0 n) (qr0 n) (hh0 n)).
Proof.
  intros Hg n n' o q q' a a' Hn Ho Hb Hq Ha m Hm. unfold trans_recon, undummy, weno5_trans. cbn [fst snd].
  assert (K : forall k i i', (k = 1 \/ k = -1)%Z -> (ng + 1 <= i <= n' + ng + 1)%Z -> i' = (i + o)%Z ->
    centre (dummy ng q' m) i + zsum 0 neq (fun p => ev_right E neq naux ng q' a' m p i * correction eps k (trans_h neq ng (n' + 2 * ng) (ev_left E neq naux ng q' a') (ev_right E neq naux ng q' a') (hh0 n') (dummy ng q') p i)) =
    centre (dummy ng q m) i' + zsum 0 neq (fun p => ev_right E neq naux ng q a m p i' * correction eps k (trans_h neq ng (n + 2 * ng) (ev_left E neq naux ng q a) (ev_right E neq naux ng q a) (hh0 n) (dummy ng q) p i'))).
  { intros k i i' Hk Hi ->. f_equal.
    - apply centre_window. intros d Hd. apply (dummy_window neq ng n' o q q' Hq); lia.
    - apply zsum_ext. intros p _. destruct (eigen_window neq naux ng n' o q q' a a' Hq Ha E i ltac:(lia)) as [EL ER]. rewrite ER. f_equal.
      apply correction_same; [exact Hk|]. intros d Hd Hd'. unfold trans_h. rewrite !in_slice_true by lia.
      destruct (eigen_window neq naux ng n' o q q' a a' Hq Ha E (i + d) ltac:(lia)) as [EL2 ER2].
      assert (ES : strength neq (ev_left E neq naux ng q' a') (dummy ng q') p (i + d) = strength neq (ev_left E neq naux ng q a) (dummy ng q) p (i + o + d)).
      { unfold strength. apply zsum_ext. intros m0 Hm0. rewrite EL2.
        rewrite (dummy_window neq ng n' o q q' Hq m0 (i + d)%Z (i + o + d)%Z), (dummy_window neq ng n' o q q' Hq m0 (i + d - 1)%Z (i + o + d - 1)%Z) by lia.
        replace (i + d + o)%Z with (i + o + d)%Z by lia. reflexivity. }
      rewrite ES. apply zsum_ext. intros m0 Hm0. rewrite EL, ER2. replace (i + d + o)%Z with (i + o + d)%Z by lia. reflexivity. }
  split; intros i Hi; rewrite !in_slice_true by lia; apply K; lia.
Qed.
Lemma wave_local eps rp neq nw naux ng ql0 qr0 : (3 <= ng)%Z ->
  local_recon neq naux ng (fun n => wave_recon eps rp neq nw naux ng n (ql0 n) (qr0 n)).
Proof.
  intros Hg n n' o q q' a a' Hn Ho Hb Hq Ha m Hm. unfold wave_recon, undummy, f_weno5_wave. cbn [fst snd].
  set (w' := wave (dummy_wave rp neq naux ng q' a')). set (w := wave (dummy_wave rp neq naux ng q a)).
  assert (W : forall i i', (2 <= i <= n' + 2 * ng)%Z -> i' = (i + o)%Z -> forall m p, w' m p i = w m p i').
  { intros i i' Hi Ei. apply (wave_window neq naux ng n' o q q' a a' Hq Ha rp i i' Hi Ei). }
  assert (D : forall p i d, (ng + 1 <= i <= n' + ng + 1)%Z -> (-2 <= d <= 2)%Z -> wave_dot neq w' p i d = wave_dot neq w p (i + o) d).
  { intros p i d Hi Hd. unfold wave_dot. apply zsum_ext. intros m0 _. rewrite (W (i + d)%Z (i + o + d)%Z), (W i (i + o)%Z) by lia. reflexivity. }
  split; intros i Hi; rewrite !in_slice_true by lia.
  - f_equal.
    + apply centre_window. intros d Hd. apply (dummy_window neq ng n' o q q' Hq); lia.
    + apply zsum_ext. intros p _. rewrite !(D p (i + ng + 1)%Z 0%Z) by lia. rewrite (W (i + ng + 1)%Z (i + o + ng + 1)%Z) by lia.
      replace (i + ng + 1 + o)%Z with (i + o + ng + 1)%Z by lia.
      rewrite (correction_same eps 1 (wave_dot neq w p (i + o + ng + 1)) (wave_dot neq w' p (i + ng + 1))); [reflexivity|lia|].
      intros d Hd _. rewrite D by lia. f_equal. lia.
  - f_equal.
    + apply centre_window. intros d Hd. apply (dummy_window neq ng n' o q q' Hq); lia.
    + apply zsum_ext. intros p _. rewrite !(D p (i + ng)%Z 0%Z) by lia. rewrite (W (i + ng)%Z (i + o + ng)%Z) by lia.
      replace (i + ng + o)%Z with (i + o + ng)%Z by lia.
      rewrite (correction_same eps (-1) (wave_dot neq w p (i + o + ng)) (wave_dot neq w' p (i + ng))); [reflexivity|lia|].
      intros d Hd _. rewrite D by lia. f_equal. lia.
Qed.
Lemma tvd_char_local mthlim undef E neq naux ng ql0 qr0 : (2 <= ng)%Z ->
  local_recon neq naux ng (fun n => tvd_char_recon mthlim undef E neq naux ng n (ql0 n) (qr0 n)).
Proof.
  intros Hg n n' o q q' a a' Hn Ho Hb Hq Ha m Hm. unfold tvd_char_recon, undummy, tvd2_char. cbn [fst snd].
  assert (H : forall p i d, (ng + 1 <= i <= n' + ng + 1)%Z -> (-1 <= d <= 1)%Z ->
    tvd_h neq (ev_left E neq naux ng q' a') (dummy ng q') p i d = tvd_h neq (ev_left E neq naux ng q a) (dummy ng q) p (i + o) d).
  { intros p i d Hi Hd. unfold tvd_h. destruct (eigen_window neq naux ng n' o q q' a a' Hq Ha E i ltac:(lia)) as [EL _].
    apply zsum_ext. intros m0 Hm0. rewrite EL.
    rewrite (dummy_window neq ng n' o q q' Hq m0 (i + d)%Z (i + o + d)%Z), (dummy_window neq ng n' o q q' Hq m0 (i + d - 1)%Z (i + o + d - 1)%Z) by lia. reflexivity. }
  split; intros i Hi; rewrite !in_slice_true by lia.
  - f_equal; [apply (dummy_window neq ng n' o q q' Hq); lia|]. apply zsum_ext. intros p _. rewrite !H by lia.
    destruct (eigen_window neq naux ng n' o q q' a a' Hq Ha E (i + ng + 1) ltac:(lia)) as [_ ER]. rewrite ER.
    replace (i + ng + 1 + o)%Z with (i + o + ng + 1)%Z by lia. reflexivity.
  - f_equal; [apply (dummy_window neq ng n' o q q' Hq); lia|]. apply zsum_ext. intros p _. rewrite !H by lia.
    destruct (eigen_window neq naux ng n' o q q' a a' Hq Ha E (i + ng) ltac:(lia)) as [_ ER]. rewrite ER.
    replace (i + ng + o)%Z with (i + o + ng)%Z by lia. reflexivity.
Qed.
