(** Proofs about the unsplit method in three dimensions: transverse corrections in terms of faces. *)
From Verif Require Import Base BCModel BCSpec BCProofs LimiterModel LimiterProofs Classic1DModel Classic1DSpec
  Classic1DProofs Classic1DProofs2 ParallelProofs2 SweepModel SweepSpec SweepProofs SweepProofs2 SweepProofs3 SweepProofs4
  UnsplitModel UnsplitProofs UnsplitProofs2 UnsplitProofs3 CtuSpec CtuProofs Unsplit3Model Unsplit3Spec Unsplit3Proofs Unsplit3Proofs2 Ctu3Spec.

Lemma across_same d : (d < 3)%nat -> across d 2 = across1 d /\ across d 3 = across2 d /\ next d = across1 d /\ next (next d) = across2 d.
Proof. intros H. destruct d as [|[|[|d]]]; [repeat split..|lia]. Qed.
Lemma shifted_move d a b ix : (d < 3)%nat -> length ix = 3%nat -> shifted (next (next d)) b (shifted (next d) a ix) = move3 d a b ix.
Proof.
  intros Hd HL. destruct (across_same d Hd) as (_ & _ & -> & ->). destruct (across_3 d Hd) as (_ & _ & _ & _ & N).
  unfold shifted, move3. rewrite get_put_other by congruence. reflexivity.
Qed.
Lemma move3_move3 d a b a' b' ix : (d < 3)%nat -> length ix = 3%nat -> move3 d a b (move3 d a' b' ix) = move3 d (a' + a) (b' + b) ix.
Proof.
  intros Hd HL. apply (ext3 d); auto; [rewrite !move3_length; exact HL|rewrite move3_length; exact HL| | |];
    destruct (get_move3 d a b (move3 d a' b' ix) Hd ltac:(rewrite move3_length; exact HL)) as (A & B & C);
    destruct (get_move3 d a' b' ix Hd HL) as (A' & B' & C'); destruct (get_move3 d (a' + a) (b' + b) ix Hd HL) as (A'' & B'' & C''); lia.
Qed.
Lemma put_move3 d a b v ix : (d < 3)%nat -> length ix = 3%nat -> put d v (move3 d a b ix) = move3 d a b (put d v ix).
Proof.
  intros Hd HL. destruct (across_3 d Hd) as (H1 & H2 & H3 & H4 & H5).
  assert (LP : length (put d v ix) = 3%nat) by (rewrite put_length; exact HL).
  destruct (get_move3 d a b (put d v ix) Hd LP) as (A & B & C). destruct (get_move3 d a b ix Hd HL) as (A' & B' & C').
  apply (ext3 d); auto; [rewrite put_length, move3_length; exact HL|rewrite move3_length; exact LP| | |].
  - rewrite A, !get_put by (rewrite ?move3_length; lia). reflexivity.
  - rewrite B, !get_put_other by congruence. rewrite B'. reflexivity.
  - rewrite C, !get_put_other by congruence. rewrite C'. reflexivity.
Qed.
Lemma step_move d k ix : (d < 3)%nat -> length ix = 3%nat ->
  (shifted (across1 d) k ix = move3 d k 0 ix) /\ (shifted (across2 d) k ix = move3 d 0 k ix).
Proof.
  intros Hd HL. destruct (across_3 d Hd) as (H1 & H2 & H3 & H4 & H5). unfold shifted, move3. split.
  - rewrite Z.add_0_r. rewrite <- (get_put_other (across1 d) (across2 d) (get (across1 d) ix + k)%Z ix) at 1 by congruence.
    symmetry. apply put_get.
  - rewrite Z.add_0_r, put_get. reflexivity.
Qed.

Lemma vec_at n (f h : Z -> Z -> Q) i j : (forall m, (0 <= m < Z.of_nat n)%Z -> f m i = h m j) -> vec n f i = vec n h j.
Proof. intros H. unfold vec. apply map_ext_in. intros m Hm. apply in_seq in Hm. apply H. lia. Qed.

Lemma trans_cases order trans : described order trans ->
  (trans = 0 \/ trans = 10 \/ trans = 11 \/ (order <> 1 /\ (trans = 20 \/ trans = 21 \/ trans = 22)))%Z.
Proof. intros [H|[H K]]; cbn in H; intuition lia. Qed.

Section Faces.
Variable undef : Q -> Q -> Z -> Q.
Variable S : msettings.
Variable rpt : nat -> rpt3solver.
Variable rptt : nat -> rptt3solver.
Variable stale : nat -> list Z -> leftovers.
Variable trans : Z.
Notation neq := (n_neq S).
Notation g := (Z.of_nat (n_ng S)).
Notation ns := (map ncells (n_bcs S)).
Notation mxd d := (nth d ns 0%Z).
Variable auxbc x : arr Q.
Notation row d b a := (slice (n_ng S) d b a).

(** Cell i of the slice with base b *)
Definition cell3 (d : nat) (b : list Z) (i : Z) : list Z := put d (i + g - 1)%Z b.
Lemma row3_vec n d b a i : vec n (row d b a) i = cell_vec n a (cell3 d b i).
Proof. reflexivity. Qed.
Lemma cell3_length d b i : length (cell3 d b i) = length b.
Proof. apply put_length. Qed.
Lemma cell3_lower d b i : (d < length b)%nat -> lower d (cell3 d b i) = cell3 d b (i - 1).
Proof. intro H. unfold lower, cell3. rewrite get_put, put_put by exact H. f_equal. lia. Qed.
Lemma cell3_upper d b i : (d < length b)%nat -> upper d (cell3 d b i) = cell3 d b (i + 1).
Proof. intro H. unfold upper, cell3. rewrite get_put, put_put by exact H. f_equal. lia. Qed.
Notation R d b := (solve_rps (n_rpn S d) neq (n_naux S) (-1) (row d b x) (row d b auxbc)).
Lemma face3_R d b i : (d < length b)%nat ->
  (forall m p, wave (R d b) m p i = face_wave S auxbc x d (cell3 d b i) m p) /\
  (forall p, spd (R d b) p i = o_s (at_face S auxbc x d (cell3 d b i)) p) /\
  (forall m, amdq (R d b) m i = o_am (at_face S auxbc x d (cell3 d b i)) m) /\
  (forall m, apdq (R d b) m i = o_ap (at_face S auxbc x d (cell3 d b i)) m).
Proof.
  intro Hd. unfold face_wave, at_face. rewrite (cell3_lower d b i Hd). cbn [solve_rps wave spd amdq apdq].
  rewrite !row3_vec. replace (i + -1 + 1)%Z with i by lia. replace (i + -1)%Z with (i - 1)%Z by lia. auto.
Qed.
Lemma row3_ratio d b i : line_dtdx S d (row d b auxbc) i = cell_ratio S d auxbc (cell3 d b i).
Proof. unfold line_dtdx, cell_ratio, slice, cell3. destruct (n_capa S); reflexivity. Qed.
Lemma dot3_R d b i i' p : (d < length b)%nat ->
  zsum 0 neq (fun m => wave (R d b) m p i * wave (R d b) m p i') = dot S auxbc x d (cell3 d b i) (cell3 d b i') p.
Proof.
  intro Hd. unfold dot. apply zsum_ext. intros m Hm. destruct (face3_R d b i Hd) as (E & _). destruct (face3_R d b i' Hd) as (E' & _).
  rewrite E, E'. reflexivity.
Qed.
Lemma limited3_R d b i m p : (d < length b)%nat -> (1 <= i <= mxd d + 1)%Z ->
  (if any_limiter (n_nw S) (n_mthlim S) then f_limiter neq (mxd d) (n_mthlim S) undef (wave (R d b)) (spd (R d b)) else wave (R d b)) m p i =
  limited_wave undef S auxbc x d (cell3 d b i) m p.
Proof.
  intros Hd Hi. destruct (face3_R d b i Hd) as (EW & ES & _). unfold limited_wave. cbv zeta. destruct (any_limiter _ _); cbn [negb orb]; [|apply EW].
  unfold f_limiter. destruct (Z.eqb (n_mthlim S p) 0); cbn [orb]; [apply EW|].
  replace (Z.to_nat (mxd d + 2)) with (Datatypes.S (Z.to_nat (mxd d + 1))) by lia. rewrite f_limiter_exact by lia.
  unfold f_lim_at. cbv zeta. rewrite ES, !dot3_R, EW by exact Hd. rewrite (cell3_lower d b i Hd), (cell3_upper d b i Hd).
  destruct (qeqb _ 0); [reflexivity|]. unfold f_phi. reflexivity.
Qed.
Lemma correction3_R d b i m : (d < length b)%nat -> (1 <= i <= mxd d + 1)%Z ->
  f_cqxx (n_nw S) (n_fwave S) (line_dtdx S d (row d b auxbc)) (spd (R d b))
    (if any_limiter (n_nw S) (n_mthlim S) then f_limiter neq (mxd d) (n_mthlim S) undef (wave (R d b)) (spd (R d b)) else wave (R d b)) m i =
  correction undef S auxbc x d (cell3 d b i) m.
Proof.
  intros Hd Hi. destruct (face3_R d b i Hd) as (_ & ES & _). unfold f_cqxx, correction. cbv zeta. rewrite !row3_ratio.
  rewrite (cell3_lower d b i Hd). apply zsum_ext. intros p Hp. rewrite ES, limited3_R by assumption. reflexivity.
Qed.

(** ** The transverse solvers at a face *)
Notation auxs d b := (map (fun o => row d (move3 d (fst o) (snd o) b) auxbc) nine).
Lemma around_R d b i : (d < 3)%nat -> length b = 3%nat -> map (fun a => vec (n_naux S) a i) (auxs d b) = around S auxbc d (cell3 d b i).
Proof.
  intros Hd HL. rewrite map_map. unfold around. apply map_ext. intros [u v]. cbn [fst snd].
  rewrite shifted_move by (assumption || (rewrite cell3_length; exact HL)). rewrite row3_vec. unfold cell3. rewrite put_move3 by assumption. reflexivity.
Qed.
Lemma aux22_R d b : (d < 3)%nat -> length b = 3%nat -> aux22 (auxs d b) = row d b auxbc.
Proof. intros Hd HL. unfold aux22. cbn [nine map nth fst snd]. rewrite move3_0 by assumption. reflexivity. Qed.

Section Slice.
Variables (d : nat) (b : list Z).
Hypothesis Hd : (d < 3)%nat.
Hypothesis HLb : length b = 3%nat.
Notation q1 := (row d b x).
Notation dtdx1 := (line_dtdx S d (row d b auxbc)).
Notation A := (auxs d b).
Notation cx := (cqxx3 neq (n_nw S) (n_naux S) (mxd d) (n_fwave S) (n_order S) (n_mthlim S) undef (n_rpn S d) (stale d b) q1 dtdx1 A).
Notation sp := (split3 neq (n_naux S) (rpt d) q1 A).
Notation inc := (incr neq (n_naux S) (n_rpn S d) (rpt d) q1 A).
Notation cor := (corr neq (n_nw S) (n_naux S) (mxd d) (n_fwave S) (n_order S) trans (n_mthlim S) undef (n_rpn S d) (rpt d) (stale d b) q1 dtdx1 A).
Notation bth := (both neq (n_nw S) (n_naux S) (mxd d) (n_fwave S) (n_order S) trans (n_mthlim S) undef (n_rpn S d) (rpt d) (stale d b) q1 dtdx1 A).
Notation dbl := (double neq (n_nw S) (n_naux S) (mxd d) (n_fwave S) (n_order S) trans (n_mthlim S) undef (n_rpn S d) (rpt d) (rptt d) (stale d b) q1 dtdx1 A).
Notation prt := (part3 neq (n_nw S) (n_naux S) (mxd d) (n_fwave S) (n_order S) trans (n_mthlim S) undef (n_rpn S d) (rpt d) (rptt d) (stale d b) q1 dtdx1 A).
Notation c3 i := (cell3 d b i).

Lemma cqxx3_R m i : n_order S <> 1%Z -> (1 <= i <= mxd d + 1)%Z -> cx m i = (1 # 2) * correction undef S auxbc x d (c3 i) m.
Proof.
  intros Ho Hi. unfold cqxx3. replace (Z.eqb (n_order S) 1) with false by (symmetry; apply Z.eqb_neq; exact Ho).
  unfold rp_sol. rewrite aux22_R by assumption. rewrite correction3_R by (assumption || lia). reflexivity.
Qed.
Lemma split3_R icoor imp dq f i : (forall m, (0 <= m < Z.of_nat neq)%Z -> dq m i = f m 0%Z) ->
  sp icoor imp dq i = rpt d icoor imp (cell_vec neq x (lower d (c3 i))) (cell_vec neq x (c3 i)) (around S auxbc d (lower d (c3 i))) (around S auxbc d (c3 i)) (vec neq f 0).
Proof.
  intros H. unfold split3. rewrite !around_R by assumption. rewrite !row3_vec, cell3_lower by lia. f_equal. apply vec_at. exact H.
Qed.
Lemma incr_R icoor imp up m i : inc icoor imp up m i = side up (increment S rpt auxbc x d (c3 i) icoor imp) m.
Proof.
  unfold incr, increment. f_equal. f_equal. apply split3_R. intros c Hc. unfold rp_sol. rewrite aux22_R by assumption.
  destruct (face3_R d b i ltac:(lia)) as (_ & _ & E1 & E2). destruct (Z.eqb imp 1); [apply E1|apply E2].
Qed.
Lemma corr_R icoor imp up m i : n_order S <> 1%Z -> digit3 trans = 2%Z -> (1 <= i <= mxd d + 1)%Z ->
  cor icoor imp up m i = side up (split_correction undef S rpt auxbc x d (c3 i) icoor imp) m.
Proof.
  intros Ho Ht Hi. unfold corr, split_correction. rewrite Ht. cbn [Z.eqb Pos.eqb]. f_equal. f_equal.
  apply split3_R. intros c Hc. apply cqxx3_R; assumption.
Qed.
Hypothesis Hdes : described (n_order S) trans.
Lemma double_R icoor imp top up m i : edges trans = true -> (1 <= i <= mxd d + 1)%Z ->
  dbl icoor imp top up m i = side up (twice undef S rpt rptt trans auxbc x d (c3 i) icoor imp top) m.
Proof.
  intros He Hi. unfold double, twice. rewrite !around_R by assumption. rewrite !row3_vec, cell3_lower by lia.
  assert (V : vec neq (bth icoor imp top) i = vec neq (fun m _ => to_edge undef S rpt trans auxbc x d (c3 i) icoor imp top m) 0); [|rewrite V; reflexivity].
  apply vec_at. intros c Hc. unfold both, to_edge. cbv zeta. rewrite incr_R.
  assert (T2 : Z.eqb (digit4 trans) 2 = Z.eqb trans 22) by (destruct (trans_cases _ _ Hdes) as [T|[T|[T|[Ho [T|[T|T]]]]]]; rewrite T; reflexivity).
  assert (T1 : Z.eqb trans 22 = false -> Z.eqb (digit4 trans) 1 = true)
    by (intros K; destruct (trans_cases _ _ Hdes) as [T|[T|[T|[Ho [T|[T|T]]]]]]; rewrite T in He, K |- *; try discriminate He; try discriminate K; reflexivity).
  rewrite T2. destruct (Z.eqb trans 22) eqn:T; cbn [negb]; [|rewrite T1 by reflexivity; reflexivity].
  assert (n_order S <> 1%Z) by (destruct (trans_cases _ _ Hdes) as [K|[K|[K|[Ho _]]]]; try exact Ho; rewrite K in T; discriminate T).
  assert (digit3 trans = 2%Z) by (apply Z.eqb_eq in T; rewrite T; reflexivity).
  rewrite corr_R by assumption. reflexivity.
Qed.
Lemma part3_R icoor imp up layer m i : (icoor = 2 \/ icoor = 3)%Z -> (trans <> 0)%Z -> (1 <= i <= mxd d + 1)%Z -> In layer [-1; 0; 1]%Z ->
  prt icoor imp (n_dt S / n_delta S (across d (5 - icoor))) up layer m i == piece undef S rpt rptt trans auxbc x d (c3 i) icoor imp up layer m.
Proof.
  intros Hc Ht Hi Hl.
  assert (E4 : Z.ltb 0 (digit4 trans) = edges trans) by (destruct (trans_cases _ _ Hdes) as [T|[T|[T|[Ho [T|[T|T]]]]]]; rewrite T; reflexivity).
  assert (E3 : Z.leb 2 (digit3 trans) = corrections trans) by (destruct (trans_cases _ _ Hdes) as [T|[T|[T|[Ho [T|[T|T]]]]]]; rewrite T; reflexivity).
  assert (DB : forall top, edges trans = true -> dbl icoor imp top up m i = side up (twice undef S rpt rptt trans auxbc x d (c3 i) icoor imp top) m)
    by (intros top He; apply double_R; assumption).
  assert (CB : corrections trans = true -> cor icoor imp up m i = side up (split_correction undef S rpt auxbc x d (c3 i) icoor imp) m).
  { intros K. apply corr_R; [|destruct (trans_cases _ _ Hdes) as [T|[T|[T|[Ho [T|[T|T]]]]]]; rewrite T in *; try discriminate K; reflexivity|exact Hi].
    destruct (trans_cases _ _ Hdes) as [T|[T|[T|[Ho _]]]]; try exact Ho; rewrite T in K; discriminate K. }
  unfold part3, piece. cbv zeta. rewrite E4, E3, incr_R.
  destruct Hl as [<-|[<-|[<-|[]]]]; destruct (edges trans); rewrite ?DB by reflexivity; try ring; destruct (corrections trans); rewrite ?CB by reflexivity;
    try destruct (Z.eqb imp 1); ring.
Qed.
Lemma add3_R icoor dtc up layer m i : (icoor = 2 \/ icoor = 3)%Z -> (trans <> 0)%Z -> dtc = n_dt S / n_delta S (across d (5 - icoor)) ->
  (1 <= i <= mxd d)%Z -> In layer [-1; 0; 1]%Z ->
  add3 neq (n_nw S) (n_naux S) (mxd d) (n_fwave S) (n_order S) trans (n_mthlim S) undef (n_rpn S d) (rpt d) (rptt d) (stale d b) q1 dtdx1 A icoor dtc up layer m i
  == leaves undef S rpt rptt trans auxbc x d (c3 i) icoor up layer m.
Proof.
  intros Hc Ht -> Hi Hl. unfold add3, leaves. rewrite !in_slice_true by lia. rewrite !part3_R by (assumption || lia).
  rewrite row3_ratio, cell3_upper by lia. ring.
Qed.
End Slice.
Hypothesis Hdes : described (n_order S) trans.
Notation F d b := (u3_flux undef S rpt rptt stale trans d auxbc x b).
Notation lv := (leaves undef S rpt rptt trans auxbc x).
Lemma gh_R d ix o up layer m : (d < 3)%nat -> length ix = 3%nat -> (g <= get d ix < g + mxd d)%Z -> (trans <> 0)%Z -> In layer [-1; 0; 1]%Z ->
  g3add (F d (from_slice d ix o)) up layer m (get d ix - g + 1) == lv d (move3 d (- fst o) (- snd o) ix) 2%Z up layer m /\
  h3add (F d (from_slice d ix o)) up layer m (get d ix - g + 1) == lv d (move3 d (- fst o) (- snd o) ix) 3%Z up layer m.
Proof.
  intros Hd HL Hi Ht Hl. destruct (across_same d Hd) as (A2 & A3 & _).
  assert (D : Z.leb (digit3 trans) 0 = false)
    by (destruct (trans_cases _ _ Hdes) as [T|[T|[T|[Ho [T|[T|T]]]]]]; [contradiction|rewrite T; reflexivity..]).
  assert (C : cell3 d (from_slice d ix o) (get d ix - g + 1) = move3 d (- fst o) (- snd o) ix).
  { unfold cell3, from_slice. rewrite put_move3 by (assumption || (rewrite put_length; exact HL)). rewrite put_put.
    replace (get d ix - g + 1 + g - 1)%Z with (get d ix) by lia. rewrite put_get. reflexivity. }
  unfold u3_flux, flux3. cbv zeta. rewrite D. cbn [g3add h3add]. rewrite <- C. split.
  - apply add3_R; try assumption; try lia; [rewrite from_slice_length; exact HL|]. change (5 - 2)%Z with 3%Z. rewrite A3. reflexivity.
  - apply add3_R; try assumption; try lia; [rewrite from_slice_length; exact HL|]. change (5 - 3)%Z with 2%Z. rewrite A2. reflexivity.
Qed.
Lemma trans3_R d m ix : (d < 3)%nat -> interior3 S ix ->
  u3_trans undef S rpt rptt stale trans auxbc x d m ix ==
  across_change undef S rpt rptt trans auxbc x d 2 ix m + across_change undef S rpt rptt trans auxbc x d 3 ix m.
Proof.
  intros Hd [HL HI]. pose proof (HI d Hd) as Hi. unfold u3_trans, across_change. destruct (Z.eqb_spec trans 0) as [T|T].
  - unfold over_cap, nine, lsum, tau, u3_flux, flux3. rewrite T. cbn [Z.leb digit3 Z.ltb Z.compare Z.div Z.div_eucl g3add h3add fold_right fst snd]. cbv zeta.
    destruct (n_capa S); unfold Qdiv; ring.
  - destruct (across_same d Hd) as (A2 & A3 & _). unfold through. cbv zeta. change (5 - 2)%Z with 3%Z. change (5 - 3)%Z with 2%Z. rewrite A2, A3.
    assert (LO1 : forall y, length y = 3%nat -> lower (across1 d) y = move3 d (-1) 0 y)
      by (intros y Hy; destruct (step_move d (-1) y Hd Hy) as [E _]; rewrite <- E; unfold lower, shifted; f_equal).
    assert (LO2 : forall y, length y = 3%nat -> lower (across2 d) y = move3 d 0 (-1) y)
      by (intros y Hy; destruct (step_move d (-1) y Hd Hy) as [_ E]; rewrite <- E; unfold lower, shifted; f_equal).
    assert (UP1 : forall y, length y = 3%nat -> upper (across1 d) y = move3 d 1 0 y)
      by (intros y Hy; destruct (step_move d 1 y Hd Hy) as [E _]; rewrite <- E; reflexivity).
    assert (UP2 : forall y, length y = 3%nat -> upper (across2 d) y = move3 d 0 1 y)
      by (intros y Hy; destruct (step_move d 1 y Hd Hy) as [_ E]; rewrite <- E; reflexivity).
    assert (SH1 : forall k y, length y = 3%nat -> shifted (across1 d) k y = move3 d k 0 y) by (intros k y Hy; apply (step_move d k y Hd Hy)).
    assert (SH2 : forall k y, length y = 3%nat -> shifted (across2 d) k y = move3 d 0 k y) by (intros k y Hy; apply (step_move d k y Hd Hy)).
    assert (ML : forall a b, length (move3 d a b ix) = 3%nat) by (intros; rewrite move3_length; exact HL).
    assert (MM : forall a b a' b', move3 d a b (move3 d a' b' ix) = move3 d (a' + a) (b' + b) ix) by (intros; apply move3_move3; assumption).
    rewrite UP1, UP2 by exact HL. rewrite !SH1, !SH2 by (exact HL || apply ML). rewrite !MM. rewrite !LO1, !LO2 by apply ML. rewrite !MM. cbn [Z.add Z.opp Pos.add Z.pos_sub].
    unfold nine, lsum, tau. cbn [fold_right fst snd]. cbv zeta.
    assert (GG : forall o up layer, In layer [-1; 0; 1]%Z -> g3add (F d (from_slice d ix o)) up layer m (get d ix - g + 1) == lv d (move3 d (- fst o) (- snd o) ix) 2%Z up layer m)
      by (intros; apply gh_R; assumption).
    assert (HH : forall o up layer, In layer [-1; 0; 1]%Z -> h3add (F d (from_slice d ix o)) up layer m (get d ix - g + 1) == lv d (move3 d (- fst o) (- snd o) ix) 3%Z up layer m)
      by (intros; apply gh_R; assumption).
    unfold over_cap, mcapacity. destruct (n_capa S); rewrite !GG, !HH by (cbn; tauto); cbn [fst snd Z.opp]; [unfold Qdiv|unfold Qdiv; change (/ 1) with 1]; ring.
Qed.
End Faces.

Theorem corner_transport3 pow undef S rpt rptt stale trans q aux qbc0 auxbc0 qbc auxbc Dx Dy Dz m i j k ux cx uy cy uz cz :
  n_bcs S = [Dx; Dy; Dz] -> (1 <= n_ng S)%nat -> described (n_order S) trans ->
  (0 <= m < Z.of_nat (n_neq S))%Z -> (0 <= i < ncells Dx)%Z -> (0 <= j < ncells Dy)%Z -> (0 <= k < ncells Dz)%Z ->
  apply_bcs Q Qopp (n_ng S) (Nat.ltb 0 (n_naux S)) (n_funs S) (Z.of_nat (n_neq S)) (n_bcs S) q aux qbc0 auxbc0 = Ok (qbc, auxbc) ->
  let a := (i + Z.of_nat (n_ng S))%Z in let b := (j + Z.of_nat (n_ng S))%Z in let c := (k + Z.of_nat (n_ng S))%Z in
  kernel pow undef Fortran (line_settings S 0 Dx) (fun n e => qbc n [e; b; c]) (fun n e => auxbc n [e; b; c]) = Some (ux, cx) ->
  kernel pow undef Fortran (line_settings S 1 Dy) (fun n e => qbc n [a; e; c]) (fun n e => auxbc n [a; e; c]) = Some (uy, cy) ->
  kernel pow undef Fortran (line_settings S 2 Dz) (fun n e => qbc n [a; b; e]) (fun n e => auxbc n [a; b; e]) = Some (uz, cz) ->
  let change d := across_change undef S rpt rptt trans auxbc qbc d 2 [a; b; c] m + across_change undef S rpt rptt trans auxbc qbc d 3 [a; b; c] m in
  exists q' cfl, unsplit3_step undef S rpt rptt stale trans q aux qbc0 auxbc0 = MStepped q' cfl /\
  q' m [i; j; k] == ux m a + uy m b + uz m c - 2 * qbc m [a; b; c] + (change 0%nat + change 1%nat + change 2%nat).
Proof.
  intros HB Hg Hdes Hm Hi Hj Hk E a b c KX KY KZ change. unfold unsplit3_step. rewrite E. cbv zeta. eexists. eexists. split; [reflexivity|].
  unfold set_q_from_qbc. cbn [shift map]. fold a b c.
  assert (Hlen : length (n_bcs S) = 3%nat) by (rewrite HB; reflexivity).
  assert (Hns : map ncells (n_bcs S) = [ncells Dx; ncells Dy; ncells Dz]) by (rewrite HB; reflexivity).
  assert (Hn : Forall (fun n => 0 <= n)%Z (map ncells (n_bcs S))) by (rewrite Hns; repeat constructor; lia).
  assert (IX : interior3 S [a; b; c]).
  { split; [reflexivity|]. rewrite Hns. intros [|[|[|d]]] Hd; cbn [get nth]; unfold a, b, c; lia. }
  rewrite (step3_value undef S rpt rptt stale trans Hg auxbc qbc Hlen Hn (layers S) m [a; b; c] (layers_nonneg S) IX).
  destruct (sweep_at undef S Hg Hn (layers S) false 0 auxbc qbc (layers_nonneg S) ltac:(lia)) as [AX _].
  destruct (sweep_at undef S Hg Hn (layers S) false 1 auxbc qbc (layers_nonneg S) ltac:(lia)) as [AY _].
  destruct (sweep_at undef S Hg Hn (layers S) false 2 auxbc qbc (layers_nonneg S) ltac:(lia)) as [AZ _].
  assert (LY : (0 <= layers S)%Z) by apply layers_nonneg.
  rewrite <- AX, <- AY, <- AZ by exact Hm.
  rewrite (sweep_1d pow undef S Hg Hn 0 false auxbc qbc m [a; b; c] Dx ux cx); [| |split; [rewrite Hlen; reflexivity|]| | |]; [|lia| |rewrite Hns; reflexivity|exact Hm|exact KX].
  2:{ rewrite Hns, Hlen. intros [|[|[|e]]] He; cbn [Nat.eqb get nth]; unfold a, b, c; lia. }
  rewrite (sweep_1d pow undef S Hg Hn 1 false auxbc qbc m [a; b; c] Dy uy cy); [| |split; [rewrite Hlen; reflexivity|]| | |]; [|lia| |rewrite Hns; reflexivity|exact Hm|exact KY].
  2:{ rewrite Hns, Hlen. intros [|[|[|e]]] He; cbn [Nat.eqb get nth]; unfold a, b, c; lia. }
  rewrite (sweep_1d pow undef S Hg Hn 2 false auxbc qbc m [a; b; c] Dz uz cz); [| |split; [rewrite Hlen; reflexivity|]| | |]; [|lia| |rewrite Hns; reflexivity|exact Hm|exact KZ].
  2:{ rewrite Hns, Hlen. intros [|[|[|e]]] He; cbn [Nat.eqb get nth]; unfold a, b, c; lia. }
  cbn [get]. unfold change. rewrite !trans3_R by (assumption || lia). ring.
Qed.
