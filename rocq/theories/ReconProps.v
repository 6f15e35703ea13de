(** Properties C82-C86: reconstruction in characteristic variables and from waves, and the second-order
    reconstructions. *)
From Verif Require Import Base Classic1DModel Classic1DProofs BCModel BCSpec Classic1DSpec WenoModel WenoSpec WenoProofs WenoProps
  Classic1DProps SweepProofs UnsplitProofs SemiModel SemiSpec SemiProofs SemiProps ReconModel ReconSpec ReconProofs.

(** ** C82: characteristic-wise WENO (char_decomp = 2) *)
Theorem C82_char_weno : forall eps neq ng mx2 ql0 qr0 evl evr hh0 q i,
  0 < eps -> (3 <= ng)%Z -> (ng + 1 <= i <= mx2 - ng + 1)%Z ->
  inverse neq (fun m p => evr m p i) (fun p m => evl p m i) ->
  let e := weno5_char eps neq ng mx2 ql0 qr0 evl evr hh0 q in
  char_weno_right (fun _ => eps / 12) neq (fun m p => evr m p i) (fun p m => evl p m i) q (i - 1) (fun m => snd e m (i - 1)%Z) /\
  char_weno_left (fun _ => eps / 12) neq (fun m p => evr m p i) (fun p m => evl p m i) q i (fun m => fst e m i).
Proof.
  intros eps neq ng mx2 ql0 qr0 evl evr hh0 q i He Hg Hi HI e. unfold e, weno5_char. cbn [fst snd].
  rewrite !in_slice_yes by lia. replace (i - 1 + 1)%Z with i by lia. set (v := char_var neq (fun p m => evl p m i) q).
  split.
  - exists (fun p => correction eps 1 (fun d => v p (i + d)%Z - v p (i + d - 1)%Z) + centre (v p) i). split.
    + intros p Hp. apply correction_right. exact He.
    + intros m Hm. apply char_side; [lia|exact HI|exact Hm].
  - exists (fun p => correction eps (-1) (fun d => v p (i + d)%Z - v p (i + d - 1)%Z) + centre (v p) i). split.
    + intros p Hp. apply correction_left. exact He.
    + intros m Hm. apply char_side; [lia|exact HI|exact Hm].
Qed.
Print Assumptions C82_char_weno.

(** Reconstruction in characteristic variables is exact for polynomials of degree two. *)
Definition comb (n : nat) (L : Z -> Z -> Q) (P : Z -> quad) (p : Z) : quad :=
  mkQuad (zsum 0 n (fun m => L p m * qa (P m))) (zsum 0 n (fun m => L p m * qb (P m))) (zsum 0 n (fun m => L p m * qc (P m))).
Lemma comb_average n L P p j : average (comb n L P p) j == zsum 0 n (fun m => L p m * average (P m) j).
Proof.
  unfold average, comb. cbn [qa qb qc]. set (x := inject_Z j). set (y := x * x + (1 # 12)).
  transitivity (zsum 0 n (fun m => L p m * qa (P m) + (x * (L p m * qb (P m)) + y * (L p m * qc (P m))))).
  - rewrite !zsum_plus, !zsum_scale. ring.
  - apply zsum_eq. intros. ring.
Qed.
Lemma comb_value n L P p x : value (comb n L P p) x == char_var n L (fun m _ => value (P m) x) p 0.
Proof.
  unfold value, comb, char_var. cbn [qa qb qc].
  transitivity (zsum 0 n (fun m => L p m * qa (P m) + (x * (L p m * qb (P m)) + (x * x) * (L p m * qc (P m))))).
  - rewrite !zsum_plus, !zsum_scale. ring.
  - apply zsum_eq. intros. ring.
Qed.
Lemma comb_fits n L P q p j : (forall m d, (0 <= m < Z.of_nat n)%Z -> (-2 <= d <= 2)%Z -> q m (j + d)%Z == average (P m) d) ->
  forall d, (-2 <= d <= 2)%Z -> char_var n L q p (j + d) == average (comb n L P p) d.
Proof. intros H d Hd. rewrite comb_average. unfold char_var. apply zsum_eq. intros m Hm. rewrite H by lia. reflexivity. Qed.
Lemma char_weno_exact (ep : Z -> Q) n R L q j v P : (forall p, (0 <= p < Z.of_nat n)%Z -> 0 < ep p) -> inverse n R L ->
  (forall m d, (0 <= m < Z.of_nat n)%Z -> (-2 <= d <= 2)%Z -> q m (j + d)%Z == average (P m) d) ->
  (char_weno_right ep n R L q j v -> forall m, (0 <= m < Z.of_nat n)%Z -> v m == value (P m) (1 # 2)) /\
  (char_weno_left ep n R L q j v -> forall m, (0 <= m < Z.of_nat n)%Z -> v m == value (P m) (-(1 # 2))).
Proof.
  intros He HI H. split; intros (u & Hu & Hv) m Hm; rewrite (Hv m Hm).
  - rewrite <- (char_recover n R L (fun m _ => value (P m) (1 # 2)) m 0 HI Hm). apply zsum_eq. intros p Hp.
    rewrite <- comb_value. rewrite (proj1 (C31_exact (ep p) (char_var n L q p) j (comb n L P p) (u p) (He p Hp) (comb_fits n L P q p j H)) (Hu p Hp)). reflexivity.
  - rewrite <- (char_recover n R L (fun m _ => value (P m) (-(1 # 2))) m 0 HI Hm). apply zsum_eq. intros p Hp.
    rewrite <- comb_value. rewrite (proj2 (C31_exact (ep p) (char_var n L q p) j (comb n L P p) (u p) (He p Hp) (comb_fits n L P q p j H)) (Hu p Hp)). reflexivity.
Qed.
Theorem C82_char_exact : forall eps neq ng mx2 ql0 qr0 evl evr hh0 q i P,
  0 < eps -> (3 <= ng)%Z -> inverse neq (fun m p => evr m p i) (fun p m => evl p m i) ->
  let e := weno5_char eps neq ng mx2 ql0 qr0 evl evr hh0 q in
  ((ng + 1 <= i <= mx2 - ng + 1)%Z ->
   (forall m d, (0 <= m < Z.of_nat neq)%Z -> (-2 <= d <= 2)%Z -> q m (i - 1 + d)%Z == average (P m) d) ->
   forall m, (0 <= m < Z.of_nat neq)%Z -> snd e m (i - 1)%Z == value (P m) (1 # 2)) /\
  ((ng + 1 <= i <= mx2 - ng + 1)%Z ->
   (forall m d, (0 <= m < Z.of_nat neq)%Z -> (-2 <= d <= 2)%Z -> q m (i + d)%Z == average (P m) d) ->
   forall m, (0 <= m < Z.of_nat neq)%Z -> fst e m i == value (P m) (-(1 # 2))).
Proof.
  intros eps neq ng mx2 ql0 qr0 evl evr hh0 q i P He Hg HI e.
  assert (E12 : 0 < eps / 12) by (apply Qdiv_pos; lra).
  split; intros Hi H; destruct (C82_char_weno eps neq ng mx2 ql0 qr0 evl evr hh0 q i He Hg Hi HI) as [A B].
  - exact (proj1 (char_weno_exact (fun _ => eps / 12) neq _ _ q (i - 1) (fun m => snd e m (i - 1)%Z) P (fun _ _ => E12) HI H) A).
  - exact (proj2 (char_weno_exact (fun _ => eps / 12) neq _ _ q i (fun m => fst e m i) P (fun _ _ => E12) HI H) B).
Qed.
Print Assumptions C82_char_exact.

(** Acoustics with impedance 2: the eigenvectors are (-2, 1) and (2, 1). *)
Definition ac_R (m p : Z) : Q := if Z.eqb m 0 then (if Z.eqb p 0 then -(2) else 2) else 1.
Definition ac_L (p m : Z) : Q := if Z.eqb m 0 then (if Z.eqb p 0 then -(1 # 4) else 1 # 4) else 1 # 2.
Lemma ac_inverse : inverse 2 ac_R ac_L.
Proof.
  intros m m' Hm Hm'. assert (E : (m = 0 \/ m = 1)%Z) by lia. assert (E' : (m' = 0 \/ m' = 1)%Z) by lia.
  destruct E as [E|E], E' as [E'|E']; subst m m'; vm_compute; reflexivity.
Qed.
Definition ac_q (m i : Z) : Q := if Z.eqb m 0 then (if Z.leb 5 i then 1 else 0) else (if Z.leb 6 i then 3 else inject_Z i).
Example C82_instance : inverse 2 (fun m p => (fun m p _ => ac_R m p) m p 5%Z) (fun p m => (fun p m _ => ac_L p m) p m 5%Z) /\
  let e := weno5_char (1 # 1000) 2 3 10 (fun _ _ => 0) (fun _ _ => 0) (fun p m _ => ac_L p m) (fun m p _ => ac_R m p) (fun _ _ _ => 0) ac_q in
  qltb (1 # 10) (snd e 0%Z 4%Z) = true.
Proof. split; [exact ac_inverse|]. vm_compute. reflexivity. Qed.

(** ** C83: transmission-based WENO (char_decomp = 3) *)
(** With constant eigenvectors the transmission-based reconstruction should be the characteristic-wise one.  This
    holds only if the rows of L and R (the index of evr is transposed in the code) have product one. *)
Theorem C83_trans_partial : forall eps neq ng mx2 ql0 qr0 L R hh0 q i,
  0 < eps -> (3 <= ng)%Z -> (ng + 1 <= i <= mx2 - ng + 1)%Z -> inverse neq R L ->
  (forall p, (0 <= p < Z.of_nat neq)%Z -> zsum 0 neq (fun m => L p m * R p m) == 1) ->
  let e := weno5_trans eps neq ng mx2 ql0 qr0 (fun p m _ => L p m) (fun m p _ => R m p) hh0 q in
  char_weno_right (fun _ => eps / 12) neq R L q (i - 1) (fun m => snd e m (i - 1)%Z) /\
  char_weno_left (fun _ => eps / 12) neq R L q i (fun m => fst e m i).
Proof.
  intros eps neq ng mx2 ql0 qr0 L R hh0 q i He Hg Hi HI H1 e. unfold e, weno5_trans. cbn [fst snd].
  rewrite !in_slice_yes by lia. replace (i - 1 + 1)%Z with i by lia. set (v := char_var neq L q).
  split.
  - exists (fun p => correction eps 1 (fun d => v p (i + d)%Z - v p (i + d - 1)%Z) + centre (v p) i). split.
    + intros p Hp. apply correction_right. exact He.
    + intros m Hm. apply trans_side; [lia|exact HI|exact H1|exact Hm].
  - exists (fun p => correction eps (-1) (fun d => v p (i + d)%Z - v p (i + d - 1)%Z) + centre (v p) i). split.
    + intros p Hp. apply correction_left. exact He.
    + intros m Hm. apply trans_side; [lia|exact HI|exact H1|exact Hm].
Qed.
Print Assumptions C83_trans_partial.
(** The condition is met by every scalar equation and by systems with orthogonal symmetric eigenvectors. *)
Definition orth_R (m p : Z) : Q := if Z.eqb m 0 then (if Z.eqb p 0 then 3 # 5 else 4 # 5) else (if Z.eqb p 0 then 4 # 5 else -(3 # 5)).
Example C83_instance : inverse 2 orth_R orth_R /\ forall p, (0 <= p < 2)%Z -> zsum 0 2 (fun m => orth_R p m * orth_R p m) == 1.
Proof.
  split.
  - intros m m' Hm Hm'. assert (E : (m = 0 \/ m = 1)%Z) by lia. assert (E' : (m' = 0 \/ m' = 1)%Z) by lia.
    destruct E as [E|E], E' as [E'|E']; subst m m'; vm_compute; reflexivity.
  - intros p Hp. assert (E : (p = 0 \/ p = 1)%Z) by lia. destruct E as [E|E]; subst p; vm_compute; reflexivity.
Qed.

(** For acoustics with impedance 2 the reconstruction is not the characteristic-wise one. *)
Theorem C83_trans_refuted : exists eps neq ng mx2 ql0 qr0 L R hh0 q i,
  0 < eps /\ (3 <= ng)%Z /\ (ng + 1 <= i <= mx2 - ng + 1)%Z /\ inverse neq R L /\
  let e := weno5_trans eps neq ng mx2 ql0 qr0 (fun p m _ => L p m) (fun m p _ => R m p) hh0 q in
  ~ char_weno_right (fun _ => eps / 12) neq R L q (i - 1) (fun m => snd e m (i - 1)%Z).
Proof.
  exists (1 # 1000), 2%nat, 3%Z, 10%Z, (fun _ _ => 0), (fun _ _ => 0), ac_L, ac_R, (fun _ _ _ => 0), ac_q, 5%Z.
  split; [reflexivity|]. split; [lia|]. split; [lia|]. split; [exact ac_inverse|]. cbv zeta. intros (u & Hu & Hv).
  destruct (C82_char_weno (1 # 1000) 2 3 10 (fun _ _ => 0) (fun _ _ => 0) (fun p m _ => ac_L p m) (fun m p _ => ac_R m p) (fun _ _ _ => 0) ac_q 5 eq_refl ltac:(lia) ltac:(lia) ac_inverse) as [(u' & Hu' & Hv') _].
  assert (E : forall p, (0 <= p < Z.of_nat 2)%Z -> u p == u' p) by (intros p Hp; exact (weno_right_unique _ _ _ _ _ (Hu p Hp) (Hu' p Hp))).
  pose proof (Hv 0%Z ltac:(cbn; lia)) as A. pose proof (Hv' 0%Z ltac:(cbn; lia)) as B.
  assert (C : zsum 0 2 (fun p => ac_R 0 p * u p) == zsum 0 2 (fun p => ac_R 0 p * u' p)) by (apply zsum_eq; intros p Hp; rewrite E by lia; reflexivity).
  assert (D : snd (weno5_trans (1 # 1000) 2 3 10 (fun _ _ => 0) (fun _ _ => 0) (fun p m _ => ac_L p m) (fun m p _ => ac_R m p) (fun _ _ _ => 0) ac_q) 0%Z 4%Z
    == snd (weno5_char (1 # 1000) 2 3 10 (fun _ _ => 0) (fun _ _ => 0) (fun p m _ => ac_L p m) (fun m p _ => ac_R m p) (fun _ _ _ => 0) ac_q) 0%Z 4%Z)
    by (etransitivity; [exact A|]; etransitivity; [exact C|]; symmetry; exact B).
  revert D. apply Qeq_bool_neq. vm_compute. reflexivity.
Qed.
Print Assumptions C83_trans_refuted.

(** ** C84: wave-based WENO (char_decomp = 1), Python and Fortran *)
Lemma linear_family n R L q left lo hi w p : linear_waves n R L q left lo hi w -> (0 <= p < Z.of_nat n)%Z ->
  forall m j, (0 <= m < Z.of_nat n)%Z -> (lo <= j <= hi)%Z ->
  w m p j == R m p * (char_var n L q p (j + left + 1) - char_var n L q p (j + left)).
Proof. intros H Hp m j Hm Hj. apply H; assumption. Qed.

Theorem C84_python_wave : forall eps n N q w R L i,
  0 < eps -> (2 <= i < N - 3)%Z -> inverse n R L -> linear_waves n R L q 0 (i - 2) (i + 2) w -> no_small_wave n w i ->
  let e := weno5_wave eps n n N q w in
  char_weno_right (wave_eps eps n R L q i) n R L q i (fun m => snd e m i) /\
  char_weno_left (wave_eps eps n R L q i) n R L q (i + 1) (fun m => fst e m (i + 1)%Z).
Proof.
  intros eps n N q w R L i He Hi HI HW HS e. unfold e, weno5_wave. cbn [fst snd]. rewrite !in_slice_yes by lia. replace (i + 1 - 1)%Z with i by lia.
  set (v := char_var n L q).
  assert (F : forall k p, (k = 1 \/ k = -1)%Z -> (0 <= p < Z.of_nat n)%Z ->
    let c := (v p (i + 1)%Z - v p i) * norm2 n R p in
    0 < c * c /\ wave_factor eps n w k p i * (v p (i + 1)%Z - v p i)
      == correction (eps / (c * c)) k (fun d => v p (i + 1 + d)%Z - v p (i + 1 + d - 1)%Z) + centre (v p) (i + 1) - (if Z.eqb k 1 then v p i else v p (i + 1)%Z)).
  { intros k p Hk Hp. apply (py_factor_weno eps n R w (v p) k p i He Hk); [|exact (HS p Hp)].
    intros m j Hm Hj. rewrite (HW m p j Hm Hp Hj). replace (j + 0 + 1)%Z with (j + 1)%Z by lia. replace (j + 0)%Z with j by lia. reflexivity. }
  assert (W : forall m p, (0 <= m < Z.of_nat n)%Z -> (0 <= p < Z.of_nat n)%Z -> w m p i == R m p * (v p (i + 1)%Z - v p i)).
  { intros m p Hm Hp. rewrite (HW m p i Hm Hp) by lia. replace (i + 0 + 1)%Z with (i + 1)%Z by lia. replace (i + 0)%Z with i by lia. reflexivity. }
  split.
  - exists (fun p => v p i + wave_factor eps n w 1 p i * (v p (i + 1)%Z - v p i)). split.
    + intros p Hp. destruct (F 1%Z p (or_introl eq_refl) Hp) as [P E].
      pose proof (correction_right _ (v p) (i + 1) (Qdiv_pos _ _ He P)) as G. replace (i + 1 - 1)%Z with i in G by lia.
      refine (weno_right_eq _ _ _ _ _ _ G). rewrite E. cbn [Z.eqb Pos.eqb]. ring.
    + intros m Hm. rewrite <- (char_recover n R L q m i HI Hm). rewrite <- zsum_plus. apply zsum_eq. intros p Hp. fold v. rewrite W by lia. ring.
  - exists (fun p => v p (i + 1)%Z + wave_factor eps n w (-1) p i * (v p (i + 1)%Z - v p i)). split.
    + intros p Hp. destruct (F (-1)%Z p (or_intror eq_refl) Hp) as [P E].
      pose proof (correction_left _ (v p) (i + 1) (Qdiv_pos _ _ He P)) as G.
      refine (weno_left_eq _ _ _ _ _ _ G). rewrite E. cbn [Z.eqb Pos.eqb]. ring.
    + intros m Hm. rewrite <- (char_recover n R L q m (i + 1) HI Hm). rewrite <- zsum_plus. apply zsum_eq. intros p Hp. fold v. rewrite W by lia. ring.
Qed.
Print Assumptions C84_python_wave.

(** The Fortran routine (dummy indices; the stencils of interfaces 4 .. mx2-2 lie inside the arrays) *)
Lemma f_wave_side eps n w q R L k i m : 0 < eps -> (k = 1 \/ k = -1)%Z -> inverse n R L ->
  linear_waves n R L q (-1) (i - 2) (i + 2) w -> (0 <= m < Z.of_nat n)%Z ->
  let v := char_var n L q in
  let u p := if qltb (1 # 100000000000000) (wave_dot n w p i 0) then correction eps k (wave_dot n w p i) else 0 in
  let inv p := if qltb (1 # 100000000000000) (wave_dot n w p i 0) then 1 / wave_dot n w p i 0 else 0 in
  centre (q m) i + zsum 0 n (fun p => u p * w m p i * inv p) ==
  zsum 0 n (fun p => R m p * ((let c := (v p i - v p (i - 1)%Z) * norm2 n R p in
    if qltb (1 # 100000000000000) (wave_dot n w p i 0) then correction (eps / (c * c)) k (fun d => v p (i + d)%Z - v p (i + d - 1)%Z) else 0) + centre (v p) i)).
Proof.
  intros He Hk HI HW Hm v u inv. rewrite (centre_char n R L q m i HI Hm), <- zsum_plus. apply zsum_eq. intros p Hp. fold v. unfold u, inv. cbv zeta.
  assert (W : forall m j, (0 <= m < Z.of_nat n)%Z -> (i - 2 <= j <= i + 2)%Z -> w m p j == R m p * (v p j - v p (j - 1)%Z)).
  { intros m' j Hm' Hj. rewrite (HW m' p j) by lia. fold v. replace (j + -1 + 1)%Z with j by lia. replace (j + -1)%Z with (j - 1)%Z by lia. reflexivity. }
  destruct (qltb _ _) eqn:E; [|ring]. apply qltb_lt in E.
  rewrite <- (proj2 (f_factor_weno eps n R w (v p) k p i He Hk W E)). rewrite (W m i Hm) by lia. ring.
Qed.
Theorem C84_fortran_wave : forall eps n mx2 ql0 qr0 q w R L i,
  0 < eps -> (4 <= i <= mx2 - 2)%Z -> inverse n R L -> linear_waves n R L q (-1) (i - 2) (i + 2) w -> no_small_wave n w i ->
  let e := f_weno5_wave eps n n mx2 ql0 qr0 w q in
  char_weno_right (wave_eps eps n R L q (i - 1)) n R L q (i - 1) (fun m => snd e m (i - 1)%Z) /\
  char_weno_left (wave_eps eps n R L q (i - 1)) n R L q i (fun m => fst e m i).
Proof.
  intros eps n mx2 ql0 qr0 q w R L i He Hi HI HW HS e. unfold e, f_weno5_wave. cbn [fst snd]. rewrite !in_slice_yes by lia. replace (i - 1 + 1)%Z with i by lia.
  set (v := char_var n L q).
  assert (B : forall p, (0 <= p < Z.of_nat n)%Z -> qltb (1 # 100000000000000) (wave_dot n w p i 0) = true).
  { intros p Hp. apply qltb_lt. unfold wave_dot. replace (i + 0)%Z with i by lia. exact (HS p Hp). }
  assert (P : forall p, (0 <= p < Z.of_nat n)%Z -> let c := (v p i - v p (i - 1)%Z) * norm2 n R p in 0 < eps / (c * c)).
  { intros p Hp c. apply Qdiv_pos; [exact He|]. apply (f_factor_weno eps n R w (v p) 1 p i He (or_introl eq_refl)).
    - intros m' j Hm' Hj. rewrite (HW m' p j) by lia. fold v. replace (j + -1 + 1)%Z with j by lia. replace (j + -1)%Z with (j - 1)%Z by lia. reflexivity.
    - apply qltb_lt. exact (B p Hp). }
  split.
  - exists (fun p => let c := (v p i - v p (i - 1)%Z) * norm2 n R p in correction (eps / (c * c)) 1 (fun d => v p (i + d)%Z - v p (i + d - 1)%Z) + centre (v p) i). split.
    + intros p Hp. unfold wave_eps. replace (i - 1 + 1)%Z with i by lia. apply correction_right. exact (P p Hp).
    + intros m Hm. rewrite (f_wave_side eps n w q R L 1 i m He (or_introl eq_refl) HI HW Hm). apply zsum_eq. intros p Hp. cbv zeta. rewrite B by lia. reflexivity.
  - exists (fun p => let c := (v p i - v p (i - 1)%Z) * norm2 n R p in correction (eps / (c * c)) (-1) (fun d => v p (i + d)%Z - v p (i + d - 1)%Z) + centre (v p) i). split.
    + intros p Hp. unfold wave_eps. replace (i - 1 + 1)%Z with i by lia. apply correction_left. exact (P p Hp).
    + intros m Hm. rewrite (f_wave_side eps n w q R L (-1) i m He (or_intror eq_refl) HI HW Hm). apply zsum_eq. intros p Hp. cbv zeta. rewrite B by lia. reflexivity.
Qed.
Print Assumptions C84_fortran_wave.

(** Polynomials of degree two are reconstructed exactly by the Fortran routine, whatever the size of the waves. *)
Lemma centre_exact v i P : (forall d, (-2 <= d <= 2)%Z -> v (i - 1 + d)%Z == average P d) -> centre v i == value P (1 # 2).
Proof.
  intros H. unfold centre. replace (i - 2)%Z with (i - 1 + -1)%Z by lia. replace (i + 1)%Z with (i - 1 + 2)%Z by lia.
  replace (v i) with (v (i - 1 + 1)%Z) by (f_equal; lia). replace (v (i - 1)%Z) with (v (i - 1 + 0)%Z) by (f_equal; lia).
  rewrite !H by lia. unfold average, value. change (inject_Z (-1)) with (-(1)). change (inject_Z 0) with 0. change (inject_Z 1) with 1. change (inject_Z 2) with 2. field.
Qed.
Lemma centre_exact_left v i P : (forall d, (-2 <= d <= 2)%Z -> v (i + d)%Z == average P d) -> centre v i == value P (-(1 # 2)).
Proof.
  intros H. unfold centre. replace (i - 2)%Z with (i + -2)%Z by lia. replace (i - 1)%Z with (i + -1)%Z by lia. replace (v i) with (v (i + 0)%Z) by (f_equal; lia).
  rewrite !H by lia. unfold average, value. change (inject_Z (-1)) with (-(1)). change (inject_Z 0) with 0. change (inject_Z 1) with 1. change (inject_Z (-2)) with (-(2)). field.
Qed.
Theorem C84_fortran_exact : forall eps n mx2 ql0 qr0 q w R L i P,
  0 < eps -> (4 <= i <= mx2 - 2)%Z -> inverse n R L -> linear_waves n R L q (-1) (i - 2) (i + 2) w ->
  let e := f_weno5_wave eps n n mx2 ql0 qr0 w q in
  ((forall m d, (0 <= m < Z.of_nat n)%Z -> (-2 <= d <= 2)%Z -> q m (i - 1 + d)%Z == average (P m) d) ->
   forall m, (0 <= m < Z.of_nat n)%Z -> snd e m (i - 1)%Z == value (P m) (1 # 2)) /\
  ((forall m d, (0 <= m < Z.of_nat n)%Z -> (-2 <= d <= 2)%Z -> q m (i + d)%Z == average (P m) d) ->
   forall m, (0 <= m < Z.of_nat n)%Z -> fst e m i == value (P m) (-(1 # 2))).
Proof.
  intros eps n mx2 ql0 qr0 q w R L i P He Hi HI HW e. unfold e, f_weno5_wave. cbn [fst snd]. rewrite !in_slice_yes by lia. replace (i - 1 + 1)%Z with i by lia.
  set (v := char_var n L q).
  assert (PP : forall p, (0 <= p < Z.of_nat n)%Z -> qltb (1 # 100000000000000) (wave_dot n w p i 0) = true ->
    let c := (v p i - v p (i - 1)%Z) * norm2 n R p in 0 < eps / (c * c)).
  { intros p Hp B c. apply Qdiv_pos; [exact He|]. apply (f_factor_weno eps n R w (v p) 1 p i He (or_introl eq_refl)).
    - intros m' j Hm' Hj. rewrite (HW m' p j) by lia. fold v. replace (j + -1 + 1)%Z with j by lia. replace (j + -1)%Z with (j - 1)%Z by lia. reflexivity.
    - apply qltb_lt. exact B. }
  split; intros H m Hm.
  - rewrite (f_wave_side eps n w q R L 1 i m He (or_introl eq_refl) HI HW Hm).
    rewrite <- (char_recover n R L (fun m _ => value (P m) (1 # 2)) m 0 HI Hm). apply zsum_eq. intros p Hp. cbv zeta. fold v. rewrite <- comb_value.
    pose proof (comb_fits n L P q p (i - 1) H) as HF. fold v in HF.
    destruct (qltb _ _) eqn:B.
    + rewrite (proj1 (C31_exact _ (v p) (i - 1) (comb n L P p) _ (Qdiv_pos _ _ (PP p ltac:(lia) B) (eq_refl : 0 < 12)) HF)
        (correction_right _ (v p) i (PP p ltac:(lia) B))). reflexivity.
    + rewrite (centre_exact (v p) i (comb n L P p) HF). ring.
  - rewrite (f_wave_side eps n w q R L (-1) i m He (or_intror eq_refl) HI HW Hm).
    rewrite <- (char_recover n R L (fun m _ => value (P m) (-(1 # 2))) m 0 HI Hm). apply zsum_eq. intros p Hp. cbv zeta. fold v. rewrite <- comb_value.
    pose proof (comb_fits n L P q p i H) as HF. fold v in HF.
    destruct (qltb _ _) eqn:B.
    + rewrite (proj2 (C31_exact _ (v p) i (comb n L P p) _ (Qdiv_pos _ _ (PP p ltac:(lia) B) (eq_refl : 0 < 12)) HF)
        (correction_left _ (v p) i (PP p ltac:(lia) B))). reflexivity.
    + rewrite (centre_exact_left (v p) i (comb n L P p) HF). ring.
Qed.
Print Assumptions C84_fortran_exact.

(** The Python routine is exact if no wave at the interface is small, *)
Theorem C84_python_exact_partial : forall eps n N q w R L i P,
  0 < eps -> (2 <= i < N - 3)%Z -> inverse n R L -> linear_waves n R L q 0 (i - 2) (i + 2) w -> no_small_wave n w i ->
  let e := weno5_wave eps n n N q w in
  ((forall m d, (0 <= m < Z.of_nat n)%Z -> (-2 <= d <= 2)%Z -> q m (i + d)%Z == average (P m) d) ->
   forall m, (0 <= m < Z.of_nat n)%Z -> snd e m i == value (P m) (1 # 2)) /\
  ((forall m d, (0 <= m < Z.of_nat n)%Z -> (-2 <= d <= 2)%Z -> q m (i + 1 + d)%Z == average (P m) d) ->
   forall m, (0 <= m < Z.of_nat n)%Z -> fst e m (i + 1)%Z == value (P m) (-(1 # 2))).
Proof.
  intros eps n N q w R L i P He Hi HI HW HS e.
  destruct (C84_python_wave eps n N q w R L i He Hi HI HW HS) as [A B].
  assert (PE : forall p, (0 <= p < Z.of_nat n)%Z -> 0 < wave_eps eps n R L q i p).
  { intros p Hp. unfold wave_eps. apply Qdiv_pos; [|reflexivity]. apply Qdiv_pos; [exact He|].
    apply (py_factor_weno eps n R w (char_var n L q p) 1 p i He (or_introl eq_refl)); [|exact (HS p Hp)].
    intros m j Hm Hj. rewrite (HW m p j Hm Hp Hj). replace (j + 0 + 1)%Z with (j + 1)%Z by lia. replace (j + 0)%Z with j by lia. reflexivity. }
  split; intros H.
  - exact (proj1 (char_weno_exact _ n R L q i (fun m => snd e m i) P PE HI H) A).
  - exact (proj2 (char_weno_exact _ n R L q (i + 1) (fun m => fst e m (i + 1)%Z) P PE HI H) B).
Qed.
Print Assumptions C84_python_exact_partial.
(** but not at the vertex of a parabola, where the wave vanishes: the edge value is the cell average. *)
Definition one_mat (a b : Z) : Q := 1.
Lemma one_inverse : inverse 1 one_mat one_mat.
Proof. intros m m' Hm Hm'. assert (E : m = 0%Z) by lia. assert (E' : m' = 0%Z) by lia. subst. vm_compute. reflexivity. Qed.
Theorem C84_python_exact_refuted : exists eps n N q w R L i P,
  0 < eps /\ (2 <= i < N - 3)%Z /\ inverse n R L /\ linear_waves n R L q 0 (i - 2) (i + 2) w /\
  (forall m d, (0 <= m < Z.of_nat n)%Z -> (-2 <= d <= 2)%Z -> q m (i + d)%Z == average (P m) d) /\
  ~ snd (weno5_wave eps n n N q w) 0%Z i == value (P 0%Z) (1 # 2).
Proof.
  exists (1 # 1000), 1%nat, 10%Z, (fun _ j => average (mkQuad (1 # 4) (-(1)) 1) (j - 4)),
    (fun _ _ j => average (mkQuad (1 # 4) (-(1)) 1) (j + 1 - 4) - average (mkQuad (1 # 4) (-(1)) 1) (j - 4)), one_mat, one_mat, 4%Z, (fun _ => mkQuad (1 # 4) (-(1)) 1).
  split; [reflexivity|]. split; [lia|]. split; [exact one_inverse|]. split.
  - intros m p j Hm Hp Hj. unfold char_var, one_mat. cbn [zsum Z.of_nat]. replace (j + 0 + 1)%Z with (j + 1)%Z by lia. replace (j + 0)%Z with j by lia. ring.
  - split; [intros m d Hm Hd; replace (4 + d - 4)%Z with d by lia; reflexivity|]. apply Qeq_bool_neq. vm_compute. reflexivity.
Qed.
Print Assumptions C84_python_exact_refuted.
(** Families without a wave: Python keeps the cell averages, Fortran the centred value. *)
Theorem C84_no_waves : forall eps neq nw N mx2 ql0 qr0 q w i,
  (forall p, (0 <= p < Z.of_nat nw)%Z -> zsum 0 neq (fun m => w m p i * w m p i) <= 1 # 100000000000000) ->
  (forall m, snd (weno5_wave eps neq nw N q w) m i == q m i /\ fst (weno5_wave eps neq nw N q w) m (i + 1)%Z == q m (i + 1)%Z) /\
  ((2 <= i <= mx2)%Z -> forall m, snd (f_weno5_wave eps neq nw mx2 ql0 qr0 w q) m (i - 1)%Z == centre (q m) i /\
     fst (f_weno5_wave eps neq nw mx2 ql0 qr0 w q) m i == centre (q m) i).
Proof.
  intros eps neq nw N mx2 ql0 qr0 q w i H. split.
  - intros m. unfold weno5_wave. cbn [fst snd]. replace (i + 1 - 1)%Z with i by lia.
    assert (F : forall k, zsum 0 nw (fun mw => wave_factor eps neq w k mw i * w m mw i) == 0).
    { intros k. apply zsum_zero. intros p Hp. rewrite wave_factor_py. cbv zeta beta. replace (i + 0)%Z with i by lia.
      replace (qltb _ _) with false; [ring|]. symmetry. apply qltb_ge. apply H. lia. }
    split; destruct (in_slice _ _ _); rewrite ?F; ring.
  - intros Hi m. unfold f_weno5_wave. cbn [fst snd]. rewrite !in_slice_yes by lia. replace (i - 1 + 1)%Z with i by lia.
    assert (B : forall p, (0 <= p < Z.of_nat nw)%Z -> qltb (1 # 100000000000000) (wave_dot neq w p i 0) = false).
    { intros p Hp. apply qltb_ge. unfold wave_dot. replace (i + 0)%Z with i by lia. exact (H p Hp). }
    split; (rewrite zsum_zero; [ring|]); intros p Hp; rewrite B by lia; ring.
Qed.
Print Assumptions C84_no_waves.
Example C84_instance :
  let w := fun m p j => ac_R m p * (char_var 2 ac_L ac_q p (j + 1) - char_var 2 ac_L ac_q p j) in
  linear_waves 2 ac_R ac_L ac_q 0 2 6 w /\ no_small_wave 2 w 4.
Proof.
  split.
  - intros m p j Hm Hp Hj. replace (j + 0 + 1)%Z with (j + 1)%Z by lia. replace (j + 0)%Z with j by lia. reflexivity.
  - intros p Hp. assert (E : (p = 0 \/ p = 1)%Z) by lia. destruct E as [E|E]; subst p; vm_compute; reflexivity.
Qed.

(** f-waves divided by their speeds are waves: if no speed in the stencil vanishes, the f-wave routine is the
    reconstruction above. *)
Theorem C84_fwave_partial : forall eps n mx2 ql0 qr0 q fw s R L i,
  0 < eps -> (4 <= i <= mx2 - 2)%Z -> inverse n R L ->
  (forall p j, (0 <= p < Z.of_nat n)%Z -> (i - 2 <= j <= i + 2)%Z -> ~ s p j == 0) ->
  linear_waves n R L q (-1) (i - 2) (i + 2) (fun m p j => fw m p j / s p j) -> no_small_wave n (fun m p j => fw m p j / s p j) i ->
  let e := f_weno5_fwave eps n n mx2 ql0 qr0 fw s q in
  exists ul ur, (forall m, (0 <= m < Z.of_nat n)%Z -> snd e m (i - 1)%Z = Some (ur m) /\ fst e m i = Some (ul m)) /\
  char_weno_right (wave_eps eps n R L q (i - 1)) n R L q (i - 1) ur /\ char_weno_left (wave_eps eps n R L q (i - 1)) n R L q i ul.
Proof.
  intros eps n mx2 ql0 qr0 q fw s R L i He Hi HI Hs HW HS e. unfold e, f_weno5_fwave. cbn [fst snd]. rewrite !in_slice_yes by lia. replace (i - 1 + 1)%Z with i by lia.
  set (w := fun m p j => if in_slice 1 (mx2 + 1) j then fw m p j / s p j else fw m p j).
  assert (FI : forallb (fun p => forallb (fun d => (negb (in_slice 1 (mx2 + 1) (i + d)) || negb (qeqb (s (Z.of_nat p) (i + d)%Z) 0))%bool) [-2; -1; 0; 1; 2]%Z) (seq 0 n) = true).
  { apply forallb_forall. intros p Hp. apply in_seq in Hp. apply forallb_forall. intros d Hd.
    assert (Hd' : (-2 <= d <= 2)%Z) by (cbn in Hd; lia). rewrite in_slice_yes by lia. cbn [negb orb].
    apply Bool.negb_true_iff. apply qeqb_neq. apply Hs; lia. }
  rewrite FI. set (ww := fun m p j => w m p (j + 1)%Z).
  assert (HW' : linear_waves n R L q 0 (i - 1 - 2) (i - 1 + 2) ww).
  { intros m p j Hm Hp Hj. unfold ww, w. rewrite in_slice_yes by lia. rewrite (HW m p (j + 1)%Z) by lia.
    replace (j + 1 + -1 + 1)%Z with (j + 0 + 1)%Z by lia. replace (j + 1 + -1)%Z with (j + 0)%Z by lia. reflexivity. }
  assert (HS' : no_small_wave n ww (i - 1)).
  { intros p Hp. unfold ww, w. replace (i - 1 + 1)%Z with i by lia. rewrite in_slice_yes by lia. exact (HS p Hp). }
  destruct (C84_python_wave eps n (mx2 + 2) q ww R L (i - 1) He ltac:(lia) HI HW' HS') as [A B].
  revert A B. unfold weno5_wave. cbn [fst snd]. rewrite !in_slice_yes by lia. replace (i - 1 + 1)%Z with i by lia. intros A B.
  assert (F : forall k m p, (0 <= p < Z.of_nat n)%Z ->
    (if qltb (1 # 100000000000000) (wave_dot n w p i 0)
     then correction eps k (wave_dot n w p i) + inject_Z k * (wave_dot n w p i (- k)%Z + 6 * wave_dot n w p i 0 - wave_dot n w p i k) / 12 else 0)
    * (fw m p i / s p i) * (if qltb (1 # 100000000000000) (wave_dot n w p i 0) then 1 / wave_dot n w p i 0 else 0)
    == wave_factor eps n ww k p (i - 1) * ww m p (i - 1)%Z).
  { intros k m p Hp. rewrite wave_factor_py. cbv zeta beta.
    assert (D : forall d, zsum 0 n (fun m => ww m p (i - 1 + d)%Z * ww m p (i - 1)%Z) = wave_dot n w p i d).
    { intros d. unfold ww, wave_dot. replace (i - 1 + d + 1)%Z with (i + d)%Z by lia. replace (i - 1 + 1)%Z with i by lia. reflexivity. }
    rewrite !D. replace (ww m p (i - 1)%Z) with (fw m p i / s p i) by (unfold ww, w; replace (i - 1 + 1)%Z with i by lia; rewrite in_slice_yes by lia; reflexivity).
    assert (C : correction eps k (fun d => zsum 0 n (fun m => ww m p (i - 1 + d)%Z * ww m p (i - 1)%Z)) == correction eps k (wave_dot n w p i)).
    { apply correction_ext; rewrite D; reflexivity. }
    destruct (qltb _ _); [|ring]. rewrite C. unfold Qdiv. ring. }
  exists (fun m => q m i + zsum 0 n (fun mw => (if qltb (1 # 100000000000000) (wave_dot n w mw i 0)
     then correction eps (-1) (wave_dot n w mw i) + inject_Z (-1) * (wave_dot n w mw i (- -1)%Z + 6 * wave_dot n w mw i 0 - wave_dot n w mw i (-1)) / 12 else 0)
    * (fw m mw i / s mw i) * (if qltb (1 # 100000000000000) (wave_dot n w mw i 0) then 1 / wave_dot n w mw i 0 else 0))).
  exists (fun m => q m (i - 1)%Z + zsum 0 n (fun mw => (if qltb (1 # 100000000000000) (wave_dot n w mw i 0)
     then correction eps 1 (wave_dot n w mw i) + inject_Z 1 * (wave_dot n w mw i (- (1))%Z + 6 * wave_dot n w mw i 0 - wave_dot n w mw i 1) / 12 else 0)
    * (fw m mw i / s mw i) * (if qltb (1 # 100000000000000) (wave_dot n w mw i 0) then 1 / wave_dot n w mw i 0 else 0))).
  split; [intros m Hm; split; reflexivity|]. split.
  - destruct A as (u & Hu & Hv). exists u. split; [exact Hu|]. intros m Hm. rewrite <- Hv by exact Hm. apply Qplus_comp; [reflexivity|].
    apply zsum_eq. intros p Hp. apply (F 1%Z). lia.
  - destruct B as (u & Hu & Hv). exists u. split; [exact Hu|]. intros m Hm. rewrite <- Hv by exact Hm. apply Qplus_comp; [reflexivity|].
    apply zsum_eq. intros p Hp. apply (F (-1)%Z). lia.
Qed.
Print Assumptions C84_fwave_partial.
(** A stationary wave gives no number, even in constant data. *)
Theorem C84_fwave_refuted : exists eps n mx2 ql0 qr0 q fw s R L i,
  0 < eps /\ (4 <= i <= mx2 - 2)%Z /\ inverse n R L /\
  (forall m p j, fw m p j == s p j * (R m p * (char_var n L q p j - char_var n L q p (j - 1)))) /\
  snd (f_weno5_fwave eps n n mx2 ql0 qr0 fw s q) 0%Z (i - 1)%Z = None.
Proof.
  exists (1 # 1000), 1%nat, 10%Z, (fun _ _ => 0), (fun _ _ => 0), (fun _ _ => 1), (fun _ _ _ => 0), (fun _ _ => 0), one_mat, one_mat, 5%Z.
  split; [reflexivity|]. split; [lia|]. split; [exact one_inverse|]. split; [intros; ring|]. reflexivity.
Qed.
Print Assumptions C84_fwave_refuted.

(** ** C85: second-order reconstruction (lim_type = 1) *)
Lemma between_shift a x g : between 0 g x -> between a (a + g) (a + x).
Proof. unfold between. intros [H|H]; [left|right]; lra. Qed.
(** Component-wise: with limiters 1-4 the edge values lie between the cell average and the neighbour's, the cell
    average is the mean of the two edge values, and linear data are reconstructed exactly.  Missing: data with
    q(i) = q(i-1), and limiter 5. *)
Theorem C85_tvd2_partial : forall lim q i,
  (1 <= lim <= 4)%Z -> ~ q i == q (i - 1)%Z ->
  exists a b, tvd2 lim q i = Some (a, b) /\ between (q (i - 1)%Z) (q i) a /\ between (q i) (q (i + 1)%Z) b /\ (a + b) / 2 == q i /\
  (q (i + 1)%Z - q i == q i - q (i - 1)%Z -> b == (q i + q (i + 1)%Z) / 2 /\ a == (q (i - 1)%Z + q i) / 2).
Proof.
  intros lim q i Hl Hne. unfold tvd2. set (h := q i - q (i - 1)%Z). set (g := q (i + 1)%Z - q i).
  assert (Hh : ~ h == 0) by (unfold h; lra). rewrite (proj2 (qeqb_neq h 0) Hh).
  destruct (limiter_defined lim (g / h) ltac:(lia)) as [phi E]. rewrite E.
  destruct (limiter_bounds lim (g / h) phi Hl E) as (B & B0 & B1).
  destruct (slope_between phi h g Hh B B0 B1) as [S1 S2].
  eexists. eexists. split; [reflexivity|]. set (x := (1 # 2) * phi * h) in *. 
  assert (Eg : q (i + 1)%Z == q i + g) by (unfold g; ring). assert (Eh : q (i - 1)%Z == q i - h) by (unfold h; ring).
  split; [|split; [|split]].
  - unfold between in *. destruct S2 as [S|S]; [left|right]; lra.
  - unfold between in *. destruct S1 as [S|S]; [left|right]; lra.
  - field.
  - intros HL. assert (R1 : g / h == 1) by (unfold g, h in *; rewrite HL; field; exact Hh).
    assert (P : phi == 1) by (exact (limiter_one lim _ phi ltac:(lia) R1 E)).
    assert (X : 2 * x == h) by (unfold x; rewrite P; ring).
    assert (G : g == h) by (unfold g, h; exact HL).
    split; rewrite ?Eg, ?Eh; [setoid_replace ((q i + (q i + g)) / 2) with (q i + g / 2) by field|setoid_replace ((q i - h + q i) / 2) with (q i - h / 2) by field].
    + rewrite G. setoid_replace (h / 2) with x by (rewrite <- X; field). reflexivity.
    + setoid_replace (h / 2) with x by (rewrite <- X; field). reflexivity.
Qed.
Print Assumptions C85_tvd2_partial.
Example C85_instance : let q := fun i => inject_Z (i * i) in ~ q 3%Z == q (3 - 1)%Z /\
  match tvd2 4 q 3 with Some (a, b) => (qeqb a 6 && qeqb b 12)%bool | None => false end = true.
Proof. split; [vm_compute; discriminate|]. vm_compute. reflexivity. Qed.
(** A constant state is not reconstructed: the ratio of differences is 0/0. *)
Theorem C85_tvd2_constant_refuted : exists lim q i, (1 <= lim <= 4)%Z /\ (forall j, q j == 1) /\ tvd2 lim q i = None.
Proof. exists 4%Z, (fun _ => 1), 5%Z. split; [lia|]. split; [reflexivity|]. vm_compute. reflexivity. Qed.
Print Assumptions C85_tvd2_constant_refuted.
(** With limiter 5 edge values leave the range of the neighbours. *)
Theorem C85_tvd2_limiter5_refuted : exists q i a b, ~ q i == q (i - 1)%Z /\ tvd2 5 q i = Some (a, b) /\
  q (i - 1)%Z <= q i /\ q (i + 1)%Z <= q i /\ q i < b.
Proof.
  exists (fun j => if Z.eqb j 5 then 1 else 0), 5%Z. eexists. eexists. split; [vm_compute; discriminate|].
  split; [vm_compute; reflexivity|]. vm_compute. repeat split; discriminate.
Qed.
Print Assumptions C85_tvd2_limiter5_refuted.

(** Characteristic-wise (char_decomp = 2): the same in the characteristic variables of the interface, for all data. *)
Lemma limited_bounds (mthlim : Z -> Z) undef (p : Z) r : (1 <= mthlim p <= 4)%Z ->
  0 <= limited undef (mthlim p) r <= 2 /\ (r <= 0 -> limited undef (mthlim p) r == 0) /\ (0 <= r -> limited undef (mthlim p) r <= 2 * r).
Proof. intros H. unfold limited. destruct (limiter_defined (mthlim p) r ltac:(lia)) as [phi E]. rewrite E. exact (limiter_bounds _ _ _ H E). Qed.
Lemma limited_slope (mthlim : Z -> Z) undef (p : Z) h g : (1 <= mthlim p <= 4)%Z ->
  between 0 g ((1 # 2) * limited undef (mthlim p) (tvd_r g h) * h) /\ between 0 h ((1 # 2) * limited undef (mthlim p) (tvd_r g h) * h).
Proof.
  intros Hl. destruct (limited_bounds mthlim undef p (tvd_r g h) Hl) as (B & B0 & B1). unfold tvd_r in *.
  destruct (qltb _ _) eqn:E.
  - apply qltb_lt in E. assert (Hh : ~ h == 0) by (intros Z0; rewrite Z0 in E; vm_compute in E; discriminate).
    exact (slope_between _ h g Hh B B0 B1).
  - assert (X : (1 # 2) * limited undef (mthlim p) 0 * h == 0) by (rewrite (B0 ltac:(lra)); ring). unfold between.
    set (x := (1 # 2) * limited undef (mthlim p) 0 * h) in *.
    split; [destruct (Qlt_le_dec g 0)|destruct (Qlt_le_dec h 0)]; [right|left|right|left]; lra.
Qed.
Theorem C85_char : forall neq ng mx2 ql0 qr0 mthlim undef evl evr q i,
  (ng + 1 <= i <= mx2 - 1)%Z -> inverse neq (fun m p => evr m p i) (fun p m => evl p m i) ->
  (forall p, (0 <= p < Z.of_nat neq)%Z -> (1 <= mthlim p <= 4)%Z) ->
  let e := tvd2_char neq ng mx2 ql0 qr0 mthlim undef evl evr q in
  let v := char_var neq (fun p m => evl p m i) q in
  exists ul ur, (forall m, (0 <= m < Z.of_nat neq)%Z ->
      snd e m (i - 1)%Z == zsum 0 neq (fun p => evr m p i * ur p) /\ fst e m i == zsum 0 neq (fun p => evr m p i * ul p)) /\
  forall p, (0 <= p < Z.of_nat neq)%Z ->
    between (v p (i - 1)%Z) (v p i) (ur p) /\ between (v p (i - 1)%Z) (v p i) (ul p) /\
    between (v p (i - 1)%Z) (v p (i - 1)%Z + (v p (i - 1)%Z - v p (i - 2)%Z)) (ur p) /\
    between (v p i) (v p i - (v p (i + 1)%Z - v p i)) (ul p).
Proof.
  intros neq ng mx2 ql0 qr0 mthlim undef evl evr q i Hi HI Hl e v. unfold e, tvd2_char. cbn [fst snd]. rewrite !in_slice_yes by lia. replace (i - 1 + 1)%Z with i by lia.
  set (h := tvd_h neq evl q).
  assert (Hd : forall p d, h p i d == v p (i + d)%Z - v p (i + d - 1)%Z) by (intros p d; unfold h, tvd_h; apply (char_diff neq (fun p m => evl p m i) q p (i + d) (i + d - 1))).
  exists (fun p => v p i - (1 # 2) * limited undef (mthlim p) (tvd_r (h p i 1%Z) (h p i 0%Z)) * h p i 0%Z).
  exists (fun p => v p (i - 1)%Z + (1 # 2) * limited undef (mthlim p) (tvd_r (h p i 0%Z) (h p i (-1)%Z)) * h p i (-1)%Z).
  split.
  - intros m Hm. split.
    + rewrite <- (char_recover neq _ _ q m (i - 1) HI Hm), <- zsum_plus. apply zsum_eq. intros p Hp. fold v. ring.
    + rewrite <- (char_recover neq _ _ q m i HI Hm), <- zsum_plus. apply zsum_eq. intros p Hp. fold v. ring.
  - intros p Hp.
    destruct (limited_slope mthlim undef p (h p i (-1)%Z) (h p i 0%Z) (Hl p Hp)) as [A1 A2].
    destruct (limited_slope mthlim undef p (h p i 0%Z) (h p i 1%Z) (Hl p Hp)) as [B1 B2].
    pose proof (Hd p (-1)%Z) as D1. pose proof (Hd p 0%Z) as D0. pose proof (Hd p 1%Z) as Dp.
    replace (i + -1 - 1)%Z with (i - 2)%Z in D1 by lia. replace (i + -1)%Z with (i - 1)%Z in D1 by lia.
    replace (i + 0 - 1)%Z with (i - 1)%Z in D0 by lia. replace (i + 0)%Z with i in D0 by lia. replace (i + 1 - 1)%Z with i in Dp by lia.
    set (x := (1 # 2) * limited undef (mthlim p) (tvd_r (h p i 0%Z) (h p i (-1)%Z)) * h p i (-1)%Z) in *.
    set (y := (1 # 2) * limited undef (mthlim p) (tvd_r (h p i 1%Z) (h p i 0%Z)) * h p i 0%Z) in *.
    unfold between in *. repeat split.
    + destruct A1 as [S|S]; [left|right]; lra.
    + destruct B2 as [S|S]; [left|right]; lra.
    + destruct A2 as [S|S]; [left|right]; lra.
    + destruct B1 as [S|S]; [right|left]; lra.
Qed.
Print Assumptions C85_char.
Example C85_char_instance : inverse 2 ac_R ac_L /\
  let e := tvd2_char 2 3 10 (fun _ _ => 0) (fun _ _ => 0) (fun _ => 4%Z) 0 (fun p m _ => ac_L p m) (fun m p _ => ac_R m p) ac_q in
  qeqb (snd e 0%Z 4%Z) (ac_q 0 4) = false.
Proof. split; [exact ac_inverse|]. vm_compute. reflexivity. Qed.

(** Wave-based (char_decomp = 1), at the interfaces the routine treats: linear systems. *)
Lemma limited_range (mthlim : Z -> Z) undef (p : Z) r : (1 <= mthlim p <= 5)%Z -> 0 <= limited undef (mthlim p) r <= 2.
Proof.
  intros H. destruct (Z.eq_dec (mthlim p) 5) as [E|N]; [|apply (limited_bounds mthlim undef p r ltac:(lia))].
  rewrite E. unfold limited, recon_limiter. cbn [Z.eqb Pos.eqb]. set (c := (2 + r) / 3). assert (Ec : 3 * c == 2 + r) by (unfold c; field). clearbody c. dmm; lra.
Qed.
Theorem C85_wave_partial : forall n ng mx2 ql0 qr0 mthlim undef w s q R L i,
  (1 <= ng)%Z -> (ng + 1 <= i <= mx2 - ng)%Z -> inverse n R L -> linear_waves n R L q (-1) i i w ->
  (forall p, (0 <= p < Z.of_nat n)%Z -> (1 <= mthlim p <= 5)%Z) ->
  let e := tvd2_wave n n ng mx2 ql0 qr0 mthlim undef w s q in
  let v := char_var n L q in
  exists ul ur, (forall m, (0 <= m < Z.of_nat n)%Z ->
      snd e m (i - 1)%Z == zsum 0 n (fun p => R m p * ur p) /\ fst e m i == zsum 0 n (fun p => R m p * ul p)) /\
  forall p, (0 <= p < Z.of_nat n)%Z ->
    between (v p (i - 1)%Z) (v p i) (ur p) /\ between (v p (i - 1)%Z) (v p i) (ul p) /\ ur p + ul p == v p (i - 1)%Z + v p i.
Proof.
  intros n ng mx2 ql0 qr0 mthlim undef w s q R L i Hg Hi HI HW Hl e v. unfold e, tvd2_wave. cbn [fst snd]. rewrite !in_slice_yes by lia. replace (i - 1 + 1)%Z with i by lia.
  assert (S : forall p, (0 <= p < Z.of_nat n)%Z -> exists phi, 0 <= phi <= 2 /\
    forall m, (0 <= m < Z.of_nat n)%Z -> wave_slope n ng mx2 mthlim undef w s m p i == R m p * ((1 # 2) * phi * (v p i - v p (i - 1)%Z))).
  { intros p Hp. unfold wave_slope. rewrite in_slice_yes by lia. destruct (qeqb (wave_dot n w p i 0) 0) eqn:Z0; cbn [andb negb].
    - exists 0. split; [lra|]. intros m Hm. ring.
    - set (r := if qltb 0 (s p i) then _ else _). exists (limited undef (mthlim p) r). split; [apply limited_range; apply Hl; exact Hp|].
      intros m Hm. rewrite (HW m p i Hm Hp) by lia. replace (i + -1 + 1)%Z with i by lia. replace (i + -1)%Z with (i - 1)%Z by lia. fold v. ring. }
  assert (CH : exists phi : Z -> Q, forall p, (0 <= p < Z.of_nat n)%Z -> 0 <= phi p <= 2 /\
    forall m, (0 <= m < Z.of_nat n)%Z -> wave_slope n ng mx2 mthlim undef w s m p i == R m p * ((1 # 2) * phi p * (v p i - v p (i - 1)%Z))).
  { set (f := fun m p => wave_slope n ng mx2 mthlim undef w s m p i). clear -S f.
    assert (G : forall k, (k <= n)%nat -> exists phi : Z -> Q, forall p, (0 <= p < Z.of_nat k)%Z -> 0 <= phi p <= 2 /\
      forall m, (0 <= m < Z.of_nat n)%Z -> f m p == R m p * ((1 # 2) * phi p * (v p i - v p (i - 1)%Z))).
    { induction k as [|k IH]; intros Hk; [exists (fun _ => 0); intros; lia|]. destruct (IH ltac:(lia)) as [phi Hphi].
      destruct (S (Z.of_nat k) ltac:(lia)) as [x Hx]. exists (fun p => if Z.eqb p (Z.of_nat k) then x else phi p).
      intros p Hp. destruct (Z.eqb_spec p (Z.of_nat k)) as [E|N]; [subst p; exact Hx|apply Hphi; lia]. }
    exact (G n (le_n n)). }
  destruct CH as [phi CH].
  exists (fun p => v p i - (1 # 2) * phi p * (v p i - v p (i - 1)%Z)). exists (fun p => v p (i - 1)%Z + (1 # 2) * phi p * (v p i - v p (i - 1)%Z)).
  split.
  - intros m Hm. split.
    + rewrite <- (char_recover n R L q m (i - 1) HI Hm), <- zsum_plus. apply zsum_eq. intros p Hp. fold v. rewrite (proj2 (CH p Hp) m Hm). ring.
    + rewrite <- (char_recover n R L q m i HI Hm), <- zsum_minus. apply zsum_eq. intros p Hp. fold v. rewrite (proj2 (CH p Hp) m Hm). ring.
  - intros p Hp. destruct (CH p Hp) as [B _]. set (f := phi p) in *. set (d := v p i - v p (i - 1)%Z).
    assert (Ed : v p i == v p (i - 1)%Z + d) by (unfold d; ring). unfold between. rewrite Ed.
    destruct (Qlt_le_dec d 0); (split; [|split]); [right|right|ring|left|left|ring]; split; nra.
Qed.
Print Assumptions C85_wave_partial.

(** ** C86: the periodic ghost cells give the same edge values at both ends of the domain, so that the scheme conserves *)
Theorem C86_sound : forall C flux M,
  (3 <= c_ng C)%nat -> (1 <= cells C)%Z ->
  let ng := Z.of_nat (c_ng C) in let mx := cells C in let neq := c_neq C in let naux := c_naux C in
  (exists eps E ql0 qr0 hh0, M = FRecon (char_recon eps E neq naux ng mx ql0 qr0 hh0) None) \/
  (exists eps E ql0 qr0 hh0, M = FRecon (trans_recon eps E neq naux ng mx ql0 qr0 hh0) None) \/
  (exists eps rp nw ql0 qr0, M = FRecon (wave_recon eps rp neq nw naux ng mx ql0 qr0) None) \/
  (exists mthlim undef E ql0 qr0, M = FRecon (tvd_char_recon mthlim undef E neq naux ng mx ql0 qr0) None) ->
  sound_method C flux M.
Proof.
  intros C flux M Hg Hm ng mx neq naux [(eps & E & ql0 & qr0 & hh0 & ->)|[(eps & E & ql0 & qr0 & hh0 & ->)|[(eps & rp & nw & ql0 & qr0 & ->)|(mthlim & undef & E & ql0 & qr0 & ->)]]];
    (split; [|discriminate]).
  - apply char_keeps; unfold ng, mx; lia.
  - apply trans_keeps; unfold ng, mx; lia.
  - apply wave_keeps; unfold ng, mx; lia.
  - apply tvd_char_keeps; unfold ng, mx; lia.
Qed.
Print Assumptions C86_sound.
(** Conservation of a Runge-Kutta step with the characteristic-wise, transmission-based, wave-based and second-order
    characteristic-wise reconstructions. *)
Theorem C86_conserves_partial : forall C flux M q aux qbc0 auxbc0,
  c_capa C = None -> (3 <= c_ng C)%nat -> periodic_bc (c_bc C) -> (Z.of_nat (c_ng C) <= cells C)%Z -> conservative (c_neq C) flux (c_rp C) ->
  let ng := Z.of_nat (c_ng C) in let mx := cells C in let neq := c_neq C in let naux := c_naux C in
  (exists eps E ql0 qr0 hh0, M = FRecon (char_recon eps E neq naux ng mx ql0 qr0 hh0) None) \/
  (exists eps E ql0 qr0 hh0, M = FRecon (trans_recon eps E neq naux ng mx ql0 qr0 hh0) None) \/
  (exists eps rp nw ql0 qr0, M = FRecon (wave_recon eps rp neq nw naux ng mx ql0 qr0) None) \/
  (exists mthlim undef E ql0 qr0, M = FRecon (tvd_char_recon mthlim undef E neq naux ng mx ql0 qr0) None) ->
  exists d cfl, dq_hyperbolic M C q aux qbc0 auxbc0 = DQ d cfl /\
  forall m, (0 <= m < Z.of_nat (c_neq C))%Z -> total C 0 (flat aux) d m == 0.
Proof.
  intros C flux M q aux qbc0 auxbc0 Hcap Hg HP Hmx HC ng mx neq naux HM.
  pose proof (C86_sound C flux M Hg ltac:(lia) HM) as HS. destruct (no_capacity C aux Hcap) as [Hcapa Hk].
  pose proof (C32_periodic_conservation M C flux q aux qbc0 auxbc0 (or_introl Hcap) Hg HP Hmx HC Hcapa HS Hk) as H.
  destruct (dq_hyperbolic M C q aux qbc0 auxbc0) as [d cfl|e| |].
  - exists d, cfl. split; [reflexivity|exact H].
  - contradiction.
  - destruct H as (eps & lim & cd & E & _). exfalso. subst M. destruct HM as [(?&?&?&?&?&X)|[(?&?&?&?&?&X)|[(?&?&?&?&?&X)|(?&?&?&?&?&X)]]]; discriminate X.
  - destruct H as (eps & lim & cd & E & _). exfalso. subst M. destruct HM as [(?&?&?&?&?&X)|[(?&?&?&?&?&X)|[(?&?&?&?&?&X)|(?&?&?&?&?&X)]]]; discriminate X.
Qed.
Print Assumptions C86_conserves_partial.
(** The second-order wave-based reconstruction leaves out the last interface of the domain: the total changes although
    all other hypotheses hold. *)
Definition ramp4 : Z * Z -> Q := fun mi => match snd mi with 0%Z => 2 | 1%Z => 3 | 2%Z => 0 | _ => 1 end.
Theorem C86_tvd2_wave_refuted : exists C flux q aux qbc0 auxbc0 mthlim undef ql0 qr0,
  c_capa C = None /\ (3 <= c_ng C)%nat /\ periodic_bc (c_bc C) /\ (Z.of_nat (c_ng C) <= cells C)%Z /\ conservative (c_neq C) flux (c_rp C) /\
  match dq_hyperbolic (FRecon (tvd_wave_recon mthlim undef (c_rp C) (c_neq C) (c_nw C) (c_naux C) (Z.of_nat (c_ng C)) (cells C) ql0 qr0) None) C q aux qbc0 auxbc0 with
  | DQ d _ => ~ total C 0 (flat aux) d 0 == 0
  | _ => False
  end.
Proof.
  exists (semi_set4 0), burgers_flux, (as_arr ramp4), zero_arr, zero_arr, zero_arr, (fun _ => 4%Z), 0, (fun _ _ => 0), (fun _ _ => 0).
  split; [reflexivity|]. split; [vm_compute; lia|]. split; [vm_compute; tauto|]. split; [vm_compute; discriminate|].
  split; [apply burgers_conservative|]. apply Qeq_bool_neq. vm_compute. reflexivity.
Qed.
Print Assumptions C86_tvd2_wave_refuted.
Definition const_eigen : eigen := fun _ _ _ _ => (fun _ _ => 1, fun _ _ => 1).
Definition tvd_method : method := FRecon (tvd_char_recon (fun _ => 1%Z) 0 const_eigen 1 0 3 4 (fun _ _ => 0) (fun _ _ => 0)) None.
Example C86_example :
  match dq_hyperbolic tvd_method (semi_set4 0) (as_arr semi_u4) zero_arr zero_arr zero_arr with
  | DQ d _ => (negb (Qeq_bool (d 0%Z 1%Z) 0) && Qeq_bool (total (semi_set4 0) 0 (flat zero_arr) d 0) 0)%bool = true
  | _ => False
  end.
Proof. vm_compute. reflexivity. Qed.

(** C81: the update of a cell uses the capacity of that cell.  The Fortran kernel uses the capacity num_ghost cells
    to the left, and the weighted total of dq does not vanish although all hypotheses of C32 hold. *)
Definition tvd_method1 : method := FRecon (tvd_char_recon (fun _ => 1%Z) 0 const_eigen 1 1 3 4 (fun _ _ => 0) (fun _ _ => 0)) None.
Theorem C81_fortran_capacity_refuted :
  exists M C flux q aux qbc0 auxbc0,
  (3 <= c_ng C)%nat /\ periodic_bc (c_bc C) /\ (Z.of_nat (c_ng C) <= cells C)%Z /\
  conservative (c_neq C) flux (c_rp C) /\ capa_in_aux C /\ sound_method C flux M /\
  (forall i, (0 <= i < cells C)%Z -> ~ capacity C (flat aux) i == 0) /\
  match dq_hyperbolic M C q aux qbc0 auxbc0 with
  | DQ d _ => ~ total C 0 (flat aux) d 0 == 0
  | _ => True
  end.
Proof.
  exists tvd_method1, (semi_set4 1), burgers_flux, (as_arr semi_u4), demo_capa4, zero_arr, zero_arr.
  split; [vm_compute; lia|]. split; [vm_compute; tauto|]. split; [vm_compute; discriminate|].
  split; [apply burgers_conservative|]. split; [intros k E; injection E as <-; vm_compute; split; congruence|].
  split; [apply C86_sound; [vm_compute; lia|vm_compute; discriminate|]; right; right; right; repeat eexists; reflexivity|]. split.
  - intros i Hi. assert (E : (i = 0 \/ i = 1 \/ i = 2 \/ i = 3)%Z) by (change (cells (semi_set4 1)) with 4%Z in Hi; lia).
    destruct E as [-> | [-> | [-> | ->]]]; vm_compute; discriminate.
  - apply Qeq_bool_neq. vm_compute. reflexivity.
Qed.
Print Assumptions C81_fortran_capacity_refuted.
