(** C31: the WENO reconstruction of all three kernels is the fifth-order WENO value of WenoSpec.v. *)
From Verif Require Import Base Classic1DModel WenoModel WenoSpec WenoProofs.

(** The Python kernel: at every cell whose stencil lies in the array the right edge value qr and the left edge
    value ql are the WENO values (with the constant eps/12); the other entries are the cell averages. *)
Theorem C31_python eps N q : 0 < eps -> (5 <= N)%Z ->
  (forall i, (2 <= i < N - 3)%Z -> weno_right (eps / 12) q i (snd (py_weno eps N q) i)) /\
  (forall i, (3 <= i < N - 2)%Z -> weno_left (eps / 12) q i (fst (py_weno eps N q) i)) /\
  (forall i, ~ (2 <= i < N - 3)%Z -> snd (py_weno eps N q) i = q i) /\
  (forall i, ~ (3 <= i < N - 2)%Z -> fst (py_weno eps N q) i = q i).
Proof.
  intros He HN. unfold py_weno. cbn [fst snd]. change (3 - 1)%Z with 2%Z. replace (N - 2 - 1)%Z with (N - 3)%Z by lia.
  repeat split; intros i Hi.
  - rewrite in_slice_yes by lia. apply shu_right; [exact He| | | |].
    all: cbv beta; repeat (f_equiv; try lia). all: replace (i - 2 + 1)%Z with (i - 1)%Z by lia || replace (i - 1 + 1)%Z with i by lia || replace (i + 1 + 1)%Z with (i + 2)%Z by lia; reflexivity.
  - rewrite in_slice_yes by lia. apply shu_left; [exact He| | | |].
    all: cbv beta; repeat (f_equiv; try lia). all: replace (i - 2 + 1)%Z with (i - 1)%Z by lia || replace (i - 1 + 1)%Z with i by lia || replace (i + 1 + 1)%Z with (i + 2)%Z by lia; reflexivity.
  - rewrite in_slice_no by lia. reflexivity.
  - rewrite in_slice_no by lia. reflexivity.
Qed.

(** Each value depends only on the five cells around it, all inside the array. *)
Theorem C31_python_local eps N q q' i : (forall j, (i - 2 <= j <= i + 2)%Z -> q j = q' j) ->
  snd (py_weno eps N q) i = snd (py_weno eps N q') i /\ fst (py_weno eps N q) i = fst (py_weno eps N q') i.
Proof.
  intros H. unfold py_weno, shu. cbn [fst snd].
  split; destruct (in_slice _ _ _); try (apply H; lia); cbv zeta beta;
    repeat match goal with |- context [q ?a] => rewrite (H a) by lia end; reflexivity.
Qed.

(** The Fortran kernel used for lim_type 2 (weno.f90), for cells -1 .. maxnx+2 in the solver's numbering. *)
Theorem C31_fortran eps ng maxnx ql0 qr0 q : 0 < eps ->
  (forall i, (ng <= i <= maxnx + ng + 1)%Z ->
     weno_left eps q i (fst (f_weno5 eps ng maxnx ql0 qr0 q) i) /\
     weno_right eps q i (snd (f_weno5 eps ng maxnx ql0 qr0 q) i)) /\
  (forall i, ~ (ng <= i <= maxnx + ng + 1)%Z ->
     fst (f_weno5 eps ng maxnx ql0 qr0 q) i = ql0 i /\ snd (f_weno5 eps ng maxnx ql0 qr0 q) i = qr0 i).
Proof.
  intros He. unfold f_weno5. cbn [fst snd]. split; intros i Hi.
  - rewrite in_slice_yes by lia. split; [apply pyweno_left|apply pyweno_right]; exact He.
  - rewrite in_slice_no by lia. split; reflexivity.
Qed.

(** The Fortran kernel used for lim_type 3 (reconstruct.f90): the edge values of the interior cells and of the
    first ghost cell on either side are right, whatever the uninitialised dq1m(1) contains. *)
Theorem C31_fortran_lim3 eps ng mx2 d1 ql0 qr0 q : 0 < eps -> (3 <= ng)%Z ->
  (forall i, (ng <= i <= mx2 - ng)%Z -> weno_right (eps / 12) q i (snd (f_weno_shu eps ng mx2 d1 ql0 qr0 q) i)) /\
  (forall i, (ng <= i <= mx2 - ng + 1)%Z -> weno_left (eps / 12) q i (fst (f_weno_shu eps ng mx2 d1 ql0 qr0 q) i)).
Proof.
  intros He Hg. unfold f_weno_shu. cbn [fst snd]. split; intros i Hi.
  - rewrite in_slice_yes by lia. replace (i + 1 - 1)%Z with i by lia. apply shu_right; [exact He| | | |].
    all: cbv beta; match goal with |- context [Z.leb 2 ?a] => replace (Z.leb 2 a) with true by (symmetry; apply Z.leb_le; lia) end.
    + replace (i - 2 + 1 - 1)%Z with (i - 2)%Z by lia. replace (i - 2 + 1)%Z with (i - 1)%Z by lia. reflexivity.
    + replace (i - 1 + 1 - 1)%Z with (i - 1)%Z by lia. replace (i - 1 + 1)%Z with i by lia. reflexivity.
    + replace (i + 1 - 1)%Z with i by lia. reflexivity.
    + replace (i + 1 + 1 - 1)%Z with (i + 1)%Z by lia. replace (i + 1 + 1)%Z with (i + 2)%Z by lia. reflexivity.
  - rewrite in_slice_yes by lia. apply shu_left; [exact He| | | |].
    all: cbv beta; match goal with |- context [Z.leb 2 ?a] => replace (Z.leb 2 a) with true by (symmetry; apply Z.leb_le; lia) end.
    + replace (i - 2 + 1 - 1)%Z with (i - 2)%Z by lia. replace (i - 2 + 1)%Z with (i - 1)%Z by lia. reflexivity.
    + replace (i - 1 + 1 - 1)%Z with (i - 1)%Z by lia. replace (i - 1 + 1)%Z with i by lia. reflexivity.
    + replace (i + 1 - 1)%Z with i by lia. reflexivity.
    + replace (i + 1 + 1 - 1)%Z with (i + 1)%Z by lia. replace (i + 1 + 1)%Z with (i + 2)%Z by lia. reflexivity.
Qed.

(** What the WENO value guarantees: it exists and is unique, *)
Theorem C31_unique eps q i :
  (exists p0 p1 p2, fits p0 q i (-2) /\ fits p1 q i (-1) /\ fits p2 q i 0) /\
  (forall v w, weno_right eps q i v -> weno_right eps q i w -> v == w) /\
  (forall v w, weno_left eps q i v -> weno_left eps q i w -> v == w).
Proof.
  destruct (fit_exists q i (-2)) as [p0 F0]. destruct (fit_exists q i (-1)) as [p1 F1]. destruct (fit_exists q i 0) as [p2 F2].
  split; [exists p0, p1, p2; auto|]. split; intros v w; [apply weno_right_unique|apply weno_left_unique].
Qed.
(** is exact for the averages of every polynomial of degree at most two, *)
Theorem C31_exact eps q i p v : 0 < eps -> (forall j, (-2 <= j <= 2)%Z -> q (i + j)%Z == average p j) ->
  (weno_right eps q i v -> v == value p (1 # 2)) /\ (weno_left eps q i v -> v == value p (-(1 # 2))).
Proof.
  intros He H. assert (F : forall lo, (-2 <= lo <= 0)%Z -> fits p q i lo) by (intros lo Hlo j Hj; apply H; lia).
  split; intros K; rewrite (K p p p); try (apply F; lia); apply weno_const; try exact He; reflexivity.
Qed.
(** never leaves the range of the three parabolas (its weights are positive and add up to one), *)
Theorem C31_convex eps q i v p0 p1 p2 lo hi : 0 < eps -> fits p0 q i (-2) -> fits p1 q i (-1) -> fits p2 q i 0 ->
  (weno_right eps q i v -> lo <= value p0 (1 # 2) <= hi -> lo <= value p1 (1 # 2) <= hi -> lo <= value p2 (1 # 2) <= hi -> lo <= v <= hi) /\
  (weno_left eps q i v -> lo <= value p0 (-(1 # 2)) <= hi -> lo <= value p1 (-(1 # 2)) <= hi -> lo <= value p2 (-(1 # 2)) <= hi -> lo <= v <= hi).
Proof.
  intros He F0 F1 F2. split; intros K B0 B1 B2; rewrite (K p0 p1 p2 F0 F1 F2); apply weno_between; auto; reflexivity.
Qed.
(** is mirror symmetric, *)
Theorem C31_mirror eps q i v : 0 < eps -> weno_right eps (fun j => q (- j)%Z) (- i)%Z v -> weno_left eps q i v.
Proof. intros He. apply (mirror_left eps q i v He). Qed.
(** and its ideal weights 1/10, 6/10, 3/10 give fifth order: they reproduce every quartic. *)
Theorem C31_fifth_order q i (P : quartic) p0 p1 p2 :
  (forall j, (-2 <= j <= 2)%Z -> q (i + j)%Z == average4 P j) -> fits p0 q i (-2) -> fits p1 q i (-1) -> fits p2 q i 0 ->
  (1 # 10) * value p0 (1 # 2) + (6 # 10) * value p1 (1 # 2) + (3 # 10) * value p2 (1 # 2) == value4 P (1 # 2) /\
  (3 # 10) * value p0 (-(1 # 2)) + (6 # 10) * value p1 (-(1 # 2)) + (1 # 10) * value p2 (-(1 # 2)) == value4 P (-(1 # 2)).
Proof.
  intros H F0 F1 F2.
  destruct (fits_m2 _ _ _ F0) as (C0 & B0 & A0). destruct (fits_m1 _ _ _ F1) as (C1 & B1 & A1). destruct (fits_0 _ _ _ F2) as (C2 & B2 & A2).
  pose proof (H (-2)%Z ltac:(lia)) as Ha. pose proof (H (-1)%Z ltac:(lia)) as Hb. pose proof (H 0%Z ltac:(lia)) as Hc. pose proof (H 1%Z ltac:(lia)) as Hd. pose proof (H 2%Z ltac:(lia)) as He.
  replace (i + -2)%Z with (i - 2)%Z in Ha by lia. replace (i + -1)%Z with (i - 1)%Z in Hb by lia. replace (i + 0)%Z with i in Hc by lia.
  unfold average4, primitive4 in *.
  change (inject_Z (-2)) with (-(2)) in Ha. change (inject_Z (-1)) with (-(1)) in Hb. change (inject_Z 0) with 0 in Hc. change (inject_Z 1) with 1 in Hd. change (inject_Z 2) with 2 in He.
  unfold value, value4. rewrite A0, A1, A2, B0, B1, B2, C0, C1, C2, Ha, Hb, Hc, Hd, He. split; field.
Qed.

(** The Python and Fortran kernels compute the same reconstruction when their eps differ by the factor 12. *)
Theorem C31_kernels_agree eps N ng ql0 qr0 q i : 0 < eps -> (5 <= N)%Z -> (2 <= i < N - 3)%Z -> (ng - 1 <= i <= N - ng)%Z ->
  snd (py_weno eps N q) i == snd (f_weno5 (eps / 12) ng (N - 2 * ng) ql0 qr0 (fun j => q (j - 1)%Z)) (i + 1)%Z.
Proof.
  intros He HN Hi Hg. assert (E12 : 0 < eps / 12) by (apply Qdiv_pos; lra).
  pose proof (proj1 (C31_python eps N q He HN) i Hi) as A.
  destruct (proj1 (C31_fortran (eps / 12) ng (N - 2 * ng) ql0 qr0 (fun j => q (j - 1)%Z) E12) (i + 1)%Z ltac:(lia)) as [_ B].
  apply (weno_right_unique _ _ _ _ _ A). intros p0 p1 p2 F0 F1 F2. apply B.
  all: intros j Hj; cbv beta; replace (i + 1 + j - 1)%Z with (i + j)%Z by lia; auto.
Qed.

(** Instances: the hypotheses are met, and the values are not those of a linear scheme. *)
Example C31_example :
  let q := fun i => match i with 2%Z => 1 | 3%Z => 1 | 4%Z => 1 | _ => 0 end in
  let eps := 1 # 1000 in
  (Qle_bool (snd (py_weno eps 8 q) 4%Z) 1 && Qle_bool (999 # 1000) (snd (py_weno eps 8 q) 4%Z) &&
   negb (Qeq_bool (snd (py_weno eps 8 q) 4%Z) ((-(1) + 7 * (1 + 0) - 0) / 12)) &&
   Qeq_bool (snd (f_weno5 (1 # 12000) 3 2 (fun _ => 0) (fun _ => 0) (fun j => q (j - 1)%Z)) 5%Z) (snd (py_weno eps 8 q) 4%Z) &&
   Qeq_bool (snd (py_weno eps 8 q) 0%Z) 0)%bool = true.
Proof. vm_compute. reflexivity. Qed.
(** Cell averages of x^2 + x: the hypothesis of C31_exact. *)
Example C31_exact_example : forall j, (-2 <= j <= 2)%Z ->
  (fun i => let x := inject_Z (i - 4) in x * x + (1 # 12) + x) (4 + j)%Z == average (mkQuad 0 1 1) j.
Proof. intros j _. unfold average. cbn [qa qb qc]. replace (4 + j - 4)%Z with j by lia. ring. Qed.

Print Assumptions C31_python. Print Assumptions C31_python_local. Print Assumptions C31_fortran. Print Assumptions C31_fortran_lim3.
Print Assumptions C31_unique. Print Assumptions C31_exact. Print Assumptions C31_convex. Print Assumptions C31_mirror.
Print Assumptions C31_fifth_order. Print Assumptions C31_kernels_agree.
