(** Proofs about WENO reconstruction. *)
From Verif Require Import Base Classic1DModel WenoModel WenoSpec.

(** The parabola through the averages of three cells. *)
Definition through (lo : Z) (x y z : Q) : quad :=
  let l := inject_Z lo + 1 in
  let c := (x - 2 * y + z) / 2 in
  let b0 := (z - x) / 2 in
  mkQuad (y - b0 * l + c * (l * l) - c / 12) (b0 - 2 * c * l) c.
Lemma through_fits q i lo : fits (through lo (q (i + lo)%Z) (q (i + lo + 1)%Z) (q (i + lo + 2)%Z)) q i lo.
Proof.
  intros j Hj. assert (E : (j = lo \/ j = lo + 1 \/ j = lo + 2)%Z) by lia.
  unfold average, through. cbn [qa qb qc].
  destruct E as [-> | [-> | ->]]; rewrite ?inject_Z_plus, ?Z.add_assoc; change (inject_Z 1) with 1; change (inject_Z 2) with 2; field.
Qed.

Lemma smooth_nonneg p : 0 <= smoothness p.
Proof. unfold smoothness. assert (H : forall x : Q, 0 <= x * x) by (intros x; destruct (Qlt_le_dec x 0); nra). pose proof (H (qb p)). pose proof (H (qc p)). lra. Qed.
Lemma weight_pos eps g p : 0 < eps -> 0 < g -> 0 < weight eps g p.
Proof. intros He Hg. unfold weight. pose proof (smooth_nonneg p). apply Qdiv_pos; [exact Hg|]. apply Qmul_pos; lra. Qed.

(** Coefficients of fitting parabolas *)
Lemma fits_m2 p q i : fits p q i (-2) ->
  qc p == (q (i - 2)%Z - 2 * q (i - 1)%Z + q i) / 2 /\
  qb p == (3 * q i - 4 * q (i - 1)%Z + q (i - 2)%Z) / 2 /\
  qa p == q i - qc p / 12.
Proof.
  intros H. pose proof (H (-2)%Z ltac:(lia)) as A. pose proof (H (-1)%Z ltac:(lia)) as B. pose proof (H 0%Z ltac:(lia)) as C.
  replace (i + -2)%Z with (i - 2)%Z in A by lia. replace (i + -1)%Z with (i - 1)%Z in B by lia. replace (i + 0)%Z with i in C by lia.
  unfold average in *. change (inject_Z (-2)) with (-(2)) in A. change (inject_Z (-1)) with (-(1)) in B. change (inject_Z 0) with 0 in C.
  rewrite A, B, C. repeat split; field.
Qed.
Lemma fits_m1 p q i : fits p q i (-1) ->
  qc p == (q (i - 1)%Z - 2 * q i + q (i + 1)%Z) / 2 /\
  qb p == (q (i + 1)%Z - q (i - 1)%Z) / 2 /\
  qa p == q i - qc p / 12.
Proof.
  intros H. pose proof (H (-1)%Z ltac:(lia)) as A. pose proof (H 0%Z ltac:(lia)) as B. pose proof (H 1%Z ltac:(lia)) as C.
  replace (i + -1)%Z with (i - 1)%Z in A by lia. replace (i + 0)%Z with i in B by lia.
  unfold average in *. change (inject_Z (-1)) with (-(1)) in A. change (inject_Z 0) with 0 in B. change (inject_Z 1) with 1 in C.
  rewrite A, B, C. repeat split; field.
Qed.
Lemma fits_0 p q i : fits p q i 0 ->
  qc p == (q i - 2 * q (i + 1)%Z + q (i + 2)%Z) / 2 /\
  qb p == (- 3 * q i + 4 * q (i + 1)%Z - q (i + 2)%Z) / 2 /\
  qa p == q i - qc p / 12.
Proof.
  intros H. pose proof (H 0%Z ltac:(lia)) as A. pose proof (H 1%Z ltac:(lia)) as B. pose proof (H 2%Z ltac:(lia)) as C.
  replace (i + 0)%Z with i in A by lia.
  unfold average in *. change (inject_Z 0) with 0 in A. change (inject_Z 1) with 1 in B. change (inject_Z 2) with 2 in C.
  rewrite A, B, C. repeat split; field.
Qed.

(** Shu's normalised weights *)
Lemma shu_weights A0 A1 A2 v0 v1 v2 z : 0 < A0 -> 0 < A1 -> 0 < A2 ->
  let tt1 := (12 * A0) * (12 * A0) in let tt2 := (12 * A1) * (12 * A1) in let tt3 := (12 * A2) * (12 * A2) in
  let s1 := tt2 * tt3 in let s2 := 6 * tt1 * tt3 in let s3 := 3 * tt1 * tt2 in
  let t0 := 1 / (s1 + s2 + s3) in
  z == (s1 * t0) * v0 + (1 - s1 * t0 - s3 * t0) * v1 + (s3 * t0) * v2 ->
  z == ((1 # 10) / (A0 * A0) * v0 + (6 # 10) / (A1 * A1) * v1 + (3 # 10) / (A2 * A2) * v2)
       / ((1 # 10) / (A0 * A0) + (6 # 10) / (A1 * A1) + (3 # 10) / (A2 * A2)).
Proof.
  intros H0 H1 H2 tt1 tt2 tt3 s1 s2 s3 t0 ->. unfold t0, s1, s2, s3, tt1, tt2, tt3.
  assert (P0 : 0 < A0 * A0) by (apply Qmul_pos; assumption).
  assert (P1 : 0 < A1 * A1) by (apply Qmul_pos; assumption).
  assert (P2 : 0 < A2 * A2) by (apply Qmul_pos; assumption).
  assert (P01 : 0 < (A0 * A0) * (A1 * A1)) by (apply Qmul_pos; assumption).
  assert (P02 : 0 < (A0 * A0) * (A2 * A2)) by (apply Qmul_pos; assumption).
  assert (P12 : 0 < (A1 * A1) * (A2 * A2)) by (apply Qmul_pos; assumption).
  field. repeat split; try (intro Hz; rewrite Hz in *; lra); intro Hz; ring_simplify in Hz; ring_simplify in P01; ring_simplify in P02; ring_simplify in P12; lra.
Qed.

Lemma sq_comp x y : x == y -> x * x == y * y.
Proof. intros ->. reflexivity. Qed.

(** One interface, Shu's form, from the right-hand end of cell i *)
Lemma shu_right eps q dq i : 0 < eps ->
  dq (i - 2)%Z == q (i - 1)%Z - q (i - 2)%Z -> dq (i - 1)%Z == q i - q (i - 1)%Z ->
  dq i == q (i + 1)%Z - q i -> dq (i + 1)%Z == q (i + 2)%Z - q (i + 1)%Z ->
  weno_right (eps / 12) q i (shu eps 1 q dq i).
Proof.
  intros He D2 D1 D0 Dp p0 p1 p2 F0 F1 F2.
  destruct (fits_m2 _ _ _ F0) as (C0 & B0 & A0). destruct (fits_m1 _ _ _ F1) as (C1 & B1 & A1). destruct (fits_0 _ _ _ F2) as (C2 & B2 & A2).
  unfold weno_value, weight.
  pose proof (smooth_nonneg p0) as S0. pose proof (smooth_nonneg p1) as S1. pose proof (smooth_nonneg p2) as S2.
  assert (E12 : 0 < eps / 12) by (apply Qdiv_pos; lra).
  assert (T0 : eps + (13 * ((1 * (dq (i - 2)%Z - dq (i - 1)%Z)) * (1 * (dq (i - 2)%Z - dq (i - 1)%Z))) + 3 * ((dq (i - 2)%Z - 3 * dq (i - 1)%Z) * (dq (i - 2)%Z - 3 * dq (i - 1)%Z))) == 12 * (eps / 12 + smoothness p0)).
  { unfold smoothness. rewrite B0, C0, D2, D1. field. }
  assert (T1 : eps + (13 * ((1 * (dq (i - 1)%Z - dq i)) * (1 * (dq (i - 1)%Z - dq i))) + 3 * ((dq (i - 1)%Z + dq i) * (dq (i - 1)%Z + dq i))) == 12 * (eps / 12 + smoothness p1)).
  { unfold smoothness. rewrite B1, C1, D1, D0. field. }
  assert (T2 : eps + (13 * ((1 * (dq i - dq (i + 1)%Z)) * (1 * (dq i - dq (i + 1)%Z))) + 3 * ((3 * dq i - dq (i + 1)%Z) * (3 * dq i - dq (i + 1)%Z))) == 12 * (eps / 12 + smoothness p2)).
  { unfold smoothness. rewrite B2, C2, D0, Dp. field. }
  apply shu_weights; [lra|lra|lra|].
  unfold shu. cbv zeta. change (inject_Z 1) with 1. change (2 * 1)%Z with 2%Z.
  rewrite T0, T1, T2.
  set (AA := eps / 12 + smoothness p0). set (BB := eps / 12 + smoothness p1). set (CC := eps / 12 + smoothness p2).
  set (t0 := 1 / _). set (s1 := 12 * BB * (12 * BB) * (12 * CC * (12 * CC)) * t0). set (s3 := 3 * _ * _ * t0).
  assert (V0 : value p0 (1 # 2) == (2 * q (i - 2)%Z - 7 * q (i - 1)%Z + 11 * q i) / 6) by (unfold value; rewrite A0, B0, C0; field).
  assert (V1 : value p1 (1 # 2) == (- q (i - 1)%Z + 5 * q i + 2 * q (i + 1)%Z) / 6) by (unfold value; rewrite A1, B1, C1; field).
  assert (V2 : value p2 (1 # 2) == (2 * q i + 5 * q (i + 1)%Z - q (i + 2)%Z) / 6) by (unfold value; rewrite A2, B2, C2; field).
  rewrite V0, V1, V2, D2, D1, D0, Dp. field.
Qed.

(** The mirror image *)
Definition mirror (q : Z -> Q) : Z -> Q := fun i => q (- i)%Z.
Definition flip (p : quad) : quad := mkQuad (qa p) (- qb p) (qc p).
Lemma flip_fits p q i lo : fits p q i lo -> fits (flip p) (mirror q) (- i) (- lo - 2).
Proof.
  intros H j Hj. unfold mirror. replace (- (- i + j))%Z with (i + - j)%Z by lia. rewrite (H (- j)%Z) by lia.
  unfold average, flip. cbn [qa qb qc]. rewrite inject_Z_opp. ring.
Qed.
Lemma flip_smoothness p : smoothness (flip p) == smoothness p.
Proof. unfold smoothness, flip. cbn [qb qc]. ring. Qed.
Lemma flip_value p x : value (flip p) x == value p (- x).
Proof. unfold value, flip. cbn [qa qb qc]. ring. Qed.
Lemma flip_weno eps g0 g1 g2 x p0 p1 p2 : 0 < eps -> 0 < g0 -> 0 < g1 -> 0 < g2 ->
  weno_value eps g2 g1 g0 x (flip p2) (flip p1) (flip p0) == weno_value eps g0 g1 g2 (- x) p0 p1 p2.
Proof.
  intros He H0 H1 H2. unfold weno_value.
  assert (E : forall g p, weight eps g (flip p) == weight eps g p) by (intros g p; unfold weight; rewrite flip_smoothness; reflexivity).
  rewrite !E, !flip_value.
  pose proof (weight_pos eps g0 p0 He H0). pose proof (weight_pos eps g1 p1 He H1). pose proof (weight_pos eps g2 p2 He H2).
  field. repeat split; lra.
Qed.
Lemma mirror_left eps q i v : 0 < eps -> weno_right eps (mirror q) (- i) v -> weno_left eps q i v.
Proof.
  intros He H p0 p1 p2 F0 F1 F2.
  rewrite (H (flip p2) (flip p1) (flip p0)).
  - rewrite flip_weno by (try exact He; reflexivity). reflexivity.
  - apply (flip_fits p2 q i 0 F2).
  - apply (flip_fits p1 q i (-1) F1).
  - apply (flip_fits p0 q i (-2) F0).
Qed.

Lemma shu_mirror eps q dq i : 
  dq (i - 2)%Z == q (i - 1)%Z - q (i - 2)%Z -> dq (i - 1)%Z == q i - q (i - 1)%Z ->
  dq i == q (i + 1)%Z - q i -> dq (i + 1)%Z == q (i + 2)%Z - q (i + 1)%Z ->
  shu eps (-1) q dq (i - 1)%Z == shu eps 1 (mirror q) (fun j => mirror q (j + 1)%Z - mirror q j) (- i)%Z.
Proof.
  intros D2 D1 D0 Dp. unfold shu, mirror. cbv zeta. change (inject_Z 1) with 1. change (inject_Z (-1)) with (-(1)).
  replace (i - 1 - 2 * -1)%Z with (i + 1)%Z by lia. replace (i - 1 - -1)%Z with i by lia. replace (i - 1 + -1)%Z with (i - 2)%Z by lia.
  replace (- (- i - 2 * 1 + 1))%Z with (i + 1)%Z by lia. replace (- (- i - 2 * 1))%Z with (i + 2)%Z by lia.
  replace (- (- i - 1 + 1))%Z with i by lia. replace (- (- i - 1))%Z with (i + 1)%Z by lia.
  replace (- (- i + 1))%Z with (i - 1)%Z by lia. replace (- - i)%Z with i by lia.
  replace (- (- i + 1 + 1))%Z with (i - 2)%Z by lia. replace (- (- i + 2))%Z with (i - 2)%Z by lia.
  replace (i - 1 - 1)%Z with (i - 2)%Z by lia. replace (i - 1 + 1)%Z with i by lia. replace (i - 1 + 2)%Z with (i + 1)%Z by lia.
  rewrite D2, D1, D0, Dp.
  set (a := q (i - 2)%Z). set (b := q (i - 1)%Z). set (c := q i). set (d := q (i + 1)%Z). set (e := q (i + 2)%Z).
  assert (R : forall x y, x == y -> eps + x == eps + y) by (intros x y ->; reflexivity).
  assert (X1 : eps + (13 * (- (1) * (e - d - (d - c)) * (- (1) * (e - d - (d - c)))) + 3 * ((e - d - 3 * (d - c)) * (e - d - 3 * (d - c))))
     == eps + (13 * (1 * (d - e - (c - d)) * (1 * (d - e - (c - d)))) + 3 * ((d - e - 3 * (c - d)) * (d - e - 3 * (c - d))))) by ring.
  assert (X2 : eps + (13 * (- (1) * (d - c - (c - b)) * (- (1) * (d - c - (c - b)))) + 3 * ((d - c + (c - b)) * (d - c + (c - b))))
     == eps + (13 * (1 * (c - d - (b - c)) * (1 * (c - d - (b - c)))) + 3 * ((c - d + (b - c)) * (c - d + (b - c))))) by ring.
  assert (X3 : eps + (13 * (- (1) * (c - b - (b - a)) * (- (1) * (c - b - (b - a)))) + 3 * ((3 * (c - b) - (b - a)) * (3 * (c - b) - (b - a))))
     == eps + (13 * (1 * (b - c - (a - b)) * (1 * (b - c - (a - b)))) + 3 * ((3 * (b - c) - (a - b)) * (3 * (b - c) - (a - b))))) by ring.
  rewrite X1, X2, X3. set (A := eps + (13 * (1 * (d - e - (c - d)) * (1 * (d - e - (c - d)))) + 3 * ((d - e - 3 * (c - d)) * (d - e - 3 * (c - d))))).
  set (B := eps + (13 * (1 * (c - d - (b - c)) * _) + _)). set (C := eps + (13 * (1 * (b - c - (a - b)) * _) + _)).
  set (t0 := 1 / _). set (s1 := _ * _ * t0). set (s3 := _ * _ * t0). field.
Qed.
Lemma shu_left eps q dq i : 0 < eps ->
  dq (i - 2)%Z == q (i - 1)%Z - q (i - 2)%Z -> dq (i - 1)%Z == q i - q (i - 1)%Z ->
  dq i == q (i + 1)%Z - q i -> dq (i + 1)%Z == q (i + 2)%Z - q (i + 1)%Z ->
  weno_left (eps / 12) q i (shu eps (-1) q dq (i - 1)%Z).
Proof.
  intros He D2 D1 D0 Dp. assert (E12 : 0 < eps / 12) by (apply Qdiv_pos; lra).
  apply (mirror_left (eps / 12)); [exact E12|].
  intros p0 p1 p2 F0 F1 F2. rewrite (shu_mirror eps q dq i D2 D1 D0 Dp).
  apply (shu_right eps (mirror q) (fun j => mirror q (j + 1)%Z - mirror q j) (- i)); try assumption.
  all: cbv beta; repeat (f_equiv; try lia).
  all: try (replace (- i - 2 + 1)%Z with (- i - 1)%Z by lia; reflexivity).
  all: try (replace (- i - 1 + 1)%Z with (- i)%Z by lia; reflexivity).
  all: try (replace (- i + 1 + 1)%Z with (- i + 2)%Z by lia; reflexivity).
Qed.

(** PyWENO's form *)
Lemma pyweno_right eps q i : 0 < eps -> weno_right eps q i (snd (pyweno eps q i)).
Proof.
  intros He p0 p1 p2 F0 F1 F2.
  destruct (fits_m2 _ _ _ F0) as (C0 & B0 & A0). destruct (fits_m1 _ _ _ F1) as (C1 & B1 & A1). destruct (fits_0 _ _ _ F2) as (C2 & B2 & A2).
  unfold weno_value.
  pose proof (weight_pos eps (1 # 10) p0 He eq_refl) as W0. pose proof (weight_pos eps (6 # 10) p1 He eq_refl) as W1. pose proof (weight_pos eps (3 # 10) p2 He eq_refl) as W2.
  unfold pyweno. cbn [snd].
  set (sg0 := _ + (4 # 3) * (q (i + 2)%Z * q (i + 2)%Z)). set (sg2 := _ + (4 # 3) * (q (i - 2)%Z * q (i - 2)%Z)). set (sg1 := _ + (4 # 3) * (q (i - 1)%Z * q (i - 1)%Z)).
  assert (E0 : sg2 == smoothness p0) by (unfold sg2, smoothness; rewrite B0, C0; field).
  assert (E1 : sg1 == smoothness p1) by (unfold sg1, smoothness; rewrite B1, C1; field).
  assert (E2 : sg0 == smoothness p2) by (unfold sg0, smoothness; rewrite B2, C2; field).
  rewrite E0, E1, E2. fold (weight eps (1 # 10) p0). fold (weight eps (6 # 10) p1). fold (weight eps (3 # 10) p2).
  set (w0 := weight eps (1 # 10) p0) in *. set (w1 := weight eps (6 # 10) p1) in *. set (w2 := weight eps (3 # 10) p2) in *.
  assert (V0 : value p0 (1 # 2) == (2 * q (i - 2)%Z - 7 * q (i - 1)%Z + 11 * q i) / 6) by (unfold value; rewrite A0, B0, C0; field).
  assert (V1 : value p1 (1 # 2) == (- q (i - 1)%Z + 5 * q i + 2 * q (i + 1)%Z) / 6) by (unfold value; rewrite A1, B1, C1; field).
  assert (V2 : value p2 (1 # 2) == (2 * q i + 5 * q (i + 1)%Z - q (i + 2)%Z) / 6) by (unfold value; rewrite A2, B2, C2; field).
  rewrite V0, V1, V2. field. repeat split; lra.
Qed.
Lemma pyweno_left eps q i : 0 < eps -> weno_left eps q i (fst (pyweno eps q i)).
Proof.
  intros He p0 p1 p2 F0 F1 F2.
  destruct (fits_m2 _ _ _ F0) as (C0 & B0 & A0). destruct (fits_m1 _ _ _ F1) as (C1 & B1 & A1). destruct (fits_0 _ _ _ F2) as (C2 & B2 & A2).
  unfold weno_value.
  pose proof (weight_pos eps (3 # 10) p0 He eq_refl) as W0. pose proof (weight_pos eps (6 # 10) p1 He eq_refl) as W1. pose proof (weight_pos eps (1 # 10) p2 He eq_refl) as W2.
  unfold pyweno. cbn [fst].
  set (sg0 := _ + (4 # 3) * (q (i + 2)%Z * q (i + 2)%Z)). set (sg2 := _ + (4 # 3) * (q (i - 2)%Z * q (i - 2)%Z)). set (sg1 := _ + (4 # 3) * (q (i - 1)%Z * q (i - 1)%Z)).
  assert (E0 : sg2 == smoothness p0) by (unfold sg2, smoothness; rewrite B0, C0; field).
  assert (E1 : sg1 == smoothness p1) by (unfold sg1, smoothness; rewrite B1, C1; field).
  assert (E2 : sg0 == smoothness p2) by (unfold sg0, smoothness; rewrite B2, C2; field).
  rewrite E0, E1, E2. fold (weight eps (3 # 10) p0). fold (weight eps (6 # 10) p1). fold (weight eps (1 # 10) p2).
  set (w0 := weight eps (3 # 10) p0) in *. set (w1 := weight eps (6 # 10) p1) in *. set (w2 := weight eps (1 # 10) p2) in *.
  assert (V0 : value p0 (-(1 # 2)) == (2 * q i + 5 * q (i - 1)%Z - q (i - 2)%Z) / 6) by (unfold value; rewrite A0, B0, C0; field).
  assert (V1 : value p1 (-(1 # 2)) == (- q (i + 1)%Z + 5 * q i + 2 * q (i - 1)%Z) / 6) by (unfold value; rewrite A1, B1, C1; field).
  assert (V2 : value p2 (-(1 # 2)) == (2 * q (i + 2)%Z - 7 * q (i + 1)%Z + 11 * q i) / 6) by (unfold value; rewrite A2, B2, C2; field).
  rewrite V0, V1, V2. field. repeat split; lra.
Qed.

Lemma weno_const eps g0 g1 g2 x p : 0 < eps -> 0 < g0 -> 0 < g1 -> 0 < g2 -> weno_value eps g0 g1 g2 x p p p == value p x.
Proof.
  intros He H0 H1 H2. unfold weno_value.
  pose proof (weight_pos eps g0 p He H0). pose proof (weight_pos eps g1 p He H1). pose proof (weight_pos eps g2 p He H2).
  field. repeat split; lra.
Qed.
Lemma weno_between eps g0 g1 g2 x p0 p1 p2 lo hi : 0 < eps -> 0 < g0 -> 0 < g1 -> 0 < g2 ->
  lo <= value p0 x <= hi -> lo <= value p1 x <= hi -> lo <= value p2 x <= hi ->
  lo <= weno_value eps g0 g1 g2 x p0 p1 p2 <= hi.
Proof.
  intros He H0 H1 H2 B0 B1 B2. unfold weno_value.
  pose proof (weight_pos eps g0 p0 He H0) as W0. pose proof (weight_pos eps g1 p1 He H1) as W1. pose proof (weight_pos eps g2 p2 He H2) as W2.
  set (w0 := weight eps g0 p0) in *. set (w1 := weight eps g1 p1) in *. set (w2 := weight eps g2 p2) in *.
  assert (M : forall w a b, 0 < w -> a <= b -> w * a <= w * b) by (intros w a b Hw Hab; nra).
  split.
  - apply Qle_shift_div_l; [lra|]. pose proof (M w0 _ _ W0 (proj1 B0)). pose proof (M w1 _ _ W1 (proj1 B1)). pose proof (M w2 _ _ W2 (proj1 B2)). lra.
  - apply Qle_shift_div_r; [lra|]. pose proof (M w0 _ _ W0 (proj2 B0)). pose proof (M w1 _ _ W1 (proj2 B1)). pose proof (M w2 _ _ W2 (proj2 B2)). lra.
Qed.

Lemma fit_exists q i lo : exists p, fits p q i lo.
Proof. eexists. apply through_fits. Qed.
Lemma weno_right_unique eps q i v w : weno_right eps q i v -> weno_right eps q i w -> v == w.
Proof.
  intros H K. destruct (fit_exists q i (-2)) as [p0 F0]. destruct (fit_exists q i (-1)) as [p1 F1]. destruct (fit_exists q i 0) as [p2 F2].
  rewrite (H p0 p1 p2 F0 F1 F2), (K p0 p1 p2 F0 F1 F2). reflexivity.
Qed.
Lemma weno_left_unique eps q i v w : weno_left eps q i v -> weno_left eps q i w -> v == w.
Proof.
  intros H K. destruct (fit_exists q i (-2)) as [p0 F0]. destruct (fit_exists q i (-1)) as [p1 F1]. destruct (fit_exists q i 0) as [p2 F2].
  rewrite (H p0 p1 p2 F0 F1 F2), (K p0 p1 p2 F0 F1 F2). reflexivity.
Qed.

Lemma in_slice_yes a b i : (a <= i < b)%Z -> in_slice a b i = true.
Proof. intros H. unfold in_slice. apply andb_true_intro. split; [apply Z.leb_le|apply Z.ltb_lt]; lia. Qed.
Lemma in_slice_no a b i : ~ (a <= i < b)%Z -> in_slice a b i = false.
Proof. intros H. unfold in_slice. destruct (Z.leb_spec a i), (Z.ltb_spec i b); try reflexivity. exfalso. lia. Qed.
