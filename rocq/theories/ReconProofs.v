(** Proofs for the reconstructions in characteristic variables and waves. *)
From Verif Require Import Base Classic1DModel Classic1DProofs WenoModel WenoSpec WenoProofs SweepProofs UnsplitProofs SemiModel SemiSpec SemiProofs ReconModel ReconSpec.

Lemma correction_ext eps k h h' : h (- 2 * k)%Z == h' (- 2 * k)%Z -> h (- k)%Z == h' (- k)%Z -> h 0%Z == h' 0%Z -> h k == h' k ->
  correction eps k h == correction eps k h'.
Proof. intros A B C D. unfold correction. cbv zeta. rewrite A, B, C, D. reflexivity. Qed.

(** The correction and the centred part make up Shu's form. *)
Lemma correction_shu eps k v i : correction eps k (fun d => v (i + d)%Z - v (i + d - 1)%Z) + centre v i
  == shu eps k v (fun j => v (j + 1)%Z - v j) (i - 1).
Proof.
  unfold correction, centre, shu. cbv zeta.
  replace (i - 1 - 2 * k + 1)%Z with (i + - 2 * k)%Z by lia. replace (i - 1 - k + 1)%Z with (i + - k)%Z by lia.
  replace (i - 1 + 1)%Z with (i + 0)%Z by lia. replace (i - 1 + k + 1)%Z with (i + k)%Z by lia.
  replace (i - 1 - 2 * k)%Z with (i + - 2 * k - 1)%Z by lia. replace (i - 1 - k)%Z with (i + - k - 1)%Z by lia.
  replace (i - 1 + k)%Z with (i + k - 1)%Z by lia. replace (i - 1 - 1)%Z with (i - 2)%Z by lia.
  replace (i - 1 + 2)%Z with (i + 1)%Z by lia. replace (i + 0 - 1)%Z with (i - 1)%Z by lia. replace (i + 0)%Z with i by lia. reflexivity.
Qed.
Lemma weno_right_eq eps q i v w : v == w -> weno_right eps q i v -> weno_right eps q i w.
Proof. intros E H p0 p1 p2 A B C. rewrite <- E. apply H; assumption. Qed.
Lemma weno_left_eq eps q i v w : v == w -> weno_left eps q i v -> weno_left eps q i w.
Proof. intros E H p0 p1 p2 A B C. rewrite <- E. apply H; assumption. Qed.

Lemma correction_right eps v i : 0 < eps ->
  weno_right (eps / 12) v (i - 1) (correction eps 1 (fun d => v (i + d)%Z - v (i + d - 1)%Z) + centre v i).
Proof.
  intros He. eapply weno_right_eq; [symmetry; apply correction_shu|]. apply shu_right; [exact He| | | |].
  all: cbv beta; apply Qplus_comp; [|apply Qopp_comp]; match goal with |- ?g ?a == ?g ?b => replace a with b by lia; reflexivity end.
Qed.
Lemma correction_left eps v i : 0 < eps ->
  weno_left (eps / 12) v i (correction eps (-1) (fun d => v (i + d)%Z - v (i + d - 1)%Z) + centre v i).
Proof.
  intros He. eapply weno_left_eq; [symmetry; apply correction_shu|]. apply shu_left; [exact He| | | |].
  all: cbv beta; apply Qplus_comp; [|apply Qopp_comp]; match goal with |- ?g ?a == ?g ?b => replace a with b by lia; reflexivity end.
Qed.

(** ** Characteristic variables *)
Lemma char_recover n R L q m j : inverse n R L -> (0 <= m < Z.of_nat n)%Z ->
  zsum 0 n (fun p => R m p * char_var n L q p j) == q m j.
Proof.
  intros HI Hm. unfold char_var.
  transitivity (zsum 0 n (fun p => zsum 0 n (fun m' => R m p * (L p m' * q m' j)))).
  { apply zsum_eq. intros p _. rewrite <- zsum_scale. reflexivity. }
  rewrite zsum_swap.
  transitivity (zsum 0 n (fun m' => if Z.eqb m' m then q m j else 0)).
  - apply zsum_eq. intros m' Hm'.
    transitivity (q m' j * zsum 0 n (fun p => R m p * L p m')).
    { rewrite <- zsum_scale. apply zsum_eq. intros p _. ring. }
    unfold inverse in HI. rewrite (HI m m') by lia. rewrite (Z.eqb_sym m m'). destruct (Z.eqb_spec m' m) as [E|]; [subst m'|]; ring.
  - apply zsum_delta. lia.
Qed.
Lemma char_diff n L q p a b : zsum 0 n (fun m => L p m * (q m a - q m b)) == char_var n L q p a - char_var n L q p b.
Proof. unfold char_var. rewrite <- zsum_minus. apply zsum_eq. intros. ring. Qed.
Lemma centre_char n R L q m i : inverse n R L -> (0 <= m < Z.of_nat n)%Z ->
  centre (q m) i == zsum 0 n (fun p => R m p * centre (char_var n L q p) i).
Proof.
  intros HI Hm. unfold centre.
  rewrite <- (char_recover n R L q m (i - 2) HI Hm), <- (char_recover n R L q m (i - 1) HI Hm),
    <- (char_recover n R L q m i HI Hm), <- (char_recover n R L q m (i + 1) HI Hm).
  set (v := char_var n L q).
  transitivity (zsum 0 n (fun p => (-(1 # 12)) * (R m p * v p (i - 2)%Z) + ((7 # 12) * (R m p * v p (i - 1)%Z) + ((7 # 12) * (R m p * v p i) + (-(1 # 12)) * (R m p * v p (i + 1)%Z))))).
  - rewrite !zsum_plus, !zsum_scale. field.
  - apply zsum_eq. intros p _. field.
Qed.

Lemma char_h_var neq ng mx2 evl hh0 q p i d : (ng + 1 <= i <= mx2 - 2)%Z ->
  char_h neq ng mx2 evl hh0 q p i d == char_var neq (fun p m => evl p m i) q p (i + d) - char_var neq (fun p m => evl p m i) q p (i + d - 1).
Proof.
  intros Hi. unfold char_h. rewrite in_slice_yes by lia. rewrite <- (char_diff neq (fun p m => evl p m i) q p (i + d) (i + d - 1)). reflexivity.
Qed.
Lemma char_side eps neq ng mx2 evl (evr : Z -> Z -> Z -> Q) hh0 q k m i : (ng + 1 <= i <= mx2 - 2)%Z ->
  inverse neq (fun m p => evr m p i) (fun p m => evl p m i) -> (0 <= m < Z.of_nat neq)%Z ->
  let v := char_var neq (fun p m => evl p m i) q in
  centre (q m) i + zsum 0 neq (fun p => evr m p i * correction eps k (char_h neq ng mx2 evl hh0 q p i))
  == zsum 0 neq (fun p => evr m p i * (correction eps k (fun d => v p (i + d)%Z - v p (i + d - 1)%Z) + centre (v p) i)).
Proof.
  intros Hi HI Hm v. rewrite (centre_char neq (fun m p => evr m p i) (fun p m => evl p m i) q m i HI Hm).
  rewrite <- zsum_plus. apply zsum_eq. intros p _. cbv beta.
  rewrite (correction_ext eps k (char_h neq ng mx2 evl hh0 q p i) (fun d => v p (i + d)%Z - v p (i + d - 1)%Z)).
  { fold v. ring. }
  all: apply char_h_var; lia.
Qed.

(** ** Transmission *)
Lemma trans_h_const neq ng mx2 (L R : Z -> Z -> Q) hh0 q p i d : (ng + 1 <= i <= mx2 - 2)%Z ->
  trans_h neq ng mx2 (fun p m _ => L p m) (fun m p _ => R m p) hh0 q p i d
  == zsum 0 neq (fun m => L p m * R p m) * (char_var neq L q p (i + d) - char_var neq L q p (i + d - 1)).
Proof.
  intros Hi. unfold trans_h. rewrite in_slice_yes by lia. unfold strength. rewrite <- (char_diff neq L q p (i + d) (i + d - 1)).
  rewrite Qmult_comm, <- zsum_scale. apply zsum_eq. intros m _. ring.
Qed.
Lemma trans_side eps neq ng mx2 (L R : Z -> Z -> Q) hh0 q k m i : (ng + 1 <= i <= mx2 - 2)%Z ->
  inverse neq R L -> (forall p, (0 <= p < Z.of_nat neq)%Z -> zsum 0 neq (fun m => L p m * R p m) == 1) -> (0 <= m < Z.of_nat neq)%Z ->
  let v := char_var neq L q in
  centre (q m) i + zsum 0 neq (fun p => R m p * correction eps k (trans_h neq ng mx2 (fun p m _ => L p m) (fun m p _ => R m p) hh0 q p i))
  == zsum 0 neq (fun p => R m p * (correction eps k (fun d => v p (i + d)%Z - v p (i + d - 1)%Z) + centre (v p) i)).
Proof.
  intros Hi HI H1 Hm v. rewrite (centre_char neq R L q m i HI Hm).
  rewrite <- zsum_plus. apply zsum_eq. intros p Hp. cbv beta.
  rewrite (correction_ext eps k (trans_h neq ng mx2 (fun p m _ => L p m) (fun m p _ => R m p) hh0 q p i) (fun d => v p (i + d)%Z - v p (i + d - 1)%Z)).
  { fold v. ring. }
  all: rewrite trans_h_const by lia; rewrite H1 by lia; fold v; ring.
Qed.

(** ** Waves *)
(** The correction is homogeneous: scaling the differences by c and eps by c*c scales the result by c. *)
Lemma correction_scale eps k c h : 0 < eps -> ~ c == 0 -> (k = 1 \/ k = -1)%Z ->
  correction (c * c * eps) k (fun d => c * h d) == c * correction eps k h.
Proof.
  intros He Hc Hk. unfold correction. cbv zeta.
  set (im := inject_Z k). set (a := h (-2 * k)%Z). set (b := h (- k)%Z). set (d := h 0%Z). set (e := h k).
  assert (Q1 : forall x y : Q, 0 < eps + (13 * (x * x) + 3 * (y * y))).
  { intros x y. assert (S : forall x : Q, 0 <= x * x) by (intros z; destruct (Qlt_le_dec z 0); nra). pose proof (S x). pose proof (S y). lra. }
  pose proof (Q1 (im * (a - b)) (a - 3 * b)) as P1. pose proof (Q1 (im * (b - d)) (b + d)) as P2. pose proof (Q1 (im * (d - e)) (3 * d - e)) as P3.
  set (T1 := eps + (13 * (im * (a - b) * (im * (a - b))) + 3 * ((a - 3 * b) * (a - 3 * b)))) in *.
  set (T2 := eps + (13 * (im * (b - d) * (im * (b - d))) + 3 * ((b + d) * (b + d)))) in *.
  set (T3 := eps + (13 * (im * (d - e) * (im * (d - e))) + 3 * ((3 * d - e) * (3 * d - e)))) in *.
  assert (E1 : c * c * eps + (13 * (im * (c * a - c * b) * (im * (c * a - c * b))) + 3 * ((c * a - 3 * (c * b)) * (c * a - 3 * (c * b)))) == c * c * T1) by (unfold T1; ring).
  assert (E2 : c * c * eps + (13 * (im * (c * b - c * d) * (im * (c * b - c * d))) + 3 * ((c * b + c * d) * (c * b + c * d))) == c * c * T2) by (unfold T2; ring).
  assert (E3 : c * c * eps + (13 * (im * (c * d - c * e) * (im * (c * d - c * e))) + 3 * ((3 * (c * d) - c * e) * (3 * (c * d) - c * e))) == c * c * T3) by (unfold T3; ring).
  rewrite E1, E2, E3. clearbody T1 T2 T3.
  assert (N1 : 0 < T1 * T1) by (apply Qmul_pos; exact P1). assert (N2 : 0 < T2 * T2) by (apply Qmul_pos; exact P2). assert (N3 : 0 < T3 * T3) by (apply Qmul_pos; exact P3).
  assert (N12 : 0 < T1 * T1 * (T2 * T2)) by (apply Qmul_pos; assumption). assert (N13 : 0 < T1 * T1 * (T3 * T3)) by (apply Qmul_pos; assumption). assert (N23 : 0 < T2 * T2 * (T3 * T3)) by (apply Qmul_pos; assumption).
  set (S := T2 * T2 * (T3 * T3) + 6 * (T1 * T1) * (T3 * T3) + 3 * (T1 * T1) * (T2 * T2)).
  assert (NS : ~ S == 0) by (unfold S; lra).
  set (C8 := c * c * (c * c) * (c * c * (c * c))). assert (NC : ~ C8 == 0).
  { unfold C8. intros E. repeat (apply Qmult_integral in E; destruct E as [E|E]); auto. }
  assert (E : c * c * T2 * (c * c * T2) * (c * c * T3 * (c * c * T3)) + 6 * (c * c * T1 * (c * c * T1)) * (c * c * T3 * (c * c * T3)) + 3 * (c * c * T1 * (c * c * T1)) * (c * c * T2 * (c * c * T2)) == C8 * S)
    by (unfold C8, S; ring).
  rewrite E.
  assert (F1 : c * c * T2 * (c * c * T2) * (c * c * T3 * (c * c * T3)) * (1 / (C8 * S)) == T2 * T2 * (T3 * T3) * (1 / S)).
  { assert (G : c * c * T2 * (c * c * T2) * (c * c * T3 * (c * c * T3)) == C8 * (T2 * T2 * (T3 * T3))) by (unfold C8; ring). rewrite G. field. split; assumption. }
  assert (F3 : 3 * (c * c * T1 * (c * c * T1)) * (c * c * T2 * (c * c * T2)) * (1 / (C8 * S)) == 3 * (T1 * T1) * (T2 * T2) * (1 / S)).
  { assert (G : 3 * (c * c * T1 * (c * c * T1)) * (c * c * T2 * (c * c * T2)) == C8 * (3 * (T1 * T1) * (T2 * T2))) by (unfold C8; ring). rewrite G. field. split; assumption. }
  rewrite F1, F3. field. exact NS.
Qed.

(** A family of parallel waves: the projections are multiples of the strengths. *)
Definition norm2 (n : nat) (r : Z -> Z -> Q) (p : Z) : Q := zsum 0 n (fun m => r m p * r m p).
Lemma dot_parallel n r (w : Z -> Z -> Z -> Q) (al : Z -> Q) p i j :
  (forall m, (0 <= m < Z.of_nat n)%Z -> w m p i == r m p * al i) ->
  (forall m, (0 <= m < Z.of_nat n)%Z -> w m p j == r m p * al j) ->
  zsum 0 n (fun m => w m p j * w m p i) == al i * norm2 n r p * al j.
Proof.
  intros Hi Hj. unfold norm2. setoid_replace (al i * zsum 0 n (fun m => r m p * r m p) * al j) with ((al i * al j) * zsum 0 n (fun m => r m p * r m p)) by ring.
  rewrite <- zsum_scale. apply zsum_eq. intros m Hm. rewrite Hi, Hj by lia. ring.
Qed.
Lemma correction_wave eps k c (h : Z -> Q) : 0 < eps -> ~ c == 0 -> (k = 1 \/ k = -1)%Z ->
  correction eps k (fun d => c * h d) == c * correction (eps / (c * c)) k h.
Proof.
  intros He Hc Hk. assert (P : 0 < c * c) by (destruct (Qlt_le_dec c 0); [nra|]; assert (0 < c) by (destruct (Qlt_le_dec 0 c) as [|G]; [assumption|]; exfalso; apply Hc; lra); nra).
  rewrite <- (correction_scale (eps / (c * c)) k c h); [|apply Qdiv_pos; assumption|assumption|assumption].
  assert (E : c * c * (eps / (c * c)) == eps) by (field; assumption).
  unfold correction. cbv zeta. rewrite E. reflexivity.
Qed.
Lemma small_pos x : (1 # 100000000000000) < x -> 0 < x.
Proof. intros H. assert (E : 0 < 1 # 100000000000000) by reflexivity. lra. Qed.

(** Python: wave_factor times the strength is the WENO value minus the cell average. *)
Lemma wave_factor_py eps n w k p i : wave_factor eps n w k p i ==
  let h d := zsum 0 n (fun m => w m p (i + d)%Z * w m p i) in
  if qltb (1 # 100000000000000) (h 0%Z)
  then (correction eps k h + inject_Z k * (h (- k)%Z + 6 * h 0%Z - h k) / 12) / h 0%Z else 0.
Proof.
  unfold wave_factor. cbv zeta. replace (i + 0)%Z with i by lia.
  destruct (qltb _ _) eqn:E; [|ring]. unfold correction. cbv zeta.
  replace (i + - 2 * k)%Z with (i - 2 * k)%Z by lia. replace (i + - k)%Z with (i - k)%Z by lia. replace (i + 0)%Z with i by lia.
  set (N := zsum 0 n (fun m => w m p i * w m p i)) in *.
  assert (U : forall z, z * (1 / N) == z / N) by (intros; unfold Qdiv; ring). apply U.
Qed.

Lemma qltb_eqv a x y : x == y -> qltb a x = qltb a y.
Proof. intros E. destruct (qltb a x) eqn:A, (qltb a y) eqn:B; try reflexivity; [apply qltb_lt in A; apply qltb_ge in B|apply qltb_ge in A; apply qltb_lt in B]; lra. Qed.

Lemma py_factor_weno eps n r w (v : Z -> Q) k p i : 0 < eps -> (k = 1 \/ k = -1)%Z ->
  (forall m j, (0 <= m < Z.of_nat n)%Z -> (i - 2 <= j <= i + 2)%Z -> w m p j == r m p * (v (j + 1)%Z - v j)) ->
  (1 # 100000000000000) < zsum 0 n (fun m => w m p i * w m p i) ->
  let c := (v (i + 1)%Z - v i) * norm2 n r p in
  0 < c * c /\
  wave_factor eps n w k p i * (v (i + 1)%Z - v i)
  == correction (eps / (c * c)) k (fun d => v (i + 1 + d)%Z - v (i + 1 + d - 1)%Z) + centre v (i + 1) - (if Z.eqb k 1 then v i else v (i + 1)%Z).
Proof.
  intros He Hk Hw Hs c.
  assert (D : forall d, (-2 <= d <= 2)%Z -> zsum 0 n (fun m => w m p (i + d)%Z * w m p i) == c * (v (i + 1 + d)%Z - v (i + 1 + d - 1)%Z)).
  { intros d Hd. rewrite (dot_parallel n r w (fun j => v (j + 1)%Z - v j) p i (i + d)) by (intros; apply Hw; lia).
    unfold c. replace (i + 1 + d - 1)%Z with (i + d)%Z by lia. replace (i + 1 + d)%Z with (i + d + 1)%Z by lia. reflexivity. }
  assert (D0 : zsum 0 n (fun m => w m p i * w m p i) == c * (v (i + 1)%Z - v i)).
  { rewrite (dot_parallel n r w (fun j => v (j + 1)%Z - v j) p i i) by (intros; apply Hw; lia). unfold c. reflexivity. }
  pose proof (small_pos _ Hs) as P0. rewrite D0 in P0.
  assert (Hc : ~ c == 0) by (intros E; rewrite E in P0; lra).
  assert (Ha : ~ v (i + 1)%Z - v i == 0) by (intros E; rewrite E in P0; lra).
  split. { destruct (Qlt_le_dec c 0); [nra|]; assert (0 < c) by (destruct (Qlt_le_dec 0 c) as [|G]; [assumption|]; exfalso; apply Hc; lra); nra. }
  rewrite wave_factor_py. cbv zeta beta. replace (i + 0)%Z with i by lia.
  rewrite (proj2 (qltb_lt _ _) Hs), D0.
  rewrite (correction_ext eps k (fun d => zsum 0 n (fun m => w m p (i + d)%Z * w m p i)) (fun d => c * (v (i + 1 + d)%Z - v (i + 1 + d - 1)%Z)))
    by (apply D; destruct Hk; subst k; lia).
  rewrite correction_wave by assumption.
  rewrite (D (- k)%Z), (D k) by (destruct Hk; subst k; lia).
  set (X := correction _ _ _). unfold centre.
  destruct Hk; subst k; cbn [Z.eqb Pos.eqb Z.opp]; change (inject_Z 1) with 1; change (inject_Z (-1)) with (-(1)).
  - replace (i + 1 + -1)%Z with i by lia. replace (i + 1 + 1 - 1)%Z with (i + 1)%Z by lia. replace (i + 1 - 2)%Z with (i - 1)%Z by lia. replace (i + 1 - 1)%Z with i by lia.
    field. split; assumption.
  - replace (i + 1 + -1)%Z with i by lia. replace (i + 1 + 1 - 1)%Z with (i + 1)%Z by lia. replace (i + 1 - 2)%Z with (i - 1)%Z by lia. replace (i + 1 - 1)%Z with i by lia.
    field. split; assumption.
Qed.

(** Fortran: the same factor without the centred part *)
Lemma f_factor_weno eps n r w (v : Z -> Q) k p i : 0 < eps -> (k = 1 \/ k = -1)%Z ->
  (forall m j, (0 <= m < Z.of_nat n)%Z -> (i - 2 <= j <= i + 2)%Z -> w m p j == r m p * (v j - v (j - 1)%Z)) ->
  (1 # 100000000000000) < wave_dot n w p i 0 ->
  let c := (v i - v (i - 1)%Z) * norm2 n r p in
  0 < c * c /\
  correction eps k (wave_dot n w p i) * (v i - v (i - 1)%Z) * (1 / wave_dot n w p i 0)
  == correction (eps / (c * c)) k (fun d => v (i + d)%Z - v (i + d - 1)%Z).
Proof.
  intros He Hk Hw Hs c. unfold wave_dot in *.
  assert (D : forall d, (-2 <= d <= 2)%Z -> zsum 0 n (fun m => w m p (i + d)%Z * w m p i) == c * (v (i + d)%Z - v (i + d - 1)%Z)).
  { intros d Hd. rewrite (dot_parallel n r w (fun j => v j - v (j - 1)%Z) p i (i + d)) by (intros; apply Hw; lia). reflexivity. }
  pose proof (D 0%Z ltac:(lia)) as D0. replace (i + 0 - 1)%Z with (i - 1)%Z in D0 by lia. replace (i + 0)%Z with i in * by lia.
  pose proof (small_pos _ Hs) as P0. rewrite D0 in P0.
  assert (Hc : ~ c == 0) by (intros E; rewrite E in P0; lra).
  assert (Ha : ~ v i - v (i - 1)%Z == 0) by (intros E; rewrite E in P0; lra).
  split. { destruct (Qlt_le_dec c 0); [nra|]; assert (0 < c) by (destruct (Qlt_le_dec 0 c) as [|G]; [assumption|]; exfalso; apply Hc; lra); nra. }
  rewrite D0.
  rewrite (correction_ext eps k (fun d => zsum 0 n (fun m => w m p (i + d)%Z * w m p i)) (fun d => c * (v (i + d)%Z - v (i + d - 1)%Z)))
    by (apply D; destruct Hk; subst k; lia).
  rewrite correction_wave by assumption. field. split; assumption.
Qed.

(** ** Second-order routines *)
Lemma dmax_spec a b : (a <= b /\ dmax a b = b) \/ (b < a /\ dmax a b = a).
Proof. unfold dmax. destruct (Qle_bool a b) eqn:E; [left; split; [apply Qle_bool_iff; exact E|reflexivity]|right]. split; [|reflexivity]. apply Qnot_le_lt. intros H. apply Qle_bool_iff in H. congruence. Qed.
Lemma dmin_spec a b : (a <= b /\ dmin a b = a) \/ (b < a /\ dmin a b = b).
Proof. unfold dmin. destruct (Qle_bool a b) eqn:E; [left; split; [apply Qle_bool_iff; exact E|reflexivity]|right]. split; [|reflexivity]. apply Qnot_le_lt. intros H. apply Qle_bool_iff in H. congruence. Qed.
Ltac dmm := repeat match goal with
  | |- context [dmin ?a ?b] => lazymatch a with context [dmin _ _] => fail | context [dmax _ _] => fail | _ => lazymatch b with context [dmin _ _] => fail | context [dmax _ _] => fail | _ => destruct (dmin_spec a b) as [[? ->]|[? ->]] end end
  | |- context [dmax ?a ?b] => lazymatch a with context [dmin _ _] => fail | context [dmax _ _] => fail | _ => lazymatch b with context [dmin _ _] => fail | context [dmax _ _] => fail | _ => destruct (dmax_spec a b) as [[? ->]|[? ->]] end end
  end.
Lemma in_slice_iff a b i : in_slice a b i = true <-> (a <= i < b)%Z.
Proof. unfold in_slice. rewrite Bool.andb_true_iff, Z.leb_le, Z.ltb_lt. tauto. Qed.

Lemma van_leer_bounds r : 0 <= (r + Qabs r) / (1 + Qabs r) <= 2 /\ (r <= 0 -> (r + Qabs r) / (1 + Qabs r) == 0) /\ (0 <= r -> (r + Qabs r) / (1 + Qabs r) <= 2 * r).
Proof.
  destruct (Qlt_le_dec r 0) as [Hr|Hr].
  - rewrite (Qabs_neg r) by lra. assert (E : (r + - r) / (1 + - r) == 0) by (field; lra). rewrite E. repeat split; intros; lra.
  - rewrite (Qabs_pos r Hr). set (y := (r + r) / (1 + r)). assert (E : y * (1 + r) == r + r) by (unfold y; field; lra).
    assert (Y0 : 0 <= y) by (destruct (Qlt_le_dec y 0); [exfalso; nra|assumption]).
    repeat split; intros; [exact Y0| | |]; nra.
Qed.
Lemma limiter_bounds lim r phi : (1 <= lim <= 4)%Z -> recon_limiter lim r = Some phi ->
  0 <= phi <= 2 /\ (r <= 0 -> phi == 0) /\ (0 <= r -> phi <= 2 * r).
Proof.
  intros Hl. assert (E : (lim = 1 \/ lim = 2 \/ lim = 3 \/ lim = 4)%Z) by lia.
  destruct E as [-> | [-> | [-> | ->]]]; unfold recon_limiter; cbn [Z.eqb Pos.eqb]; intros H; injection H as <-.
  - dmm; repeat split; intros; lra.
  - dmm; repeat split; intros; lra.
  - apply van_leer_bounds.
  - set (c := (1 + r) / 2). assert (Ec : 2 * c == 1 + r) by (unfold c; field). clearbody c.
    dmm; repeat split; intros; lra.
Qed.
Lemma limiter_defined lim r : (1 <= lim <= 5)%Z -> exists phi, recon_limiter lim r = Some phi.
Proof.
  intros Hl. assert (E : (lim = 1 \/ lim = 2 \/ lim = 3 \/ lim = 4 \/ lim = 5)%Z) by lia.
  destruct E as [-> | [-> | [-> | [-> | ->]]]]; unfold recon_limiter; cbn [Z.eqb Pos.eqb]; eexists; reflexivity.
Qed.
Lemma limiter_one lim r phi : (1 <= lim <= 5)%Z -> r == 1 -> recon_limiter lim r = Some phi -> phi == 1.
Proof.
  intros Hl Hr. assert (E : (lim = 1 \/ lim = 2 \/ lim = 3 \/ lim = 4 \/ lim = 5)%Z) by lia.
  destruct E as [-> | [-> | [-> | [-> | ->]]]]; unfold recon_limiter; cbn [Z.eqb Pos.eqb]; intros H; injection H as <-.
  - dmm; lra.
  - dmm; lra.
  - rewrite Qabs_pos by lra. rewrite Hr. reflexivity.
  - set (c := (1 + r) / 2). assert (Ec : 2 * c == 1 + r) by (unfold c; field). clearbody c. dmm; lra.
  - set (c := (2 + r) / 3). assert (Ec : 3 * c == 2 + r) by (unfold c; field). clearbody c. dmm; lra.
Qed.
(** A limited slope stays between the two differences and zero. *)
Lemma slope_between phi h g : ~ h == 0 -> 0 <= phi <= 2 -> (g / h <= 0 -> phi == 0) -> (0 <= g / h -> phi <= 2 * (g / h)) ->
  between 0 g ((1 # 2) * phi * h) /\ between 0 h ((1 # 2) * phi * h).
Proof.
  intros Hh Hp H0 H1. set (r := g / h) in *. assert (E : g == r * h) by (unfold r; field; exact Hh). clearbody r.
  assert (Hs : h < 0 \/ 0 < h) by (destruct (Qlt_le_dec h 0); [left; assumption|right; destruct (Qlt_le_dec 0 h); [assumption|exfalso; apply Hh; lra]]).
  unfold between. rewrite E. destruct (Qlt_le_dec 0 r) as [Hr|Hr].
  - specialize (H1 ltac:(lra)). destruct Hs; split; [right|right|left|left]; split; nra.
  - specialize (H0 Hr). rewrite H0. setoid_replace ((1 # 2) * 0 * h) with 0 by ring.
    split; [destruct Hs; [left|right]; split; try lra; nra|destruct Hs; [right|left]; split; lra].
Qed.

(** ** Periodic data *)
Lemma vec_ext n a b i j : (forall m, (0 <= m < Z.of_nat n)%Z -> a m i = b m j) -> vec n a i = vec n b j.
Proof. intros H. unfold vec. apply map_ext_in. intros m Hm. apply in_seq in Hm. apply H. lia. Qed.
Lemma correction_leib eps k h h' : h (- 2 * k)%Z = h' (- 2 * k)%Z -> h (- k)%Z = h' (- k)%Z -> h 0%Z = h' 0%Z -> h k = h' k ->
  correction eps k h = correction eps k h'.
Proof. intros A B C D. unfold correction. cbv zeta. rewrite A, B, C, D. reflexivity. Qed.
Lemma centre_leib v i j : v (i - 2)%Z = v (j - 2)%Z -> v (i - 1)%Z = v (j - 1)%Z -> v i = v j -> v (i + 1)%Z = v (j + 1)%Z -> centre v i = centre v j.
Proof. intros A B C D. unfold centre. rewrite A, B, C, D. reflexivity. Qed.

Lemma per_corr eps k h h' : (k = 1 \/ k = -1)%Z -> (forall d, (-2 <= d <= 2)%Z -> h d = h' d) -> correction eps k h = correction eps k h'.
Proof. intros Hk H. apply correction_leib; apply H; destruct Hk; subst k; lia. Qed.

Section Periodic.
Variables (neq naux : nat) (ng mx : Z) (q aux : Z -> Z -> Q).
Hypothesis Hg : (3 <= ng)%Z.
Hypothesis Hmx : (1 <= mx)%Z.
Hypothesis Pq : forall m i, (0 <= m < Z.of_nat neq)%Z -> (1 - ng <= i <= ng)%Z -> q m i = q m (i + mx)%Z.
Hypothesis Pa : forall m i, (0 <= m < Z.of_nat naux)%Z -> (1 - ng <= i <= ng)%Z -> aux m i = aux m (i + mx)%Z.
Let I := (ng + 1)%Z.
Let J := (ng + 1 + mx)%Z.

Lemma per_dummy m d : (0 <= m < Z.of_nat neq)%Z -> (-3 <= d <= 2)%Z -> dummy ng q m (I + d)%Z = dummy ng q m (J + d)%Z.
Proof. intros Hm Hd. unfold dummy, I, J. rewrite Pq by lia. f_equal. lia. Qed.
Lemma per_dummy' m a b d : (0 <= m < Z.of_nat neq)%Z -> (-3 <= d <= 2)%Z -> a = (I + d)%Z -> b = (J + d)%Z -> dummy ng q m a = dummy ng q m b.
Proof. intros Hm Hd -> ->. apply per_dummy; assumption. Qed.
Lemma per_centre m : (0 <= m < Z.of_nat neq)%Z -> centre (dummy ng q m) I = centre (dummy ng q m) J.
Proof.
  intros Hm. apply centre_leib.
  - apply (per_dummy' m _ _ (-2)); lia.
  - apply (per_dummy' m _ _ (-1)); lia.
  - apply (per_dummy' m _ _ 0); lia.
  - apply (per_dummy' m _ _ 1); lia.
Qed.
Lemma per_vec d : (-3 <= d <= 2)%Z -> vec neq q (I + d - ng) = vec neq q (J + d - ng).
Proof. intros Hd. apply vec_ext. intros m Hm. rewrite Pq by (unfold I; lia). f_equal. unfold I, J. lia. Qed.
Lemma per_vec_aux d : (-3 <= d <= 2)%Z -> vec naux aux (I + d - ng) = vec naux aux (J + d - ng).
Proof. intros Hd. apply vec_ext. intros m Hm. rewrite Pa by (unfold I; lia). f_equal. unfold I, J. lia. Qed.
Lemma per_left E d p m : (-2 <= d <= 2)%Z -> ev_left E neq naux ng q aux p m (I + d) = ev_left E neq naux ng q aux p m (J + d).
Proof.
  intros Hd. unfold ev_left. replace (I + d - 1 - ng)%Z with (I + (d - 1) - ng)%Z by lia. replace (J + d - 1 - ng)%Z with (J + (d - 1) - ng)%Z by lia.
  rewrite !per_vec, !per_vec_aux by lia. reflexivity.
Qed.
Lemma per_right E d p m : (-2 <= d <= 2)%Z -> ev_right E neq naux ng q aux m p (I + d) = ev_right E neq naux ng q aux m p (J + d).
Proof.
  intros Hd. unfold ev_right. replace (I + d - 1 - ng)%Z with (I + (d - 1) - ng)%Z by lia. replace (J + d - 1 - ng)%Z with (J + (d - 1) - ng)%Z by lia.
  rewrite !per_vec, !per_vec_aux by lia. reflexivity.
Qed.
Lemma per_left0 E p m : ev_left E neq naux ng q aux p m I = ev_left E neq naux ng q aux p m J.
Proof. pose proof (per_left E 0 p m ltac:(lia)) as H. rewrite !Z.add_0_r in H. exact H. Qed.
Lemma per_right0 E p m : ev_right E neq naux ng q aux m p I = ev_right E neq naux ng q aux m p J.
Proof. pose proof (per_right E 0 p m ltac:(lia)) as H. rewrite !Z.add_0_r in H. exact H. Qed.
Lemma per_wave rp d p m : (-2 <= d <= 2)%Z -> wave (dummy_wave rp neq naux ng q aux) m p (I + d)%Z = wave (dummy_wave rp neq naux ng q aux) m p (J + d)%Z.
Proof.
  intros Hd. unfold dummy_wave, solve_rps. cbn [wave].
  replace (I + d - ng + -1)%Z with (I + (d - 1) - ng)%Z by lia. replace (J + d - ng + -1)%Z with (J + (d - 1) - ng)%Z by lia.
  replace (I + (d - 1) - ng + 1)%Z with (I + d - ng)%Z by lia. replace (J + (d - 1) - ng + 1)%Z with (J + d - ng)%Z by lia.
  rewrite !per_vec, !per_vec_aux by lia. reflexivity.
Qed.
Lemma per_diff m d : (0 <= m < Z.of_nat neq)%Z -> (-2 <= d <= 2)%Z ->
  dummy ng q m (I + d)%Z - dummy ng q m (I + d - 1)%Z = dummy ng q m (J + d)%Z - dummy ng q m (J + d - 1)%Z.
Proof. intros Hm Hd. rewrite (per_dummy' m (I + d) (J + d) d), (per_dummy' m (I + d - 1) (J + d - 1) (d - 1)) by lia. reflexivity. Qed.

Lemma per_char_h E hh0 p d : (-2 <= d <= 2)%Z ->
  char_h neq ng (mx + 2 * ng) (ev_left E neq naux ng q aux) hh0 (dummy ng q) p I d = char_h neq ng (mx + 2 * ng) (ev_left E neq naux ng q aux) hh0 (dummy ng q) p J d.
Proof.
  intros Hd. unfold char_h. rewrite !in_slice_yes by (unfold I, J; lia). apply zsum_ext. intros m Hm. rewrite per_left0, per_diff by lia. reflexivity.
Qed.
Lemma per_strength E p d : (-2 <= d <= 2)%Z ->
  strength neq (ev_left E neq naux ng q aux) (dummy ng q) p (I + d) = strength neq (ev_left E neq naux ng q aux) (dummy ng q) p (J + d).
Proof. intros Hd. unfold strength. apply zsum_ext. intros m Hm. rewrite per_left, per_diff by lia. reflexivity. Qed.
Lemma per_trans_h E hh0 p d : (-2 <= d <= 2)%Z ->
  trans_h neq ng (mx + 2 * ng) (ev_left E neq naux ng q aux) (ev_right E neq naux ng q aux) hh0 (dummy ng q) p I d
  = trans_h neq ng (mx + 2 * ng) (ev_left E neq naux ng q aux) (ev_right E neq naux ng q aux) hh0 (dummy ng q) p J d.
Proof.
  intros Hd. unfold trans_h. rewrite !in_slice_yes by (unfold I, J; lia). apply zsum_ext. intros m Hm. rewrite per_left0, per_right, per_strength by lia. reflexivity.
Qed.
Lemma per_dot rp p d : (-2 <= d <= 2)%Z ->
  wave_dot neq (wave (dummy_wave rp neq naux ng q aux)) p I d = wave_dot neq (wave (dummy_wave rp neq naux ng q aux)) p J d.
Proof.
  intros Hd. unfold wave_dot. apply zsum_ext. intros m Hm. f_equal; [apply per_wave; exact Hd|].
  pose proof (per_wave rp 0 p m ltac:(lia)) as H. rewrite !Z.add_0_r in H. exact H.
Qed.
Lemma per_tvd_h E p d : (-2 <= d <= 2)%Z ->
  tvd_h neq (ev_left E neq naux ng q aux) (dummy ng q) p I d = tvd_h neq (ev_left E neq naux ng q aux) (dummy ng q) p J d.
Proof. intros Hd. unfold tvd_h. apply zsum_ext. intros m Hm. rewrite per_left0, per_diff by lia. reflexivity. Qed.
End Periodic.

Lemma char_keeps eps E neq naux ng mx ql0 qr0 hh0 : (3 <= ng)%Z -> (1 <= mx)%Z ->
  keeps_period neq naux ng mx (char_recon eps E neq naux ng mx ql0 qr0 hh0).
Proof.
  intros Hg Hm0 q aux Pq Pa m Hm. unfold char_recon, undummy, weno5_char. cbn [fst snd]. rewrite !in_slice_yes by lia.
  replace (0 + ng + 1)%Z with (ng + 1)%Z by lia. replace (mx + ng + 1)%Z with (ng + 1 + mx)%Z by lia.
  replace (1 + ng)%Z with (ng + 1)%Z by lia. replace (mx + 1 + ng)%Z with (ng + 1 + mx)%Z by lia.
  rewrite (per_centre neq ng mx q Hg Pq m Hm).
  split; f_equal; apply zsum_ext; intros p Hp; (rewrite (per_right0 neq naux ng mx q aux Hg Pq Pa); f_equal; apply per_corr; [tauto|]; intros d Hd; apply per_char_h; assumption).
Qed.
Lemma trans_keeps eps E neq naux ng mx ql0 qr0 hh0 : (3 <= ng)%Z -> (1 <= mx)%Z ->
  keeps_period neq naux ng mx (trans_recon eps E neq naux ng mx ql0 qr0 hh0).
Proof.
  intros Hg Hm0 q aux Pq Pa m Hm. unfold trans_recon, undummy, weno5_trans. cbn [fst snd]. rewrite !in_slice_yes by lia.
  replace (0 + ng + 1)%Z with (ng + 1)%Z by lia. replace (mx + ng + 1)%Z with (ng + 1 + mx)%Z by lia.
  replace (1 + ng)%Z with (ng + 1)%Z by lia. replace (mx + 1 + ng)%Z with (ng + 1 + mx)%Z by lia.
  rewrite (per_centre neq ng mx q Hg Pq m Hm).
  split; f_equal; apply zsum_ext; intros p Hp; (rewrite (per_right0 neq naux ng mx q aux Hg Pq Pa); f_equal; apply per_corr; [tauto|]; intros d Hd; apply per_trans_h; assumption).
Qed.
Lemma wave_keeps eps rp neq nw naux ng mx ql0 qr0 : (3 <= ng)%Z -> (1 <= mx)%Z ->
  keeps_period neq naux ng mx (wave_recon eps rp neq nw naux ng mx ql0 qr0).
Proof.
  intros Hg Hm0 q aux Pq Pa m Hm. unfold wave_recon, undummy, f_weno5_wave. cbn [fst snd]. rewrite !in_slice_yes by lia.
  replace (0 + ng + 1)%Z with (ng + 1)%Z by lia. replace (mx + ng + 1)%Z with (ng + 1 + mx)%Z by lia.
  replace (1 + ng)%Z with (ng + 1)%Z by lia. replace (mx + 1 + ng)%Z with (ng + 1 + mx)%Z by lia.
  rewrite (per_centre neq ng mx q Hg Pq m Hm).
  assert (W : forall p m, wave (dummy_wave rp neq naux ng q aux) m p (ng + 1)%Z = wave (dummy_wave rp neq naux ng q aux) m p (ng + 1 + mx)%Z).
  { intros p m'. pose proof (per_wave neq naux ng mx q aux Hg Pq Pa rp 0 p m' ltac:(lia)) as H. rewrite !Z.add_0_r in H. exact H. }
  split; f_equal; apply zsum_ext; intros p Hp; rewrite W, (per_dot neq naux ng mx q aux Hg Pq Pa rp p 0) by lia;
    (destruct (qltb _ _); [|reflexivity]; f_equal; f_equal; apply per_corr; [tauto|]; intros d Hd; apply per_dot; assumption).
Qed.
Lemma tvd_char_keeps mthlim undef E neq naux ng mx ql0 qr0 : (3 <= ng)%Z -> (1 <= mx)%Z ->
  keeps_period neq naux ng mx (tvd_char_recon mthlim undef E neq naux ng mx ql0 qr0).
Proof.
  intros Hg Hm0 q aux Pq Pa m Hm. unfold tvd_char_recon, undummy, tvd2_char. cbn [fst snd]. rewrite !in_slice_yes by lia.
  replace (0 + ng + 1)%Z with (ng + 1)%Z by lia. replace (mx + ng + 1)%Z with (ng + 1 + mx)%Z by lia.
  replace (1 + ng)%Z with (ng + 1)%Z by lia. replace (mx + 1 + ng)%Z with (ng + 1 + mx)%Z by lia.
  rewrite (per_dummy' neq ng mx q Hg Pq m (0 + ng) (mx + ng) (-1)), (per_dummy' neq ng mx q Hg Pq m (ng + 1) (ng + 1 + mx) 0) by lia.
  split; f_equal; apply zsum_ext; intros p Hp; rewrite (per_right0 neq naux ng mx q aux Hg Pq Pa); f_equal;
    repeat rewrite (per_tvd_h neq naux ng mx q aux Hg Pq Pa E p) by lia; reflexivity.
Qed.
