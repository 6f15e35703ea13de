(** Accuracy and strong stability of the multistep formulas. *)
From Verif Require Import Base TimeModel SharpModel SharpSpec SharpProofs MultiModel MultiSpec MultiProofs.

Section Poly.
Variable Idx : Type.
Notation V := (Idx -> Q).

Lemma k2_poly (a0 a1 a2 : V) t H d : ~ H == 0 -> ~ d == 0 ->
  veq (k2_formula (H / d) d (poly3 a0 a1 a2 (fun _ => 0) t) (dpoly3 a1 a2 (fun _ => 0) t)
         (poly3 a0 a1 a2 (fun _ => 0) (t - H)))
      (poly3 a0 a1 a2 (fun _ => 0) (t + d)).
Proof. intros NH Nd i. unfold k2_formula, poly3, dpoly3. field. auto. Qed.
Lemma k3_poly (a0 a1 a2 a3 : V) t H d : ~ H == 0 -> ~ d == 0 ->
  veq (k3_formula (H / d) d (poly3 a0 a1 a2 a3 t) (dpoly3 a1 a2 a3 t)
         (poly3 a0 a1 a2 a3 (t - H)) (dpoly3 a1 a2 a3 (t - H)))
      (poly3 a0 a1 a2 a3 (t + d)).
Proof. intros NH Nd i. unfold k3_formula, poly3, dpoly3. cbv zeta. field. auto. Qed.

Lemma k2_ext om om' d (q q' fq fq' old old' : V) : om == om' -> veq q q' -> veq fq fq' -> veq old old' ->
  veq (k2_formula om d q fq old) (k2_formula om' d q' fq' old').
Proof. intros A B C D i. unfold k2_formula. rewrite A, (B i), (C i), (D i). reflexivity. Qed.
Lemma k3_ext om om' d (q q' fq fq' old old' fo fo' : V) :
  om == om' -> veq q q' -> veq fq fq' -> veq old old' -> veq fo fo' ->
  veq (k3_formula om d q fq old fo) (k3_formula om' d q' fq' old' fo').
Proof. intros A B C D E i. unfold k3_formula. cbv zeta. rewrite A, (B i), (C i), (D i), (E i). reflexivity. Qed.
Lemma poly3_ext (a0 a1 a2 a3 : V) t t' : t == t' -> veq (poly3 a0 a1 a2 a3 t) (poly3 a0 a1 a2 a3 t').
Proof. intros E i. unfold poly3. rewrite E. reflexivity. Qed.
Lemma dpoly3_ext (a1 a2 a3 : V) t t' : t == t' -> veq (dpoly3 a1 a2 a3 t) (dpoly3 a1 a2 a3 t').
Proof. intros E i. unfold dpoly3. rewrite E. reflexivity. Qed.
Lemma veq_trans (u v w : V) : veq u v -> veq v w -> veq u w.
Proof. intros A B i. rewrite (A i). apply B. Qed.

(** ** Strong stability *)
Variable K : V -> Prop.
Hypothesis Kconv : convex K.

(** If the forward-Euler steps of size w = d/r from the current and from the old solution are in K, so is the
    result. *)
Lemma k2_ssp om d w (q fq old : V) : 1 <= om -> w * ((om - 1) / om) == d ->
  K (fun i => q i + w * fq i) -> K old -> K (k2_formula om d q fq old).
Proof.
  intros Ho Hw A B.
  apply (K_comb Idx K Kconv ((om + 1) / om * ((om - 1) / om)) (1 / (om * om)) (fun i => q i + w * fq i) old); auto.
  - apply Qmul_nonneg; apply Qle_shift_div_l; lra.
  - apply Qle_shift_div_l; nra.
  - field. lra.
  - intros i. unfold k2_formula. rewrite <- Hw. field. lra.
Qed.
Lemma k3_ssp om d w (q fq old fo : V) : 2 <= om -> om * om <= 4 * (om + 1) -> w * ((om - 2) / om) == d ->
  K (fun i => q i + w * fq i) -> K (fun i => old i + w * fo i) -> K old -> K (k3_formula om d q fq old fo).
Proof.
  intros Ho Hd Hw A A' B.
  assert (Hr : 0 <= (om - 2) / om) by (apply Qle_shift_div_l; lra).
  assert (Hb : 0 <= (om + 1) * (om + 1) / (om * om)) by (apply Qle_shift_div_l; nra).
  assert (Hb0 : 0 <= (om + 1) / (om * om)) by (apply Qle_shift_div_l; nra).
  assert (Hd0 : 0 <= (4 * (om + 1) - om * om) / (om * om * om)).
  { apply Qle_shift_div_l; [|lra]. apply Qmul_pos; [nra|lra]. }
  set (c1 := (om + 1) * (om + 1) / (om * om) * ((om - 2) / om)).
  set (c2 := (om + 1) / (om * om) * ((om - 2) / om)).
  set (c3 := (4 * (om + 1) - om * om) / (om * om * om)).
  assert (P1 : 0 <= c1) by (apply Qmul_nonneg; auto). assert (P2 : 0 <= c2) by (apply Qmul_nonneg; auto).
  assert (S1 : c1 + c2 + c3 == 1) by (unfold c1, c2, c3; field; lra).
  assert (E : veq (k3_formula om d q fq old fo)
    (fun i => c1 * (q i + w * fq i) + (c2 * (old i + w * fo i) + c3 * old i))).
  { intros i. unfold k3_formula, c1, c2, c3. cbv zeta. rewrite <- Hw. field. lra. }
  fold c3 in Hd0. clearbody c1 c2 c3. clear Hr Hb Hb0.
  destruct (Qeq_dec (c2 + c3) 0) as [Z|NZ].
  - (* c1 = 1 *)
    apply (K_eq Idx K Kconv (fun i => q i + w * fq i)); auto.
    intros i. rewrite (E i). assert (Z2 : c2 == 0) by lra. assert (Z3 : c3 == 0) by lra.
    assert (Z1 : c1 == 1) by lra. rewrite Z1, Z2, Z3. ring.
  - assert (P : 0 < c2 + c3) by lra.
    apply (K_comb Idx K Kconv c1 (c2 + c3) (fun i => q i + w * fq i)
             (fun i => c2 / (c2 + c3) * (old i + w * fo i) + c3 / (c2 + c3) * old i)); auto; try lra.
    + apply (K_comb Idx K Kconv (c2 / (c2 + c3)) (c3 / (c2 + c3)) (fun i => old i + w * fo i) old); auto.
      * apply Qle_shift_div_l; lra.
      * apply Qle_shift_div_l; lra.
      * field. lra.
      * intros i. reflexivity.
    + intros i. rewrite (E i). field. lra.
Qed.
End Poly.

(** ** The automatic step size *)
Lemma auto_step p H mu : 0 < H -> 0 < mu -> 1 <= p ->
  let d := H * mu / (H + (p - 1) * mu) in
  0 < d /\ d <= mu /\ H / d == H / mu + (p - 1) /\ mu * ((H / d - (p - 1)) / (H / d)) == d.
Proof.
  intros PH Pm Pp d.
  assert (Pd : 0 < H + (p - 1) * mu) by (assert (0 <= (p - 1) * mu) by (apply Qmul_nonneg; lra); lra).
  assert (Pn : 0 < H * mu) by (apply Qmul_pos; auto).
  split; [apply Qdiv_pos; auto|]. split.
  - unfold d. apply Qle_shift_div_r; auto. assert (0 <= mu * ((p - 1) * mu)) by (apply Qmul_nonneg; [lra|apply Qmul_nonneg; lra]). lra.
  - unfold d. split; field; repeat split; lra.
Qed.
