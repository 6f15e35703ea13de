(** Limiters 7, 8 and 9: the two van Albada limiters and van Leer with Klein's sharpening. *)
From Verif Require Import Base LimiterModel LimiterSpec LimiterProofs.

Lemma sq_nonneg (x : Q) : 0 <= x * x.
Proof. nra. Qed.

(** Value of a limiter for r >= 1 from its value for r <= 1, when it is symmetric. *)
Lemma symmetric_bounds phi : symmetric phi -> (forall a b, a == b -> phi a == phi b) ->
  (forall r, 0 <= r -> r <= 1 -> 0 <= phi r <= 2 * r) -> forall r, 0 <= r -> 0 <= phi r <= 2 /\ phi r <= 2 * r.
Proof.
  intros S E B r Hr. destruct (Qlt_le_dec 1 r) as [H|H].
  - assert (Hp : 0 < r) by lra. destruct (Qinv_unit r Hp) as [H1 H2]. rewrite (S r Hp).
    assert (1 / r <= 1) by (apply Qle_shift_div_r; lra).
    assert (Hb := B (1 / r) ltac:(lra) H0). set (u := 1 / r) in *. clearbody u. clear S B E.
    set (p := phi u) in *. clearbody p. clear phi. nra.
  - assert (Hb := B r Hr H). lra.
Qed.

(** ** Limiter 9 *)
Lemma klein_low r c : 0 <= r -> r <= 1 ->
  vanleer_klein r c == 2 * r / (1 + r) * (1 + r * (1 - r) * (1 - r * r)).
Proof.
  intros H0 H1. unfold vanleer_klein. rewrite Qabs_pos by auto.
  assert (E : pymin r (1 / pymax r (1 # 100000)) == r).
  { assert (Hm : 0 < pymax r (1 # 100000) /\ pymax r (1 # 100000) <= 1) by (minmax; lra).
    set (m := pymax r (1 # 100000)) in *. clearbody m.
    assert (1 <= 1 / m) by (apply Qle_shift_div_l; lra). set (w := 1 / m) in *. clearbody w. minmax; lra. }
  cbv zeta. rewrite E. field. lra.
Qed.
Lemma klein_high r c : 1 <= r ->
  vanleer_klein r c == 2 * r / (1 + r) * (1 + 1 / r * (1 - 1 / r) * (1 - 1 / r * (1 / r))).
Proof.
  intros H1. unfold vanleer_klein. rewrite Qabs_pos by lra.
  assert (E : pymin r (1 / pymax r (1 # 100000)) == 1 / r).
  { assert (Hm : pymax r (1 # 100000) == r) by (minmax; lra).
    assert (Hv : 1 / pymax r (1 # 100000) == 1 / r) by (rewrite Hm; reflexivity).
    assert (1 / r <= 1) by (apply Qle_shift_div_r; lra).
    set (v := 1 / pymax r (1 # 100000)) in *. clearbody v. set (w := 1 / r) in *. clearbody w. minmax; lra. }
  cbv zeta. rewrite E. field. lra.
Qed.
Lemma klein_neg r c : r <= 0 -> vanleer_klein r c == 0.
Proof.
  intros H. unfold vanleer_klein. rewrite (Qabs_neg r) by auto. cbv zeta.
  assert (E : (r + - r) / (1 + - r) == 0) by (field; lra). rewrite E. ring.
Qed.
Lemma klein_symmetric c : symmetric (fun r => vanleer_klein r c).
Proof.
  intros r Hr. destruct (Qinv_unit r Hr) as [H1 H2]. destruct (Qlt_le_dec 1 r) as [H|H].
  - rewrite klein_high by lra. assert (1 / r <= 1) by (apply Qle_shift_div_r; lra).
    rewrite klein_low by lra. field. split; lra.
  - rewrite klein_low by lra. assert (1 <= 1 / r) by (apply Qle_shift_div_l; lra).
    rewrite klein_high by lra. field. split; lra.
Qed.
Lemma klein_ext c a b : a == b -> vanleer_klein a c == vanleer_klein b c.
Proof.
  intros E. destruct (Qlt_le_dec a 0) as [H|H].
  - rewrite !klein_neg by lra. reflexivity.
  - destruct (Qlt_le_dec 1 a).
    + rewrite !klein_high by lra. rewrite E. reflexivity.
    + rewrite !klein_low by lra. rewrite E. reflexivity.
Qed.
Lemma klein_sweby c : in_sweby (fun r => vanleer_klein r c).
Proof.
  assert (B : forall r, 0 <= r -> 0 <= vanleer_klein r c <= 2 /\ vanleer_klein r c <= 2 * r).
  { apply (symmetric_bounds (fun r => vanleer_klein r c)); [apply klein_symmetric | apply klein_ext |].
    intros r H0 H1. rewrite klein_low by auto.
    assert (Hn : 0 <= r * (1 - r) * (1 - r * r)).
    { assert (0 <= r * (1 - r)) by nra. assert (0 <= 1 - r * r) by nra. nra. }
    assert (E : 2 * r / (1 + r) * (1 + r * (1 - r) * (1 - r * r)) == 2 * r * ((1 + r * (1 - r) * (1 - r * r)) / (1 + r)))
      by (field; lra).
    rewrite E.
    assert (L : (1 + r * (1 - r) * (1 - r * r)) / (1 + r) <= 1).
    { apply Qle_shift_div_r; [lra|]. assert ((1 - r) * (1 - r * r) <= 1) by nra. nra. }
    assert (L0 : 0 <= (1 + r * (1 - r) * (1 - r * r)) / (1 + r)) by (apply Qle_shift_div_l; lra).
    set (w := (1 + r * (1 - r) * (1 - r * r)) / (1 + r)) in *. clearbody w. nra. }
  unfold in_sweby. split; [|split; [|split]].
  - intros r. destruct (Qlt_le_dec r 0) as [H|H]; [rewrite klein_neg by lra; lra | apply B; auto].
  - intros r H. apply B; auto.
  - intros r H. apply klein_neg; auto.
  - rewrite klein_low by lra. reflexivity.
Qed.

(** ** Limiter 7 *)
Lemma albada2_ext c a b : a == b -> albada2 a c == albada2 b c.
Proof. intros E. unfold albada2. rewrite E. reflexivity. Qed.
Lemma albada2_symmetric c : symmetric (fun r => albada2 r c).
Proof. intros r Hr. unfold albada2. field. repeat split; nra. Qed.
Lemma albada2_pos c r : 0 <= r -> 0 <= albada2 r c <= 2 /\ albada2 r c <= 2 * r.
Proof.
  intros Hr. unfold albada2. split; [split|].
  - apply Qle_shift_div_l; nra.
  - apply Qle_shift_div_r; nra.
  - apply Qle_shift_div_r; [nra|]. assert (0 <= r * r) by nra. assert (0 <= r * (1 - r + r * r)) by nra. nra.
Qed.
Lemma albada2_neg c r : r <= 0 -> -(1 # 4) <= albada2 r c <= 1.
Proof.
  intros Hr. unfold albada2. pose proof (sq_nonneg (r + (2 # 5))). assert (0 <= r * r) by nra.
  split; [apply Qle_shift_div_l | apply Qle_shift_div_r]; lra.
Qed.

(** ** Limiter 8 *)
Lemma albada3_low c r : 0 <= r -> r <= 1 ->
  albada3 r c == (1 # 2) * (r * (3 - 3 * r + 2 * (r * r))) / (1 - r + r * r).
Proof.
  intros H0 H1. unfold albada3. rewrite (Qabs_pos r), (Qabs_pos (1 - r)) by lra.
  assert (A : 1 + r * r * r == (1 + r) * (1 - r + r * r)) by ring. rewrite A. field. repeat split; nra.
Qed.
Lemma albada3_high c r : 1 <= r -> albada3 r c == (1 # 2) * (3 * (r * r) - 3 * r + 2) / (1 - r + r * r).
Proof.
  intros H1. unfold albada3. rewrite (Qabs_pos r), (Qabs_neg (1 - r)) by lra.
  assert (A : 1 + r * r * r == (1 + r) * (1 - r + r * r)) by ring. rewrite A. field. repeat split; nra.
Qed.
Lemma albada3_neg c r : r <= 0 -> albada3 r c == (3 # 2) * (r * (1 + r)) / (1 + r + r * r).
Proof.
  intros H1. unfold albada3. rewrite (Qabs_neg r), (Qabs_pos (1 - r)) by lra.
  assert (A : 1 + - r * - r * - r == (1 - r) * (1 + r + r * r)) by ring. rewrite A. field. repeat split; nra.
Qed.
Lemma albada3_symmetric c : symmetric (fun r => albada3 r c).
Proof.
  intros r Hr. destruct (Qinv_unit r Hr) as [H1 H2]. destruct (Qlt_le_dec 1 r) as [H|H].
  - rewrite albada3_high by lra. assert (1 / r <= 1) by (apply Qle_shift_div_r; lra).
    rewrite albada3_low by lra. field. repeat split; nra.
  - rewrite albada3_low by lra. assert (1 <= 1 / r) by (apply Qle_shift_div_l; lra).
    rewrite albada3_high by lra. field. repeat split; nra.
Qed.
Lemma albada3_ext c a b : a == b -> albada3 a c == albada3 b c.
Proof. intros E. unfold albada3. rewrite E. reflexivity. Qed.
Lemma albada3_pos c r : 0 <= r -> 0 <= albada3 r c <= 2 /\ albada3 r c <= 2 * r.
Proof.
  apply (symmetric_bounds (fun r => albada3 r c)); [apply albada3_symmetric | apply albada3_ext |].
  clear r. intros r H0 H1. rewrite albada3_low by auto. split.
  - apply Qle_shift_div_l; [nra|]. assert (0 <= 3 - 3 * r + 2 * (r * r)) by nra. nra.
  - apply Qle_shift_div_r; [nra|]. assert (0 <= r * (1 - r + 2 * (r * r))) by nra. nra.
Qed.
Lemma albada3_neg_bounds c r : r <= 0 -> -(1 # 2) <= albada3 r c <= (3 # 2).
Proof.
  intros H. rewrite albada3_neg by auto. pose proof (sq_nonneg (1 + 2 * r)). pose proof (sq_nonneg r).
  split; [apply Qle_shift_div_l | apply Qle_shift_div_r]; lra.
Qed.
