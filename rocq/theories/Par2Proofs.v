(** Proofs about parallel runs in more dimensions, part 1: a slice of a box is a part of a slice of the grid. *)
From Verif Require Import Base BCModel BCSpec BCProofs LimiterModel LimiterProofs Classic1DModel Classic1DSpec
  Classic1DProofs Classic1DProofs2 ParallelProofs2 SweepModel SweepSpec SweepProofs.

Section F.
Variables (neq nw naux : nat) (ng mx mx' : Z).
Variable fwave : bool.
Variables order trans : Z.
Variable mthlim : Z -> Z.
Variable undef : Q -> Q -> Z -> Q.
Variable rp : rpsolver.
Variable rpt : rptsolver.
Notation R q a := (solve_rps rp neq naux (-1) q a).
Notation near := (near neq naux).
Notation reach := (reach nw order mthlim).
Notation flux n := (flux2 neq nw naux ng n fwave order trans mthlim undef rp rpt).
Notation lim n q a := (lim_waves neq nw naux n mthlim undef rp q a).
Variables (q q' a a' : Z -> Z -> Q) (d d' : Z -> Q).
Hypothesis Hg : (1 <= ng)%Z.

Lemma window_lim m mw e e' : (0 <= m < Z.of_nat neq)%Z -> order <> 1%Z -> near reach q d a e q' d' a' e' ->
  (1 <= e <= mx + 1)%Z -> (1 <= e' <= mx' + 1)%Z -> lim mx q a m mw e = lim mx' q' a' m mw e'.
Proof.
  intros Hm Ho H He He'. unfold lim_waves. unfold SweepProofs.reach, small_stencil in H. replace (Z.eqb order 1) with false in H by lia.
  cbn [orb] in H. destruct (any_limiter nw mthlim); cbn [negb] in H.
  - assert (W : forall k, (-1 <= k <= 1)%Z -> near 1 q d a (e + k) q' d' a' (e' + k)).
    { intros k Hk. apply (near_shift neq naux q q' a a' d d' 2); [exact H|lia]. }
    assert (W0 : near 1 q d a e q' d' a' e') by (apply (near_weaken neq naux q q' a a' d d' 2); [lia|exact H]).
    unfold f_limiter. destruct (Z.eqb (mthlim mw) 0); [apply (near_R neq naux rp q q' a a' d d' e e' W0)|].
    replace (Z.to_nat (mx + 2)) with (S (Z.to_nat (mx + 1))) by lia. replace (Z.to_nat (mx' + 2)) with (S (Z.to_nat (mx' + 1))) by lia.
    rewrite !f_limiter_exact by lia. apply f_lim_at_same; [exact Hm| |].
    + intros k l Hk Hl. apply (near_R neq naux rp q q' a a' d d' (e + l) (e' + l)). apply W. lia.
    + apply (near_R neq naux rp q q' a a' d d' e e' W0).
  - apply (near_R neq naux rp q q' a a' d d' e e' H).
Qed.
Lemma window_cqxx m e e' : (0 <= m < Z.of_nat neq)%Z -> order <> 1%Z -> near reach q d a e q' d' a' e' ->
  (1 <= e <= mx + 1)%Z -> (1 <= e' <= mx' + 1)%Z ->
  f_cqxx nw fwave d (spd (R q a)) (lim mx q a) m e = f_cqxx nw fwave d' (spd (R q' a')) (lim mx' q' a') m e'.
Proof.
  intros Hm Ho H He He'.
  assert (N1 : near 1 q d a e q' d' a' e') by (apply (near_weaken neq naux q q' a a' d d' reach); [apply reach_1|exact H]).
  destruct (near_R neq naux rp q q' a a' d d' e e' N1) as (_ & S1 & _).
  unfold f_cqxx. destruct (N1 (-1)%Z ltac:(lia)) as (_ & _ & D1). destruct (N1 0%Z ltac:(lia)) as (_ & _ & D2).
  rewrite !Z.add_0_r in D2. replace (e + -1)%Z with (e - 1)%Z in D1 by lia. replace (e' + -1)%Z with (e' - 1)%Z in D1 by lia.
  rewrite D1, D2. apply zsum_ext. intros mw Hmw. rewrite S1, (window_lim m mw e e' Hm Ho H He He'). reflexivity.
Qed.

Variables a1 a3 a1' a3' : Z -> Z -> Q.
Lemma window_fadd m e e' : (0 <= m < Z.of_nat neq)%Z -> near reach q d a e q' d' a' e' ->
  (1 <= e <= mx + 1)%Z -> (1 <= e' <= mx' + 1)%Z -> fadd (flux mx q d a1 a a3) m e = fadd (flux mx' q' d' a1' a' a3') m e'.
Proof.
  intros Hm H He He'.
  assert (E : (if (negb (Z.eqb order 1) && in_slice (2 - ng) (mx + ng + 1) e)%bool then (1 # 2) * f_cqxx nw fwave d (spd (R q a)) (lim mx q a) m e else 0) =
    (if (negb (Z.eqb order 1) && in_slice (2 - ng) (mx' + ng + 1) e')%bool then (1 # 2) * f_cqxx nw fwave d' (spd (R q' a')) (lim mx' q' a') m e' else 0)).
  { destruct (Z.eqb_spec order 1) as [_|Ho]; cbn [negb andb]; [reflexivity|]. rewrite !in_slice_true by lia.
    rewrite (window_cqxx m e e' Hm Ho H He He'). reflexivity. }
  unfold flux2. cbv zeta. destruct (Z.leb trans 0); exact E.
Qed.

Variables i i' : Z.
Hypothesis Hi : (1 <= i <= mx)%Z.
Hypothesis Hi' : (1 <= i' <= mx')%Z.
Hypothesis N0 : near reach q d a i q' d' a' i'.
Hypothesis N1 : near reach q d a (i + 1) q' d' a' (i' + 1).
Lemma window_d : d i = d' i'.
Proof. destruct (N0 0%Z) as (_ & _ & D). { pose proof (reach_1 nw order mthlim). lia. } rewrite !Z.add_0_r in D. exact D. Qed.
Lemma window_near1 : near 1 q d a i q' d' a' i' /\ near 1 q d a (i + 1) q' d' a' (i' + 1).
Proof. split; apply (near_weaken neq naux q q' a a' d d' reach); try apply reach_1; assumption. Qed.
Lemma window_qadd m : qadd (flux mx q d a1 a a3) m i = qadd (flux mx' q' d' a1' a' a3') m i'.
Proof.
  assert (E : f_godunov mx d (R q a) (fun _ _ => 0) m i = f_godunov mx' d' (R q' a') (fun _ _ => 0) m i').
  { unfold f_godunov. rewrite !in_slice_true by lia. destruct window_near1 as [A B].
    destruct (near_R neq naux rp q q' a a' d d' i i' A) as (_ & _ & _ & P). destruct (near_R neq naux rp q q' a a' d d' (i + 1) (i' + 1) B) as (_ & _ & M & _).
    rewrite P, M, window_d. reflexivity. }
  unfold flux2. cbv zeta. destruct (Z.leb trans 0); exact E.
Qed.
Hypothesis A1 : (0 < trans)%Z -> forall k, (-1 <= k <= 1)%Z -> vec naux a1 (i + k) = vec naux a1' (i' + k).
Hypothesis A3 : (0 < trans)%Z -> forall k, (-1 <= k <= 1)%Z -> vec naux a3 (i + k) = vec naux a3' (i' + k).
Lemma window_gadd m : gadd1 (flux mx q d a1 a a3) m i = gadd1 (flux mx' q' d' a1' a' a3') m i' /\
  gadd2 (flux mx q d a1 a a3) m i = gadd2 (flux mx' q' d' a1' a' a3') m i'.
Proof.
  unfold flux2. cbv zeta. destruct (Z.leb_spec trans 0) as [_|Ht]; cbn [gadd1 gadd2]; [split; reflexivity|].
  rewrite !in_slice_true by lia. fold (lim mx q a). fold (lim mx' q' a').
  destruct window_near1 as [B0 B1].
  destruct (near_R neq naux rp q q' a a' d d' i i' B0) as (_ & _ & _ & P). destruct (near_R neq naux rp q q' a a' d d' (i + 1) (i' + 1) B1) as (_ & _ & M & _).
  assert (Vq : forall k, (-1 <= k <= 1)%Z -> vec neq q (i + k) = vec neq q' (i' + k) /\ vec naux a (i + k) = vec naux a' (i' + k)).
  { intros k Hk. destruct (Z.eq_dec k 1) as [E|N].
    - destruct (B1 0%Z ltac:(lia)) as (V1 & V2 & _). rewrite !Z.add_0_r in V1, V2. subst k. split; assumption.
    - destruct (B0 k ltac:(lia)) as (V1 & V2 & _). split; assumption. }
  set (cor := (Z.ltb 1 order && Z.eqb trans 2)%bool).
  assert (EM : vec neq (fun m0 i0 => if (cor && in_slice 1 (mx + 2) i0)%bool then amdq (R q a) m0 i0 + f_cqxx nw fwave d (spd (R q a)) (lim mx q a) m0 i0 else amdq (R q a) m0 i0) (i + 1) =
    vec neq (fun m0 i0 => if (cor && in_slice 1 (mx' + 2) i0)%bool then amdq (R q' a') m0 i0 + f_cqxx nw fwave d' (spd (R q' a')) (lim mx' q' a') m0 i0 else amdq (R q' a') m0 i0) (i' + 1)).
  { apply vec_ext. intros c Hc. rewrite !in_slice_true by lia. rewrite M. destruct cor eqn:Ec; cbn [andb]; [|reflexivity].
    rewrite (window_cqxx c (i + 1) (i' + 1) Hc); [reflexivity|unfold cor in Ec; lia|exact N1|lia|lia]. }
  assert (EP : vec neq (fun m0 i0 => if (cor && in_slice 1 (mx + 2) i0)%bool then apdq (R q a) m0 i0 - f_cqxx nw fwave d (spd (R q a)) (lim mx q a) m0 i0 else apdq (R q a) m0 i0) i =
    vec neq (fun m0 i0 => if (cor && in_slice 1 (mx' + 2) i0)%bool then apdq (R q' a') m0 i0 - f_cqxx nw fwave d' (spd (R q' a')) (lim mx' q' a') m0 i0 else apdq (R q' a') m0 i0) i').
  { apply vec_ext. intros c Hc. rewrite !in_slice_true by lia. rewrite P. destruct cor eqn:Ec; cbn [andb]; [|reflexivity].
    rewrite (window_cqxx c i i' Hc); [reflexivity|unfold cor in Ec; lia|exact N0|lia|lia]. }
  rewrite EM, EP, window_d.
  replace (i + 1 - 1)%Z with (i + 0)%Z by lia. replace (i' + 1 - 1)%Z with (i' + 0)%Z by lia.
  replace (i - 1)%Z with (i + -1)%Z by lia. replace (i' - 1)%Z with (i' + -1)%Z by lia.
  destruct (Vq 1%Z ltac:(lia)) as [-> ->]. destruct (Vq (-1)%Z ltac:(lia)) as [-> ->].
  destruct (Vq 0%Z ltac:(lia)) as [E0 E0']. rewrite E0, E0'. rewrite !Z.add_0_r in E0, E0'. rewrite E0, E0'.
  rewrite !(A1 Ht), !(A3 Ht) by lia.
  assert (X1 := A1 Ht 0%Z ltac:(lia)). assert (X3 := A3 Ht 0%Z ltac:(lia)). rewrite !Z.add_0_r in X1, X3. rewrite X1, X3.
  split; reflexivity.
Qed.
End F.
