(** Proofs about the reach of a change of the data (C154). *)
From Verif Require Import Base TimeModel BCModel BCSpec LimiterModel Classic1DModel Classic1DSpec Classic1DProofs Classic1DProofs2 Classic1DProofs3
  Classic1DProofs5 Classic1DProps RunModel SymSpec SymProofs SymProofs2 SymProofs3 SymProps DepSpec.

Section Step.
Variables (pow : Q -> Q -> Q) (undef : Q -> Q -> Z -> Q) (L : lang) (C : settings) (d : Q).
Hypothesis HR : regular C.
Hypothesis HL : plain_limiters L C.
Hypothesis Hcapa : capa_in_aux C.
Hypothesis Hng : (2 <= c_ng C)%nat.
Hypothesis HF : fit_dim (c_ng C) (Nat.ltb 0 (c_naux C)) (Z.of_nat (c_neq C)) (c_bc C).
Notation ng := (Z.of_nat (c_ng C)).
Notation D := (c_bc C).
Notation n := (ncells D).
Notation g := (moved 0).

Lemma no_stop q x s t : positive_capacity C x -> exists qb xb u c,
  (forall m i, (- ng <= i < n + ng)%Z -> qb m (i + ng)%Z = q_ghost_value Q Qopp [D] q m [i]) /\
  ((0 < c_naux C)%nat -> forall m i, (- ng <= i < n + ng)%Z -> xb m (i + ng)%Z = aux_ghost_value Q [D] x m [i]) /\
  kernel pow undef L (with_dt C d) qb xb = Some (u, c) /\ step_hyperbolic pow undef L (with_dt C d) q x s t = Stepped (fun m i => u m (i + ng)%Z) c.
Proof.
  intro HP. destruct (step_ok pow undef (with_dt C d) L q x s t) as (qb & xb & G & A & ->); [cbn; lia|exact HF|].
  cbn [with_dt c_ng c_bc c_neq c_naux] in G, A.
  assert (A' : (0 < c_naux C)%nat -> forall m i, (- ng <= i < n + ng)%Z -> xb m (i + ng)%Z = aux_ghost_value Q [D] x m [i]).
  { intros Hx. apply A. apply Nat.ltb_lt. exact Hx. }
  destruct (kernel pow undef L (with_dt C d) qb xb) as [[u c]|] eqn:K.
  - exists qb, xb, u, c. repeat split; assumption.
  - exfalso. destruct (kernel_stopped pow undef (with_dt C d) L qb xb K) as (_ & k & i & Ek & Hi & Hle).
    cbn [with_dt c_capa c_bc c_ng] in Ek, Hi. assert (Hx : (0 < c_naux C)%nat) by (specialize (Hcapa k Ek); lia).
    replace i with (i - ng + ng)%Z in Hle by lia. rewrite (A' Hx k) in Hle by lia. unfold aux_ghost_value in Hle. cbn [combine map fst snd] in Hle.
    destruct HF as (_ & _ & _ & _ & _ & _ & B). destruct B as (S1 & S2 & W); [apply Nat.ltb_lt; exact Hx|].
    pose proof (HP _ (source_range C Hng (a_lo D) (a_hi D) (i - ng) S1 S2 W ltac:(lia))) as P. unfold capacity, flat in P. rewrite Ek in P. lra.
Qed.

(** Cells of the window, and the sources of ghost cells next to it *)
Lemma source_window blo bhi lo hi lo' hi' i j : standard blo -> standard bhi -> wide (c_ng C) blo bhi n -> (0 <= lo)%Z -> (hi <= n)%Z ->
  (lo' = lo + 2 \/ lo' = 0 /\ lo = 0 /\ blo <> Periodic)%Z -> (hi' = hi - 2 \/ hi' = n /\ hi = n /\ bhi <> Periodic)%Z ->
  (lo' <= i < hi')%Z -> (-2 <= j - i <= 2)%Z -> (lo <= source_cell blo bhi n j < hi)%Z.
Proof.
  intros S1 S2 (W1 & W2 & W3) Hlo Hhi E1 E2 Hi Hj. unfold source_cell.
  destruct (Z.ltb_spec j 0), (Z.leb_spec n j); try lia.
  - destruct E1 as [E1|(E1 & E1' & E1'')]; [lia|]. destruct S1 as [-> | [-> | ->]]; [|congruence|]; [lia|].
    destruct W1 as [W1|W1]; [discriminate|]. destruct E2 as [E2|(E2 & E2' & _)]; lia.
  - destruct E2 as [E2|(E2 & E2' & E2'')]; [lia|]. destruct S2 as [-> | [-> | ->]]; [|congruence|]; [lia|].
    destruct W2 as [W2|W2]; [discriminate|]. destruct E1 as [E1|(E1 & E1' & _)]; lia.
Qed.

Lemma dep_step q1 x1 q2 x2 s1 t1 s2 t2 lo hi lo' hi' : positive_capacity C x1 -> positive_capacity C x2 ->
  (0 <= lo)%Z -> (hi <= n)%Z ->
  (lo' = lo + 2 \/ lo' = 0 /\ lo = 0 /\ q_lo D <> Periodic /\ a_lo D <> Periodic)%Z ->
  (hi' = hi - 2 \/ hi' = n /\ hi = n /\ q_hi D <> Periodic /\ a_hi D <> Periodic)%Z ->
  agree C lo hi q1 x1 q2 x2 ->
  exists u1 c1 u2 c2, step_hyperbolic pow undef L (with_dt C d) q1 x1 s1 t1 = Stepped u1 c1 /\
    step_hyperbolic pow undef L (with_dt C d) q2 x2 s2 t2 = Stepped u2 c2 /\
    forall m i, (0 <= m < Z.of_nat (c_neq C))%Z -> (lo' <= i < hi')%Z -> u2 m i == u1 m i.
Proof.
  intros P1 P2 Hlo Hhi E1 E2 HA.
  destruct (no_stop q1 x1 s1 t1 P1) as (qb1 & xb1 & u1 & c1 & G1 & A1 & K1 & ->).
  destruct (no_stop q2 x2 s2 t2 P2) as (qb2 & xb2 & u2 & c2 & G2 & A2 & K2 & ->).
  do 4 eexists. split; [reflexivity|]. split; [reflexivity|]. intros m i Hm Hi. cbn beta.
  assert (Hi' : (0 <= i < n)%Z) by lia.
  assert (HG : sensible g (with_dt C d)).
  { split; [reflexivity|]. split; [reflexivity|]. split; [|intros k _; reflexivity]. left. exists 1. split; [reflexivity|intros; reflexivity]. }
  assert (HC : corresponding g (with_dt C d) (with_dt C d)).
  { constructor; try reflexivity; [left; reflexivity|cbn; ring|exact HR]. }
  rewrite (cell_update pow undef L g (with_dt C d) (with_dt C d) HG HC ltac:(cbn; ring) HL Hcapa ltac:(intros X; discriminate X) Hng
    qb1 xb1 qb2 xb2 u1 c1 u2 c2 m (i + ng) (i + ng) K1 K2 Hm ltac:(cbn [with_dt c_ng c_bc]; lia) ltac:(cbn [with_dt c_ng c_bc]; lia)).
  - cbn [moved g_q]. ring.
  - intros k Hk. unfold dir. cbn [moved g_mirror]. destruct HF as (_ & _ & _ & S1 & S2 & W & B).
    replace (i + ng + k)%Z with ((i + k) + ng)%Z by lia. split; cbn [with_dt c_neq c_naux]; intros m' Hm'.
    + rewrite G1, G2 by lia. unfold q_ghost_value. cbn [combine map rev app fold_right fst snd moved g_q].
      assert (SR : (lo <= source_cell (q_lo D) (q_hi D) n (i + k) < hi)%Z).
      { apply (source_window _ _ lo hi lo' hi' i); try assumption; try lia; [destruct E1 as [E1|(E & F & G & _)]|destruct E2 as [E2|(E & F & G & _)]];
          first [left; assumption|right; repeat split; assumption]. }
      destruct (HA _ SR) as [X _]. specialize (X m' Hm'). destruct (_ && _)%bool; rewrite X; ring.
    + assert (Hx : (0 < c_naux C)%nat) by lia. rewrite (A1 Hx), (A2 Hx) by lia. unfold aux_ghost_value. cbn [combine map fst snd moved g_aux].
      destruct B as (S3 & S4 & W'); [apply Nat.ltb_lt; exact Hx|].
      assert (SR : (lo <= source_cell (a_lo D) (a_hi D) n (i + k) < hi)%Z).
      { apply (source_window _ _ lo hi lo' hi' i); try assumption; try lia; [destruct E1 as [E1|(E & F & _ & G)]|destruct E2 as [E2|(E & F & _ & G)]];
          first [left; assumption|right; repeat split; assumption]. }
      destruct (HA _ SR) as [_ X]. rewrite (X m' Hm'). ring.
Qed.
End Step.
