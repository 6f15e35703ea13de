(** Property C154: how far a change of the data reaches. *)
From Verif Require Import Base TimeModel TimeSpec BCModel BCSpec LimiterModel Classic1DModel Classic1DSpec Classic1DProps RunModel SimSpec SymSpec SymProps
  MonoProofs MonoProps DepSpec DepProofs.

Lemma lower_cases C lo k : (lower C lo k = 0 /\ lo = 0 /\ q_lo (c_bc C) <> Periodic /\ a_lo (c_bc C) <> Periodic /\ forall j, lower C lo j = 0)%Z \/ (forall j, lower C lo j = lo + 2 * j)%Z.
Proof.
  unfold lower. destruct (Z.eqb_spec lo 0) as [->|]; cbn [andb]; [|right; reflexivity].
  destruct (is_end _ _) eqn:E; [left|right; reflexivity].
  repeat split; try reflexivity; intro H; rewrite H in E; destruct (q_lo (c_bc C)); discriminate.
Qed.
Lemma upper_cases C hi k : (upper C hi k = cells C /\ hi = cells C /\ q_hi (c_bc C) <> Periodic /\ a_hi (c_bc C) <> Periodic /\ forall j, upper C hi j = cells C)%Z \/ (forall j, upper C hi j = hi - 2 * j)%Z.
Proof.
  unfold upper. destruct (Z.eqb_spec hi (cells C)) as [->|]; cbn [andb]; [|right; reflexivity].
  destruct (is_end _ _) eqn:E; [left|right; reflexivity].
  repeat split; try reflexivity; intro H; rewrite H in E; destruct (q_hi (c_bc C)); discriminate.
Qed.

(** ** C154: one step *)
Theorem C154_step :
  forall pow undef L C d lo hi q1 x1 q2 x2 s1 t1 s2 t2,
  regular C -> plain_limiters L C -> capa_in_aux C -> (2 <= c_ng C)%nat ->
  fit_dim (c_ng C) (Nat.ltb 0 (c_naux C)) (Z.of_nat (c_neq C)) (c_bc C) ->
  positive_capacity C x1 -> positive_capacity C x2 -> (0 <= lo)%Z -> (hi <= cells C)%Z -> agree C lo hi q1 x1 q2 x2 ->
  exists u1 c1 u2 c2, step_hyperbolic pow undef L (with_dt C d) q1 x1 s1 t1 = Stepped u1 c1 /\
    step_hyperbolic pow undef L (with_dt C d) q2 x2 s2 t2 = Stepped u2 c2 /\
    forall m i, (0 <= m < Z.of_nat (c_neq C))%Z -> (lower C lo 1 <= i < upper C hi 1)%Z -> u2 m i == u1 m i.
Proof.
  intros pow undef L C d lo hi q1 x1 q2 x2 s1 t1 s2 t2 HR HL Hc Hg HF P1 P2 Hlo Hhi HA.
  apply (dep_step pow undef L C d HR HL Hc Hg HF q1 x1 q2 x2 s1 t1 s2 t2 lo hi); try assumption.
  - destruct (lower_cases C lo 1) as [(A & B & D & E & _)|A]; [right; auto|left; rewrite A; lia].
  - destruct (upper_cases C hi 1) as [(A & B & D & E & _)|A]; [right; auto|left; rewrite A; lia].
Qed.
Print Assumptions C154_step.

(** ** C154: N fixed steps.  Neither run being stopped by its Courant number, the solutions agree in the cells between
    [lower] and [upper]. *)
Theorem C154_reach :
  forall E pow undef (p : program E) lo hi s1 s2 so1 so2 te d N,
  let C := p_settings p in
  regular C -> plain_limiters (p_lang p) C -> capa_in_aux C -> (2 <= c_ng C)%nat ->
  fit_dim (c_ng C) (Nat.ltb 0 (c_naux C)) (Z.of_nat (c_neq C)) (c_bc C) ->
  positive_capacity C (sx so1) -> positive_capacity C (sx so2) -> bare p -> fixed_runs s1 s2 so1 so2 te d N ->
  (0 <= lo)%Z -> (hi <= cells C)%Z -> agree C lo hi (sq so1) (sx so1) (sq so2) (sx so2) ->
  let r1 := evolve_of pow undef p s1 so1 (Some te) in let r2 := evolve_of pow undef p s2 so2 (Some te) in
  r_err r1 = None -> r_err r2 = None ->
  agree C (lower C lo N) (upper C hi N) (sq (r_sol r1)) (sx (r_sol r1)) (sq (r_sol r2)) (sx (r_sol r2)).
Proof.
  intros E pow undef p lo hi s1 s2 so1 so2 te d N C HR HL Hcp Hg HF P1 P2 [HB1 HB2] (V1 & V2 & D1 & D2 & Hc & Hd & Ht & HN & HN1 & He) Hlo Hhi HA r1 r2 R1 R2.
  subst r1 r2. unfold evolve_of in *. rewrite HB1 in *.
  set (R := fun (k : nat) (a b : sol (arr Q) (arr Q)) => sx a = sx so1 /\ sx b = sx so2 /\ agree C (lower C lo (Z.of_nat k)) (upper C hi (Z.of_nat k)) (sq a) (sx a) (sq b) (sx b)).
  assert (K0 : R 0%nat so1 so2).
  { split; [reflexivity|]. split; [reflexivity|]. intros i Hi. apply HA. change (Z.of_nat 0) with 0%Z in Hi.
    destruct (lower_cases C lo 0) as [(A & B & _)|A]; destruct (upper_cases C hi 0) as [(A' & B' & _)|A']; rewrite ?A, ?A' in Hi; lia. }
  replace N with (Z.of_nat (Z.to_nat N)) by lia.
  refine (proj2 (proj2 (evolve_pair _ _ _ R d _ s1 s2 so1 so2 te N V1 V2 D1 D2 Hc Hd Ht HN HN1 He K0 R1 R2))).
  intros k a b q1 x1 c1 q2 x2 c2 (A & B & O) H1 H2. rewrite HB2 in H1, H2. cbn [fst snd] in H1, H2. unfold hyper_1d in H1, H2. cbn [sq sx] in H1, H2.
  fold C in H1, H2. rewrite A in *. rewrite B in *.
  destruct (dep_step pow undef (p_lang p) C d HR HL Hcp Hg HF (sq a) (sx so1) (sq b) (sx so2)
    (fst (p_stale p d (mkSol (sq a) (sx so1) (st a)))) (snd (p_stale p d (mkSol (sq a) (sx so1) (st a))))
    (fst (p_stale p d (mkSol (sq b) (sx so2) (st b)))) (snd (p_stale p d (mkSol (sq b) (sx so2) (st b))))
    (lower C lo (Z.of_nat k)) (upper C hi (Z.of_nat k)) (lower C lo (Z.of_nat (S k))) (upper C hi (Z.of_nat (S k))) P1 P2)
    as (u1 & e1 & u2 & e2 & F1 & F2 & K); try exact O.
  - destruct (lower_cases C lo (Z.of_nat k)) as [(A' & _)|A']; rewrite A'; lia.
  - fold (cells C). destruct (upper_cases C hi (Z.of_nat k)) as [(A' & _)|A']; rewrite A'; lia.
  - destruct (lower_cases C lo (Z.of_nat k)) as [(A' & A1 & A2 & A3 & A4)|A']; [right; rewrite !A4; auto|left; rewrite !A'; lia].
  - fold (cells C). destruct (upper_cases C hi (Z.of_nat k)) as [(A' & A1 & A2 & A3 & A4)|A']; [right; rewrite !A4; auto|left; rewrite !A'; lia].
  - rewrite F1 in H1. rewrite F2 in H2. inversion H1; subst. inversion H2; subst. split; [reflexivity|]. split; [reflexivity|].
    intros i Hi. split; [intros m Hm; exact (K m i Hm Hi)|]. intros m Hm. cbn [sx].
    assert (Hi' : (lower C lo (Z.of_nat k) <= i < upper C hi (Z.of_nat k))%Z).
    { destruct (lower_cases C lo 0) as [(_ & _ & _ & _ & A1)|A1]; destruct (upper_cases C hi 0) as [(_ & _ & _ & _ & A2)|A2]; rewrite A1, A2 in Hi |- *; lia. }
    exact (proj2 (O i Hi') m Hm).
Qed.
Print Assumptions C154_reach.

(** ** A case that meets the hypotheses: Burgers' equation with a limiter on six cells, a change in the last cell, one step *)
Definition reach_sol (v : Q) : sol (arr Q) (arr Q) := mkSol (bdata (fun i => if Z.eqb i 5 then v else -(1 # 2))) zero_arr 0.
Example C154_example :
  let C := bset Extrap burgers in
  regular C /\ plain_limiters Fortran C /\ capa_in_aux C /\ fit_dim (c_ng C) (Nat.ltb 0 (c_naux C)) (Z.of_nat (c_neq C)) (c_bc C) /\
  positive_capacity C zero_arr /\ bare (plain (E := unit) Fortran C) /\
  fixed_runs (bsolver (1 # 10) false) (bsolver (1 # 10) false) (reach_sol 1) (reach_sol (-(1))) (2 # 10) (1 # 10) 2 /\
  agree C 0 5 (sq (reach_sol 1)) zero_arr (sq (reach_sol (-(1)))) zero_arr /\ lower C 0 2 = 0%Z /\ upper C 5 2 = 1%Z /\
  let r v := evolve_of nopow noundef (plain Fortran C) (bsolver (1 # 10) false) (reach_sol v) (Some (2 # 10)) in
  r_err (r 1) = None /\ r_err (r (-(1))) = None /\ negb (qeqb (sq (r_sol (r 1)) 0%Z [3%Z]) (sq (r_sol (r (-(1)))) 0%Z [3%Z])) = true.
Proof.
  cbv zeta. split; [apply (solver_of_ext (mkChange 1 1 (fun _ => 1 * 1) (fun _ => 1) false 0)); try reflexivity; apply (burgers_image false 1); reflexivity|].
  split; [apply limits4; reflexivity|]. split; [intros k; discriminate|].
  split; [unfold fit_dim, standard, wide; cbn; intuition (auto; try discriminate; try lia)|].
  split; [intros i Hi; reflexivity|]. split; [split; [reflexivity|intros; reflexivity]|].
  split; [repeat split; try reflexivity; try discriminate|].
  split; [intros i Hi; split; intros m Hm; [|reflexivity]; cbn [reach_sol sq bdata]; destruct (Z.eqb_spec i 5); [lia|reflexivity]|].
  split; [reflexivity|]. split; [reflexivity|]. vm_compute. repeat split.
Qed.
