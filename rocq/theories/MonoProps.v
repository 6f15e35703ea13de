(** Property C153: order and distance of two solutions. *)
From Verif Require Import Base TimeModel TimeSpec BCModel BCSpec LimiterModel Classic1DModel Classic1DSpec Classic1DProps RunModel SimSpec SymSpec SymProps MonoSpec MonoProofs.

(** ** C153: a step keeps the order, and the bounds *)
Theorem C153_order_step :
  forall pow undef L C lo hi lam d x q1 q2 s1 t1 s2 t2,
  monotone_solver lo hi lam (c_rp C) -> resting_bounds lo hi (c_nw C) (c_rp C) -> first_order C -> small_steps C lam d x ->
  ordered C lo hi q1 q2 ->
  exists u1 c1 u2 c2, step_hyperbolic pow undef L (with_dt C d) q1 x s1 t1 = Stepped u1 c1 /\ step_hyperbolic pow undef L (with_dt C d) q2 x s2 t2 = Stepped u2 c2 /\
  forall i, (0 <= i < cells C)%Z -> lo <= u1 0%Z i /\ u1 0%Z i <= u2 0%Z i /\ u2 0%Z i <= hi.
Proof.
  intros pow undef L C lo hi lam d x q1 q2 s1 t1 s2 t2 HM HR HO HS HD.
  destruct (step_next pow undef L C lam d x HO HS q1 s1 t1) as (u1 & c1 & E1 & N1).
  destruct (step_next pow undef L C lam d x HO HS q2 s2 t2) as (u2 & c2 & E2 & N2).
  exists u1, c1, u2, c2. split; [exact E1|]. split; [exact E2|]. intros i Hi. rewrite (N1 i Hi), (N2 i Hi).
  exact (next_mono C lo hi lam d x HM HR HO HS q1 q2 i HD Hi).
Qed.
Print Assumptions C153_order_step.

(** ** C153: a step of a conservation law does not increase the distance of two solutions *)
Theorem C153_distance_step :
  forall pow undef L C lo hi lam d x flux q1 q2 s1 t1 s2 t2,
  monotone_solver lo hi lam (c_rp C) -> resting_bounds lo hi (c_nw C) (c_rp C) -> first_order C -> small_steps C lam d x ->
  conservative 1 flux (c_rp C) -> periodic_bc (c_bc C) ->
  (forall i, (0 <= i < cells C)%Z -> between lo hi (q1 0%Z [i]) /\ between lo hi (q2 0%Z [i])) ->
  exists u1 c1 u2 c2, step_hyperbolic pow undef L (with_dt C d) q1 x s1 t1 = Stepped u1 c1 /\ step_hyperbolic pow undef L (with_dt C d) q2 x s2 t2 = Stepped u2 c2 /\
  distance C x (fun m ix => u1 m (hd 0%Z ix)) (fun m ix => u2 m (hd 0%Z ix)) <= distance C x q1 q2.
Proof.
  intros pow undef L C lo hi lam d x flux q1 q2 s1 t1 s2 t2 HM HR HO HS HC HP HB.
  destruct (step_next pow undef L C lam d x HO HS q1 s1 t1) as (u1 & c1 & E1 & _).
  destruct (step_next pow undef L C lam d x HO HS q2 s2 t2) as (u2 & c2 & E2 & _).
  exists u1, c1, u2, c2. split; [exact E1|]. split; [exact E2|].
  exact (distance_step pow undef L C lo hi lam d x flux HM HR HO HS HC HP q1 q2 s1 t1 s2 t2 u1 c1 u2 c2 HB E1 E2).
Qed.
Print Assumptions C153_distance_step.

(** A program with no source term and no before_step *)
Definition bare {E} (p : program E) : Prop := p_source p = None /\ forall so, p_before p so = (sq so, sx so).
(** Two solvers with the same fixed step, and N of these steps from the times of the solutions to [te] *)
Definition fixed_runs {E} (s1 s2 : solver E) (so1 so2 : sol (arr Q) (arr Q)) (te d : Q) (N : Z) : Prop :=
  dt_variable s1 = false /\ dt_variable s2 = false /\ dt s1 = d /\ dt s2 = d /\ canonical d /\ tol10 < d /\ st so2 == st so1 /\
  te == st so1 + inject_Z N * d /\ (1 <= N)%Z /\ eps14 * te <= d.

(** ** C153: runs.  If neither run is stopped by the Courant number, the solutions at the end are ordered as they were at the
    beginning, between the same bounds, and in the conservative case on a periodic domain not further apart. *)
Theorem C153_order :
  forall E pow undef (p : program E) lo hi lam s1 s2 so1 so2 te d N,
  let C := p_settings p in
  monotone_solver lo hi lam (c_rp C) -> resting_bounds lo hi (c_nw C) (c_rp C) -> first_order C -> small_steps C lam d (sx so1) ->
  bare p -> fixed_runs s1 s2 so1 so2 te d N -> sx so2 = sx so1 -> ordered C lo hi (sq so1) (sq so2) ->
  let r1 := evolve_of pow undef p s1 so1 (Some te) in let r2 := evolve_of pow undef p s2 so2 (Some te) in
  r_err r1 = None -> r_err r2 = None -> ordered C lo hi (sq (r_sol r1)) (sq (r_sol r2)).
Proof.
  intros E pow undef p lo hi lam s1 s2 so1 so2 te d N C HM HR HO HS [HB1 HB2] (V1 & V2 & D1 & D2 & Hc & Hd & Ht & HN & HN1 & He) HX HD r1 r2 R1 R2.
  subst r1 r2. unfold evolve_of in *. rewrite HB1 in *.
  refine (proj2 (proj2 (evolve_pair _ _ _ (fun _ (a b : sol (arr Q) (arr Q)) => sx a = sx so1 /\ sx b = sx so1 /\ ordered C lo hi (sq a) (sq b)) d _ s1 s2 so1 so2 te N
    V1 V2 D1 D2 Hc Hd Ht HN HN1 He (conj eq_refl (conj HX HD)) R1 R2))).
  intros _ a b q1 x1 c1 q2 x2 c2 (A & B & O) H1 H2. rewrite HB2 in H1, H2. cbn [fst snd] in H1, H2. unfold hyper_1d in H1, H2. cbn [sq sx] in H1, H2.
  rewrite A in H1. rewrite B in H2.
  destruct (C153_order_step pow undef (p_lang p) C lo hi lam d (sx so1) (sq a) (sq b)
    (fst (p_stale p d (mkSol (sq a) (sx so1) (st a)))) (snd (p_stale p d (mkSol (sq a) (sx so1) (st a))))
    (fst (p_stale p d (mkSol (sq b) (sx so1) (st b)))) (snd (p_stale p d (mkSol (sq b) (sx so1) (st b)))) HM HR HO HS O) as (u1 & e1 & u2 & e2 & F1 & F2 & K).
  fold C in H1, H2. rewrite F1 in H1. rewrite F2 in H2. inversion H1; subst. inversion H2; subst. cbn [sq sx].
  split; [reflexivity|]. split; [reflexivity|]. intros i Hi. exact (K i Hi).
Qed.
Print Assumptions C153_order.

Theorem C153_distance :
  forall E pow undef (p : program E) lo hi lam flux s1 s2 so1 so2 te d N,
  let C := p_settings p in
  monotone_solver lo hi lam (c_rp C) -> resting_bounds lo hi (c_nw C) (c_rp C) -> first_order C -> small_steps C lam d (sx so1) ->
  conservative 1 flux (c_rp C) -> periodic_bc (c_bc C) ->
  bare p -> fixed_runs s1 s2 so1 so2 te d N -> sx so2 = sx so1 ->
  (forall i, (0 <= i < cells C)%Z -> between lo hi (sq so1 0%Z [i]) /\ between lo hi (sq so2 0%Z [i])) ->
  let r1 := evolve_of pow undef p s1 so1 (Some te) in let r2 := evolve_of pow undef p s2 so2 (Some te) in
  r_err r1 = None -> r_err r2 = None -> distance C (sx so1) (sq (r_sol r1)) (sq (r_sol r2)) <= distance C (sx so1) (sq so1) (sq so2).
Proof.
  intros E pow undef p lo hi lam flux s1 s2 so1 so2 te d N C HM HR HO HS HC HP [HB1 HB2] (V1 & V2 & D1 & D2 & Hc & Hd & Ht & HN & HN1 & He) HX HD r1 r2 R1 R2.
  subst r1 r2. unfold evolve_of in *. rewrite HB1 in *.
  refine (proj2 (proj2 (proj2 (evolve_pair _ _ _ (fun _ (a b : sol (arr Q) (arr Q)) => sx a = sx so1 /\ sx b = sx so1 /\
    (forall i, (0 <= i < cells C)%Z -> between lo hi (sq a 0%Z [i]) /\ between lo hi (sq b 0%Z [i])) /\
    distance C (sx so1) (sq a) (sq b) <= distance C (sx so1) (sq so1) (sq so2)) d _ s1 s2 so1 so2 te N
    V1 V2 D1 D2 Hc Hd Ht HN HN1 He (conj eq_refl (conj HX (conj HD (Qle_refl _)))) R1 R2)))).
  intros _ a b q1 x1 c1 q2 x2 c2 (A & B & O & I) H1 H2. rewrite HB2 in H1, H2. cbn [fst snd] in H1, H2. unfold hyper_1d in H1, H2. cbn [sq sx] in H1, H2.
  rewrite A in H1. rewrite B in H2. fold C in H1, H2.
  destruct (C153_distance_step pow undef (p_lang p) C lo hi lam d (sx so1) flux (sq a) (sq b)
    (fst (p_stale p d (mkSol (sq a) (sx so1) (st a)))) (snd (p_stale p d (mkSol (sq a) (sx so1) (st a))))
    (fst (p_stale p d (mkSol (sq b) (sx so1) (st b)))) (snd (p_stale p d (mkSol (sq b) (sx so1) (st b)))) HM HR HO HS HC HP O) as (u1 & e1 & u2 & e2 & F1 & F2 & K).
  assert (W : forall v s t u c, (forall i, (0 <= i < cells C)%Z -> between lo hi (v 0%Z [i])) ->
     step_hyperbolic pow undef (p_lang p) (with_dt C d) v (sx so1) s t = Stepped u c -> forall i, (0 <= i < cells C)%Z -> between lo hi (u 0%Z i)).
  { intros v s t u c Hv Ev i Hi. destruct (C153_order_step pow undef (p_lang p) C lo hi lam d (sx so1) v v s t s t HM HR HO HS) as (v1 & f1 & v2 & f2 & G1 & G2 & J).
    - intros j Hj. destruct (Hv j Hj). split; [assumption|]. split; [apply Qle_refl|assumption].
    - rewrite Ev in G1. injection G1 as <- <-. destruct (J i Hi) as (J1 & J2 & J3). split; lra. }
  rewrite F1 in H1. rewrite F2 in H2. inversion H1; subst. inversion H2; subst. cbn [sq sx].
  split; [reflexivity|]. split; [reflexivity|]. split; [|exact (Qle_trans _ _ _ K I)].
  intros i Hi. split; [apply (W (sq a) _ _ _ _ (fun j Hj => proj1 (O j Hj)) F1 i Hi)|apply (W (sq b) _ _ _ _ (fun j Hj => proj2 (O j Hj)) F2 i Hi)].
Qed.
Print Assumptions C153_distance.

(** ** A case that meets the hypotheses: Burgers' equation with the Engquist-Osher fluctuations, states of both signs *)
Definition up (x : Q) : Q := pymax x 0 * pymax x 0 / 2.
Definition down (x : Q) : Q := pymin x 0 * pymin x 0 / 2.
Definition engquist : rpsolver := fun ql qr _ _ =>
  let l := hd 0 ql in let r := hd 0 qr in mkOut (fun _ _ => r - l) (fun _ => (l + r) / 2) (fun _ => down r - down l) (fun _ => up r - up l).
Definition eoset : settings := mkSet 1 1 0 2 false 1 (fun _ => 0%Z) engquist (1 # 2) (1 # 4) None (bdim Periodic) (mkFuns Q None None None None).
Definition eoprogram : program unit := plain Python eoset.
Definition eosol (f : Z -> Q) : sol (arr Q) (arr Q) := mkSol (bdata f) zero_arr 0.
Definition wavy (i : Z) : Q := nth (Z.to_nat i) [1; 1 # 2; 0; -(1 # 2); -(1); 0] 0.
Example C153_example :
  monotone_solver (-(1)) 1 1 engquist /\ resting_bounds (-(1)) 1 1 engquist /\ first_order eoset /\ small_steps eoset 1 (1 # 4) zero_arr /\
  conservative 1 (fun q _ _ => up (hd 0 q) + down (hd 0 q)) engquist /\ periodic_bc (c_bc eoset) /\ bare eoprogram /\
  fixed_runs (bsolver (1 # 4) false) (bsolver (1 # 4) false) (eosol (fun i => wavy i - (if Z.eqb i 1 then 1 else 0))) (eosol wavy) (1 # 2) (1 # 4) 2 /\
  ordered eoset (-(1)) 1 (bdata (fun i => wavy i - (if Z.eqb i 1 then 1 else 0))) (bdata wavy) /\
  r_err (evolve_of nopow noundef eoprogram (bsolver (1 # 4) false) (eosol wavy) (Some (1 # 2))) = None.
Proof.
  assert (P : forall y, (0 <= y /\ pymax y 0 == y /\ pymin y 0 == 0) \/ (y <= 0 /\ pymax y 0 == 0 /\ pymin y 0 == y)).
  { intro y. unfold pymax, pymin. destruct (qltb y 0) eqn:E1, (qltb 0 y) eqn:E2; repeat match goal with H : qltb _ _ = true |- _ => apply qltb_lt in H | H : qltb _ _ = false |- _ => apply qltb_ge in H end;
      first [left; split; [lra|split; lra]|right; split; [lra|split; lra]]. }
  assert (UP : forall y, (0 <= y /\ up y == (1 # 2) * (y * y) /\ down y == 0) \/ (y <= 0 /\ up y == 0 /\ down y == (1 # 2) * (y * y))).
  { intro y. unfold up, down. destruct (P y) as [(H & -> & ->)|(H & -> & ->)]; [left|right]; (split; [exact H|]); split; field. }
  split.
  { unfold monotone_solver, engquist, between. cbn [o_am o_ap hd]. split; [|split].
    - intros _ _ l l' r B1 B2 B3 H. destruct (UP l) as [(X & -> & _)|(X & -> & _)], (UP l') as [(Y & -> & _)|(Y & -> & _)]; nra.
    - intros _ _ l r r' B1 B2 B3 H. destruct (UP r) as [(X & _ & ->)|(X & _ & ->)], (UP r') as [(Y & _ & ->)|(Y & _ & ->)]; nra.
    - intros _ _ _ l c c' r B1 B2 B3 B4 H. destruct (UP c) as [(X & -> & ->)|(X & -> & ->)], (UP c') as [(Y & -> & ->)|(Y & -> & ->)]; nra. }
  split; [split; intros al ar m _; cbn; repeat split; intros; ring|].
  split; [unfold first_order, fit_dim, standard, wide; cbn; intuition (auto; try discriminate; try lia); intros k Hk; discriminate|].
  split; [split; [reflexivity|]; split; [reflexivity|]; intros i Hi; cbn; split; [reflexivity|discriminate]|].
  split; [intros ql qr al ar m Hm; cbn [engquist o_am o_ap]; ring|].
  split; [repeat split|]. split; [split; [reflexivity|intros; reflexivity]|].
  split; [repeat split; try reflexivity; try discriminate|].
  split.
  { intros i Hi. cbn [bdata]. unfold cells in Hi. cbn in Hi.
    assert (K : (i = 0 \/ i = 1 \/ i = 2 \/ i = 3 \/ i = 4 \/ i = 5)%Z) by lia.
    destruct K as [-> | [-> | [-> | [-> | [-> | ->]]]]]; vm_compute; repeat split; discriminate. }
  vm_compute. reflexivity.
Qed.
