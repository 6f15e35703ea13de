(** Property C152: superposition. *)
From Verif Require Import Base TimeModel ControllerModel BCModel BCSpec LimiterModel Classic1DModel Classic1DSpec Classic1DProps RunModel SimSpec SimProofs
  SymSpec SymProps LinSpec LinProofs LinProofs2.

(** ** C152: one step.  A step of a combination of two states is the combination of the steps, with the same Courant number; it
    stops if and only if they do. *)
Theorem C152_step :
  forall pow undef L C a b d q1 x1 q2 x2 q x s1 t1 s2 t2 s t,
  linear_solver (c_neq C) (c_nw C) (c_naux C) (c_rp C) -> unlimited C -> capa_in_aux C -> (2 <= c_ng C)%nat ->
  fit_dim (c_ng C) (Nat.ltb 0 (c_naux C)) (Z.of_nat (c_neq C)) (c_bc C) ->
  sum_data C a b (q1, x1) (q2, x2) (q, x) ->
  match step_hyperbolic pow undef L (with_dt C d) q1 x1 s1 t1, step_hyperbolic pow undef L (with_dt C d) q2 x2 s2 t2,
        step_hyperbolic pow undef L (with_dt C d) q x s t with
  | Stepped u1 c1, Stepped u2 c2, Stepped u c =>
      c1 == c /\ c2 == c /\ forall m i, (0 <= m < Z.of_nat (c_neq C))%Z -> (0 <= i < cells C)%Z -> u m i == a * u1 m i + b * u2 m i
  | Stopped, Stopped, Stopped => True
  | _, _, _ => False
  end.
Proof.
  intros pow undef L C a b d q1 x1 q2 x2 q x s1 t1 s2 t2 s t HR HU Hc Hg HF HD.
  apply step_sum; try assumption; reflexivity.
Qed.
Print Assumptions C152_step.

(** Worlds in which three runs can start: the same solver, controller state and files, and solutions of which the third is the
    combination. *)
Definition three_starts {E P F} (C : settings) (a b : Q) (w1 w2 w : world (arr Q) (arr Q) E P F) : Prop :=
  w_solver w1 = w_solver w /\ w_solver w2 = w_solver w /\ w_set_up w1 = w_set_up w /\ w_set_up w2 = w_set_up w /\
  w_start w1 = w_start w /\ w_start w2 = w_start w /\ w_dir w1 = w_dir w /\ w_dir w2 = w_dir w /\
  w_frames w1 = [] /\ w_frames w2 = [] /\ w_frames w = [] /\ w_out w1 = [] /\ w_out w2 = [] /\ w_out w = [] /\
  sum_sol C a b (w_sol w1) (w_sol w2) (w_sol w).

(** ** C152: runs.  With variable or fixed steps, any output style, linear source terms and before_step: the three runs end with the
    same error if any, take the same number of steps, and in every frame and at the end the third solution is the combination of
    the others, at the same time. *)
Theorem C152_run :
  forall E P F pow undef (p : program E) a b (c : controller (arr Q) (arr Q) P F) w1 w2 w,
  let C := p_settings p in
  linear_solver (c_neq C) (c_nw C) (c_naux C) (c_rp C) -> unlimited C -> capa_in_aux C -> (2 <= c_ng C)%nat ->
  fit_dim (c_ng C) (Nat.ltb 0 (c_naux C)) (Z.of_nat (c_neq C)) (c_bc C) ->
  linear_before C (p_before p) -> linear_source C (p_source p) ->
  (forall s s2, rel_solver eq 1 s s2 -> rel_solver eq 1 (p_setup p s) (p_setup p s2)) ->
  (forall s s2 so so2, rel_solver eq 1 s s2 -> p_valid p s2 so2 = p_valid p s so) ->
  c_p c = None -> c_F c = None -> three_starts C a b w1 w2 w ->
  let r1 := run_of pow undef p c w1 in let r2 := run_of pow undef p c w2 in let r := run_of pow undef p c w in
  snd r1 = snd r /\ snd r2 = snd r /\
  st_numsteps (w_solver (fst r1)) = st_numsteps (w_solver (fst r)) /\ st_numsteps (w_solver (fst r2)) = st_numsteps (w_solver (fst r)) /\
  sum_sol C a b (w_sol (fst r1)) (w_sol (fst r2)) (w_sol (fst r)) /\
  length (w_frames (fst r1)) = length (w_frames (fst r)) /\ length (w_frames (fst r2)) = length (w_frames (fst r)) /\
  forall k f1 f2 f, nth_error (w_frames (fst r1)) k = Some f1 -> nth_error (w_frames (fst r2)) k = Some f2 ->
    nth_error (w_frames (fst r)) k = Some f -> sum_sol C a b f1 f2 f.
Proof.
  intros E P F pow undef p a b c w1 w2 w C HR HU Hc Hg HF HB HS Hset Hval H1 H2 HW.
  destruct HW as (A1 & A2 & A3 & A4 & A5 & A6 & A7 & A8 & B1 & B2 & B3 & B4 & B5 & B6 & (SQ & SX1 & SX2) & ST1 & ST2). cbn [fst snd] in SQ, SX1, SX2.
  set (wp := mkWorld (w_solver w) (w_set_up w) (mkSol (sq (w_sol w1), sq (w_sol w2)) (sx (w_sol w1)) (st (w_sol w1))) (w_start w) [] (w_dir w) []
             : world (arr Q * arr Q) (arr Q) E P F).
  assert (SIM : forall a' b' w', w_solver w' = w_solver w -> w_set_up w' = w_set_up w -> w_start w' = w_start w -> w_dir w' = w_dir w ->
     w_frames w' = [] -> w_out w' = [] -> sum_q C a' b' (sq (w_sol w1)) (sq (w_sol w2)) (sq (w_sol w')) -> same_x C (sx (w_sol w1)) (sx (w_sol w')) ->
     st (w_sol w') == st (w_sol w1) ->
     rel_world (RQ E p a' b') (same_x C) eq eq eq 1 (fst (pair_run pow undef E p c wp)) (fst (run_of pow undef p c w')) /\
     snd (run_of pow undef p c w') = snd (pair_run pow undef E p c wp)).
  { intros a' b' w' K1 K2 K3 K4 K5 K6 K7 K8 K9. apply pair_run_sim; try assumption.
    constructor; cbn [wp w_solver w_set_up w_sol w_start w_frames w_dir w_out]; try assumption.
    - rewrite K1. apply rel_solver_refl.
    - split; [exact K7|]. split; [exact K8|]. cbn [st]. rewrite K9. ring.
    - rewrite K5. constructor.
    - rewrite K6. constructor. }
  destruct (SIM 1 0 w1) as [S1 E1]; try assumption; try reflexivity; [intros m i _ _; ring|intros m i _ _; reflexivity|].
  destruct (SIM 0 1 w2) as [S2 E2]; try assumption; [intros m i _ _; ring|intros m i Hm Hi; rewrite (SX1 m i Hm Hi), (SX2 m i Hm Hi); reflexivity|rewrite ST1, ST2; reflexivity|].
  destruct (SIM a b w) as [S3 E3]; try assumption; try reflexivity; [symmetry; exact ST1|].
  set (rp := fst (pair_run pow undef E p c wp)) in *.
  assert (J : forall sp f1 f2 f, rel_sol (RQ E p 1 0) (same_x C) 1 sp f1 -> rel_sol (RQ E p 0 1) (same_x C) 1 sp f2 -> rel_sol (RQ E p a b) (same_x C) 1 sp f ->
     sum_sol C a b f1 f2 f).
  { intros sp f1 f2 f (Q1 & X1 & T1) (Q2 & X2 & T2) (Q3 & X3 & T3). split; [|rewrite T1, T2, T3; split; reflexivity]. split; [|split]; cbn [fst snd].
    - intros m i Hm Hi. rewrite (Q3 m i Hm Hi), (Q1 m i Hm Hi), (Q2 m i Hm Hi). ring.
    - intros m i Hm Hi. rewrite <- (X1 m i Hm Hi), <- (X3 m i Hm Hi). reflexivity.
    - intros m i Hm Hi. rewrite <- (X2 m i Hm Hi), <- (X3 m i Hm Hi). reflexivity. }
  destruct S1 as [V1 _ W1 _ R1 _ _]. destruct S2 as [V2 _ W2 _ R2 _ _]. destruct S3 as [V3 _ W3 _ R3 _ _].
  cbv zeta. split; [congruence|]. split; [congruence|].
  split; [rewrite (rs_numsteps _ _ _ _ V1), (rs_numsteps _ _ _ _ V3); reflexivity|].
  split; [rewrite (rs_numsteps _ _ _ _ V2), (rs_numsteps _ _ _ _ V3); reflexivity|].
  split; [exact (J _ _ _ _ W1 W2 W3)|].
  assert (LEN : forall (X Y : Type) (R : X -> Y -> Prop) l l', Forall2 R l l' -> length l = length l') by (intros X Y R l l'; induction 1; cbn [length]; congruence).
  split; [rewrite <- (LEN _ _ _ _ _ R1); exact (LEN _ _ _ _ _ R3)|]. split; [rewrite <- (LEN _ _ _ _ _ R2); exact (LEN _ _ _ _ _ R3)|].
  assert (NTH : forall (X Y : Type) (R : X -> Y -> Prop) l l', Forall2 R l l' -> forall k y, nth_error l' k = Some y -> exists x, nth_error l k = Some x /\ R x y).
  { intros X Y R l l'. induction 1; intros [|k] z Hz; cbn [nth_error] in *; try discriminate; [injection Hz as <-; eauto|auto]. }
  intros k f1 f2 f G1 G2 G3. destruct (NTH _ _ _ _ _ R1 k f1 G1) as (x1 & Y1 & Z1). destruct (NTH _ _ _ _ _ R2 k f2 G2) as (x2 & Y2 & Z2).
  destruct (NTH _ _ _ _ _ R3 k f G3) as (x3 & Y3 & Z3). rewrite Y1 in Y2, Y3. injection Y2 as <-. injection Y3 as <-. exact (J _ _ _ _ Z1 Z2 Z3).
Qed.
Print Assumptions C152_run.

(** ** A case that meets the hypotheses: acoustics with a wall on the left, damping as a source term *)
Definition acoustics : rpsolver := fun ql qr _ _ =>
  let dp := nth 0 qr 0 - nth 0 ql 0 in let du := nth 1 qr 0 - nth 1 ql 0 in
  let a1 := (du - dp) / 2 in let a2 := (du + dp) / 2 in
  mkOut (fun m p => if Z.eqb p 0 then (if Z.eqb m 0 then - a1 else a1) else a2) (fun p => if Z.eqb p 0 then -(1) else 1)
        (fun m => if Z.eqb m 0 then a1 else - a1) (fun m => a2).
Definition acset : settings :=
  mkSet 2 2 0 2 false 2 (fun _ => 0%Z) acoustics (1 # 2) (1 # 4) None (mkDim 4 Wall Extrap Wall Extrap true true 1) (mkFuns Q None None None None).
Definition damping (d : Q) (so : sol (arr Q) (arr Q)) : arr Q * arr Q := (fun m ix => if Z.eqb m 1 then sq so m ix * (1 - d) else sq so m ix, sx so).
Definition acprogram : program unit :=
  mkProgram Fortran acset (Some damping) 1 (fun so => (sq so, sx so)) (fun _ _ => (zero_arr, zero_arr)) (fun s => s) (fun _ _ => true).
Definition acworld (f g : Z -> Q) : world (arr Q) (arr Q) unit unit unit :=
  mkWorld (bsolver (1 # 10) true) true (mkSol (fun m ix => match ix with [i] => if Z.eqb m 0 then f i else g i | _ => 0 end) zero_arr 0) 0 [] false [].
Definition ac1 := acworld (fun i => inject_Z i) (fun _ => 1).
Definition ac2 := acworld (fun i => if Z.eqb i 1 then 1 else 0) (fun i => inject_Z (i * i)).
Definition ac3 := acworld (fun i => 2 * inject_Z i - (if Z.eqb i 1 then 1 else 0)) (fun i => 2 - inject_Z (i * i)).
Example C152_example :
  linear_solver 2 2 0 acoustics /\ unlimited acset /\ capa_in_aux acset /\
  fit_dim (c_ng acset) (Nat.ltb 0 (c_naux acset)) (Z.of_nat (c_neq acset)) (c_bc acset) /\
  linear_before acset (p_before acprogram) /\ linear_source acset (p_source acprogram) /\ three_starts acset 2 (-(1)) ac1 ac2 ac3 /\
  let r := fst (run_of nopow noundef acprogram (bcontroller (1 # 10)) ac3) in
  length (w_frames r) = 3%nat /\ (2 <= st_numsteps (w_solver r))%Z.
Proof.
  split.
  { intros a b ul ur vl vr wl wr al1 ar1 al2 ar2 al ar (_ & _ & _ & K1) (_ & _ & _ & K2) _ _ _ _. cbv zeta.
    pose proof (K1 0%Z ltac:(lia)) as P0. pose proof (K1 1%Z ltac:(lia)) as P1. pose proof (K2 0%Z ltac:(lia)) as S0. pose proof (K2 1%Z ltac:(lia)) as S1.
    cbn [Z.to_nat Pos.to_nat Pos.iter_op Nat.add] in P0, P1, S0, S1. change (Pos.to_nat 1) with 1%nat in *.
    split; [intros; split; reflexivity|]. intros m Hm. unfold acoustics. cbn [o_am o_ap o_wave].
    set (w0 := nth 0 wl 0) in *. set (w1 := nth 1 wl 0) in *. set (w2 := nth 0 wr 0) in *. set (w3 := nth 1 wr 0) in *.
    destruct (Z.eqb m 0); (split; [rewrite P0, P1, S0, S1; field|split; [rewrite P0, P1, S0, S1; field|]]);
      intros p Hp; destruct (Z.eqb p 0); rewrite P0, P1, S0, S1; field. }
  split; [right; reflexivity|]. split; [intros k; discriminate|].
  split; [unfold fit_dim, standard, wide; cbn; intuition (auto; try discriminate; try lia)|].
  split; [intros a b so1 so2 so (H & _); exact H|].
  split.
  { intros a b d1 d2 d so1 so2 so E1 E2 ((HQ & HX) & _). split; [|exact HX]. cbn [fst] in *. unfold damping. cbn [fst].
    intros m i Hm Hi. destruct (Z.eqb m 1); rewrite (HQ m i Hm Hi); [rewrite E1, E2|]; ring. }
  split.
  { repeat (split; [reflexivity|]). split; [|split; reflexivity]. split; [|split; intros m i Hm; cbn in Hm; lia].
    intros m i Hm Hi. cbn [fst ac1 ac2 ac3 acworld w_sol sq]. destruct (Z.eqb m 0), (Z.eqb i 1); ring. }
  cbv zeta. split; vm_compute; [reflexivity|discriminate].
Qed.
(** Limiters cannot be allowed: with minmod the step of the sum of two ramps is not the sum of the steps. *)
Example C152_limiters :
  exists C q1 q2, linear_solver 1 1 0 (c_rp C) /\ (2 <= c_ng C)%nat /\ fit_dim (c_ng C) false 1 (c_bc C) /\
  match step_hyperbolic nopow noundef Fortran C q1 zero_arr zero_arr zero_arr, step_hyperbolic nopow noundef Fortran C q2 zero_arr zero_arr zero_arr,
        step_hyperbolic nopow noundef Fortran C (fun m ix => q1 m ix + q2 m ix) zero_arr zero_arr zero_arr with
  | Stepped u1 _, Stepped u2 _, Stepped u _ => ~ u 0%Z 2%Z == u1 0%Z 2%Z + u2 0%Z 2%Z
  | _, _, _ => False
  end.
Proof.
  exists (mkSet 1 1 0 2 false 2 (fun _ => 1%Z) (fun ql qr _ _ => mkOut (fun _ _ => nth 0 qr 0 - nth 0 ql 0) (fun _ => 1) (fun _ => 0) (fun _ => nth 0 qr 0 - nth 0 ql 0))
    1 (1 # 2) None (bdim Periodic) (mkFuns Q None None None None)),
    (bdata (fun i => nth (Z.to_nat i) [0; 0; 1; 3; 3; 3] 0)), (bdata (fun i => nth (Z.to_nat i) [0; 0; 2; 3; 3; 3] 0)).
  split.
  { intros a b ul ur vl vr wl wr al1 ar1 al2 ar2 al ar (_ & _ & _ & K1) (_ & _ & _ & K2) _ _ _ _. cbn [c_rp].
    specialize (K1 0%Z ltac:(lia)). specialize (K2 0%Z ltac:(lia)). cbn [Z.to_nat] in K1, K2. cbv zeta. cbn [o_s o_am o_ap o_wave].
    split; [intros; split; reflexivity|]. intros m Hm. split; [ring|]. split; [rewrite K1, K2; ring|intros; rewrite K1, K2; ring]. }
  split; [cbn; lia|]. split; [unfold fit_dim, standard, wide; cbn; intuition (auto; try discriminate; try lia)|].
  vm_compute. discriminate.
Qed.
