(** Properties C29, C30 and C59: SharpClaw's linear multistep methods.
    [multi_runs f speed hook I lmm_steps check alpha beta before s so tends] is the model of calling
    solver.evolve_to_time(solution, t) for each t in tends (None: a single step), stopping at the first
    exception; f is dq/dt, [speed] gives the Courant number per unit of time. *)
From Verif Require Import Base TimeModel SharpModel SharpSpec SharpProofs SharpProps.
From Verif Require Import MultiModel MultiSpec MultiProofs MultiProofs2 MultiProofs3.

(** A solver as left by setup. *)
Definition demo_multi (k : nat) (d cmax cdes : Q) (var : bool) : solver (hist unit) :=
  mkSolver d None 1000 var cdes cmax cdes 1000 None None None 0 true
    (mkHist (repeat ((fun _ => 1), 0) k) [] [] [] (fun _ => 0) true).
Definition demo_sol : sol (unit -> Q) unit := mkSol (fun _ => 1) tt 0.

(** ** C30: every accepted step of a run is the starting method's or the k-step formula applied to the
    solutions accepted so far (so whatever steps were rejected in between, the registers hold the last k
    accepted solutions and slopes, and the saved step sizes are the distances between them); a rejected step
    changes neither q nor t. *)
Definition history_respected {Idx DX} (f hook : Q -> (Idx -> Q) -> Idx -> Q) I k alpha beta (variable : bool)
    (so0 : sol (Idx -> Q) DX) (tr : list (event (Idx -> Q) DX)) : Prop :=
  forall tr1 ev tr2, tr = tr1 ++ ev :: tr2 ->
  let past := solutions so0 tr1 in
  (sq (ev_before ev), st (ev_before ev)) = the_last past /\
  (ev_accepted ev = true ->
     multistep f hook I k alpha beta past (ev_dt ev) (sq (ev_after ev)) /\
     (variable = true -> st (ev_after ev) == st (ev_before ev) + ev_dt ev)) /\
  (ev_accepted ev = false -> variable = true ->
     sq (ev_after ev) = sq (ev_before ev) /\ st (ev_after ev) = st (ev_before ev)).

Theorem C30_history_partial :
  forall (Idx DX : Type) f speed hook I k check alpha beta before (s : solver (hist Idx)) (so0 : sol (Idx -> Q) DX)
    tends s' so' tr,
  (2 <= k)%nat -> fresh k s ->
  (I = SSPLMMk2 /\ dt_variable s = true) \/ (I = SSPLMMk3 /\ dt_variable s = true /\ check = false) \/
  (I = LMM /\ length alpha = k /\ length beta = k) ->
  multi_runs f speed hook I (Z.of_nat k) check alpha beta before s so0 tends = (s', so', tr) ->
  history_respected f hook I k alpha beta (dt_variable s) so0 tr.
Proof.
  intros Idx DX f speed hook I k check alpha beta before s so0 tends s' so' tr Hk (F1 & F2 & F3 & F4 & F5 & F6) HI E.
  assert (Hmode : is_ssp I = true /\ dt_variable s = true \/ I = LMM /\ length alpha = k /\ length beta = k).
  { destruct HI as [[-> H]|[(-> & H & _)|H]]; auto. }
  assert (Hc : is_k3 I && check = false).
  { destruct HI as [[-> H]|[(-> & H & ->)|(-> & _)]]; reflexivity. }
  pose proof (runs_ok Idx DX f speed hook I k check alpha beta before (dt_variable s) Hmode Hk Hc so0 tends [] s so0 s' so' tr
    (fresh_inv Idx DX f hook I k alpha beta before (dt_variable s) Hmode so0 s F1 F2 eq_refl F3 F4 F5) E) as A.
  intros tr1 ev tr2 Ht. destruct (A tr1 ev tr2 Ht) as (B & C & D). split; [exact B|]. split; [exact C|].
  intros H1 H2. specialize (D H1 H2). unfold here in D. injection D as D1 D2. auto.
Qed.
Print Assumptions C30_history_partial.

(** A run of the 2nd-order method with three steps and a rejection: the first step is too long. *)
Definition demo_run2 := multi_runs demo_decay (fun _ _ => 1) (fun _ q => q) SSPLMMk2 4 false [] [] (@sx _ _)
  (demo_multi 4 10 (1 # 10) (9 # 100) true) demo_sol [None; Some 1; None].
Example C30_example :
  fresh 4 (demo_multi 4 10 (1 # 10) (9 # 100) true) /\ dt_variable (demo_multi 4 10 (1 # 10) (9 # 100) true) = true /\
  map ev_accepted (snd demo_run2) = [false; true; true; true; true; true; true; true; true; true; true].
Proof. vm_compute. repeat split. Qed.

(** The full property is false: with check_lmm_cond = True (SSPLMMk3) a rejected step leaves the slope of an
    earlier solution in place, and the next accepted step is computed from it. *)
Definition demo_speed (t : Q) (q : unit -> Q) : Q := if (qltb (3 # 10) t && qltb t (45 # 100))%bool then 3 else 1.
Definition demo_run3 := multi_runs demo_decay demo_speed (fun _ q => q) SSPLMMk3 4 true [] [] (@sx _ _)
  (demo_multi 4 (1 # 10) (1 # 6) (16 # 100) true) demo_sol [None; None; None; None].
Lemma split_at {A} (l : list A) n d : (n < length l)%nat -> l = firstn n l ++ nth n l d :: skipn (S n) l.
Proof.
  revert n. induction l as [|x l IH]; intros n H; [cbn in H; lia|]. destruct n as [|n]; [reflexivity|].
  cbn [firstn nth skipn app]. f_equal. apply IH. cbn in H. lia.
Qed.
Lemma triple {A B C} (x : A * B * C) (P : A -> B -> C -> Prop) :
  P (fst (fst x)) (snd (fst x)) (snd x) -> exists a b c, x = (a, b, c) /\ P a b c.
Proof. destruct x as [[a b] c]. intros H. exists a, b, c. auto. Qed.
Lemma start_step {Idx} (f hook : Q -> (Idx -> Q) -> Idx -> Q) k past d q' :
  Nat.ltb (length past) k = true -> multistep f hook SSPLMMk3 k [] [] past d q' ->
  q' = ssp22 f hook d (slope f (the_last past)) (snd (the_last past)) (fst (the_last past)).
Proof. unfold multistep. intros ->. auto. Qed.
Theorem C30_history_refuted :
  exists s' so' tr, demo_run3 = (s', so', tr) /\ fresh 4 (demo_multi 4 (1 # 10) (1 # 6) (16 # 100) true) /\
  ~ history_respected demo_decay (fun _ q => q) SSPLMMk3 4 [] [] true demo_sol tr.
Proof.
  exists (fst (fst demo_run3)), (snd (fst demo_run3)), (snd demo_run3).
  split; [destruct demo_run3 as [[? ?] ?]; reflexivity|]. split; [repeat split|].
  intros H. set (d := mkEvent true 0 0 demo_sol demo_sol).
  assert (Ht : snd demo_run3 = firstn 3 (snd demo_run3) ++ nth 3 (snd demo_run3) d :: skipn 4 (snd demo_run3)).
  { apply split_at. vm_compute. lia. }
  destruct (H _ _ _ Ht) as (_ & H1 & _). destruct (H1 ltac:(vm_compute; reflexivity)) as [H2 _].
  apply start_step in H2; [|vm_compute; reflexivity].
  match type of H2 with ?a = ?b =>
    assert (N : qeqb (a tt) (b tt) = false) by (vm_compute; reflexivity) end.
  rewrite <- H2 in N. rewrite Qeq_bool_refl in N. discriminate.
Qed.
Print Assumptions C30_history_refuted.
(** With check_lmm_cond = True a step can also take an accepted solution back: the time decreases. *)
Definition demo_run3b := multi_runs demo_decay (fun _ _ => 1) (fun _ q => q) SSPLMMk3 4 true [] [] (@sx _ _)
  (demo_multi 4 (1 # 10) (1 # 6) (16 # 100) true) demo_sol [None; None; None].
Theorem C30_time_goes_back_refuted :
  exists s' so' tr, demo_run3b = (s', so', tr) /\
  existsb (fun ev => ev_accepted ev && qltb (st (ev_after ev)) (st (ev_before ev)))%bool tr = true.
Proof. apply triple. vm_compute. reflexivity. Qed.
Print Assumptions C30_time_goes_back_refuted.

(** ** C29: the formulas are exact for solutions that are quadratic (cubic) in time, for every history of
    times. *)
Theorem C29_exact_k2 :
  forall (Idx : Type) (f hook : Q -> (Idx -> Q) -> Idx -> Q) k past d q' (a0 a1 a2 : Idx -> Q),
  let P := poly3 a0 a1 a2 (fun _ => 0) in
  extensional f -> (forall t, veq (f t (P t)) (dpoly3 a1 a2 (fun _ => 0) t)) ->
  (forall p, In p past -> veq (fst p) (P (snd p))) ->
  (1 <= k <= length past)%nat -> ~ d == 0 ->
  ~ snd (the_last past) == snd (nth_of_last k past 0) ->
  multistep f hook SSPLMMk2 k [] [] past d q' ->
  veq q' (P (snd (the_last past) + d)).
Proof.
  intros Idx f hook k past d q' a0 a1 a2 P Hf HP Hpast Hk Hd Ht M. unfold multistep in M.
  replace (Nat.ltb (length past) k) with false in M by (symmetry; apply Nat.ltb_ge; lia).
  set (now := the_last past) in *. set (old := nth_of_last k past 0) in *.
  assert (Hnow : In now past).
  { unfold now, the_last. rewrite (app_removelast_last (l := past) (fun _ => 0, 0)) at 2 by (destruct past; [cbn in Hk; lia|discriminate]).
    apply in_or_app. right. left. reflexivity. }
  assert (Hold : In old past) by (unfold old, nth_of_last; apply nth_In; lia).
  eapply veq_trans; [exact M|]. set (H := snd now - snd old).
  eapply veq_trans; [|apply k2_poly with (H := H); [unfold H; intro Hz; apply Ht; lra|exact Hd]].
  apply k2_ext.
  - reflexivity.
  - apply Hpast, Hnow.
  - unfold slope. eapply veq_trans; [apply Hf; [reflexivity|apply Hpast, Hnow]|]. apply HP.
  - eapply veq_trans; [apply Hpast, Hold|]. apply poly3_ext. unfold H. ring.
Qed.
Print Assumptions C29_exact_k2.
Theorem C29_exact_k3 :
  forall (Idx : Type) (f hook : Q -> (Idx -> Q) -> Idx -> Q) k past d q' (a0 a1 a2 a3 : Idx -> Q),
  let P := poly3 a0 a1 a2 a3 in
  extensional f -> (forall t, veq (f t (P t)) (dpoly3 a1 a2 a3 t)) ->
  (forall p, In p past -> veq (fst p) (P (snd p))) ->
  (1 <= k <= length past)%nat -> ~ d == 0 ->
  ~ snd (the_last past) == snd (nth_of_last k past 0) ->
  multistep f hook SSPLMMk3 k [] [] past d q' ->
  veq q' (P (snd (the_last past) + d)).
Proof.
  intros Idx f hook k past d q' a0 a1 a2 a3 P Hf HP Hpast Hk Hd Ht M. unfold multistep in M.
  replace (Nat.ltb (length past) k) with false in M by (symmetry; apply Nat.ltb_ge; lia).
  set (now := the_last past) in *. set (old := nth_of_last k past 0) in *.
  assert (Hnow : In now past).
  { unfold now, the_last. rewrite (app_removelast_last (l := past) (fun _ => 0, 0)) at 2 by (destruct past; [cbn in Hk; lia|discriminate]).
    apply in_or_app. right. left. reflexivity. }
  assert (Hold : In old past) by (unfold old, nth_of_last; apply nth_In; lia).
  eapply veq_trans; [exact M|]. set (H := snd now - snd old).
  assert (Eo : snd old == snd now - H) by (unfold H; ring).
  eapply veq_trans; [|apply k3_poly with (H := H); [unfold H; intro Hz; apply Ht; lra|exact Hd]].
  apply k3_ext.
  - reflexivity.
  - apply Hpast, Hnow.
  - unfold slope. eapply veq_trans; [apply Hf; [reflexivity|apply Hpast, Hnow]|]. apply HP.
  - eapply veq_trans; [apply Hpast, Hold|]. apply poly3_ext. exact Eo.
  - unfold slope. eapply veq_trans; [apply Hf; [reflexivity|apply Hpast, Hold]|].
    eapply veq_trans; [apply HP|]. apply dpoly3_ext. exact Eo.
Qed.
Print Assumptions C29_exact_k3.
(** f(t,q) = 1+3t^2 and the solution t + t^3 at the times 0, 1/2, 2: the next step of size 1 gives 30. *)
Example C29_exact_example :
  let f := fun t (q : unit -> Q) (_ : unit) => 1 + 3 * (t * t) in
  let P := poly3 (fun _ : unit => 0) (fun _ => 1) (fun _ => 0) (fun _ => 1) in
  let past := [(P 0, 0); (P (1 # 2), 1 # 2); (P 2, 2)] in
  extensional f /\ (forall t, veq (f t (P t)) (dpoly3 (fun _ => 1) (fun _ => 0) (fun _ => 1) t)) /\
  (forall p, In p past -> veq (fst p) (P (snd p))) /\ ~ snd (the_last past) == snd (nth_of_last 3 past 0) /\
  exists q', multistep f (fun _ q => q) SSPLMMk3 3 [] [] past 1 q' /\ q' tt == 30.
Proof.
  cbv zeta. split; [|split; [|split; [|split]]].
  - intros t t' u v E _ i. rewrite E. reflexivity.
  - intros t i. unfold dpoly3. ring.
  - intros p [<-|[<-|[<-|[]]]] i; reflexivity.
  - vm_compute. discriminate.
  - eexists. split; [intros i; reflexivity|]. vm_compute. reflexivity.
Qed.

(** Every run of single steps of SSPLMMk2 keeps a convex set that forward Euler keeps under the Courant number
    cfl_max/sspcoeff: the automatic step size meets the SSP bound, whatever steps are rejected. *)
Theorem C29_ssp_run_k2 :
  forall (Idx DX : Type) f speed hook k check before (K : (Idx -> Q) -> Prop) (s : solver (hist Idx))
    (so0 : sol (Idx -> Q) DX) n s' so' tr,
  (3 <= k)%nat -> fresh k s -> dt_variable s = true -> 0 < dt s -> 0 < cfl_max s -> 0 < cfl_desired s ->
  (forall t q, 0 < speed t q) -> convex K -> (forall t q, K q -> K (hook t q)) ->
  (forall d t q, 0 <= d -> d * speed t q <= cfl_max s / sspcoeff SSPLMMk2 (Z.of_nat k) -> K q ->
     K (fun i => q i + d * f t q i)) ->
  K (sq so0) ->
  multi_runs f speed hook SSPLMMk2 (Z.of_nat k) check [] [] before s so0 (repeat None n) = (s', so', tr) ->
  Forall (fun p => K (fst p)) (solutions so0 tr).
Proof.
  intros Idx DX f speed hook k check before K s so0 n s' so' tr Hk (F1 & F2 & F3 & F4 & F5 & F6) Hv Hd Hcm Hcd Hs Kc Kh Ke HK E.
  pose proof (runs2 Idx DX f speed hook k check before K (cfl_max s) (cfl_desired s) Hk Hcm Hcd Hs Kc Kh Ke so0 n [] s so0 s' so' tr) as R.
  destruct (R (fresh2 Idx DX f speed hook k before K (cfl_max s) (cfl_desired s) so0 s F1 F2 Hv F3 F4 F5 F6 Hd eq_refl eq_refl HK) E) as [_ X].
  apply X.
Qed.
Print Assumptions C29_ssp_run_k2.
Example C29_ssp_example :
  let s := demo_multi 3 (1 # 10) (1 # 2) (49 # 100) true in
  fresh 3 s /\ convex demo_K /\ sspcoeff SSPLMMk2 3 == 1 # 2 /\
  (forall d t q, 0 <= d -> d * 1 <= cfl_max s / sspcoeff SSPLMMk2 (Z.of_nat 3) -> demo_K q ->
     demo_K (fun i => q i + d * demo_decay t q i)) /\
  length (snd (multi_runs demo_decay (fun _ _ => 1) (fun _ q => q) SSPLMMk2 3 false [] [] (@sx _ _) s demo_sol (repeat None 6))) = 6%nat.
Proof.
  cbv zeta. split; [repeat split|]. split; [apply C28_example|]. split; [reflexivity|]. split; [|vm_compute; reflexivity].
  intros d t q H0 H1 [H2 H3]. assert (E : cfl_max (demo_multi 3 (1 # 10) (1 # 2) (49 # 100) true) / sspcoeff SSPLMMk2 (Z.of_nat 3) == 1) by reflexivity.
  rewrite E in H1. unfold demo_K, demo_decay. split; nra.
Qed.

(** One step of SSPLMMk3 with the automatic step size keeps the set if the saved steps are short enough: with
    H the distance to the oldest solution used and mu the forward-Euler step, H*H <= 8*mu*mu.  Missing for the
    full property: this condition is not enforced (see below). *)
Theorem C29_ssp_k3_partial :
  forall (Idx : Type) f hook (K : (Idx -> Q) -> Prop) k past mu q',
  let H := snd (the_last past) - snd (nth_of_last k past 0) in
  let d := H * mu / (H + 2 * mu) in
  convex K -> 0 < H -> 0 < mu -> H * H <= 8 * (mu * mu) -> (k <= length past)%nat ->
  K (fst (nth_of_last k past 0)) ->
  K (fun i => fst (the_last past) i + mu * slope f (the_last past) i) ->
  K (fun i => fst (nth_of_last k past 0) i + mu * slope f (nth_of_last k past 0) i) ->
  multistep f hook SSPLMMk3 k [] [] past d q' -> K q'.
Proof.
  intros Idx f hook K k past mu q' H d Kc HH Hm HB Hk K0 K1 K2 M. unfold multistep in M.
  replace (Nat.ltb (length past) k) with false in M by (symmetry; apply Nat.ltb_ge; lia).
  destruct (auto_step 3 H mu HH Hm ltac:(lra)) as (A & B & C & D). cbv zeta in A, B, C, D.
  assert (Ed : d == H * mu / (H + (3 - 1) * mu)).
  { unfold d. replace (3 - 1)%Q with (3 - 1) by reflexivity. assert ((3 - 1) * mu == 2 * mu) as -> by ring. reflexivity. }
  rewrite <- Ed in A, B, C, D.
  assert (Hom : H / d == H / mu + 2) by (rewrite C; ring).
  assert (Hx : exists x, x == H / mu /\ 0 < x /\ x * x <= 8).
  { exists (H / mu). split; [reflexivity|]. split; [apply Qdiv_pos; assumption|].
    assert (E : (H / mu) * (H / mu) == (H * H) / (mu * mu)) by (field; lra). rewrite E.
    apply Qle_shift_div_r; [nra|exact HB]. }
  destruct Hx as (x & Ex & Px & Bx).
  apply Kc with (u := k3_formula (H / d) d (fst (the_last past)) (slope f (the_last past)) (fst (nth_of_last k past 0)) (slope f (nth_of_last k past 0))).
  { intros i. symmetry. apply M. }
  apply k3_ssp with (w := mu); auto.
  - rewrite Hom, <- Ex. lra.
  - rewrite Hom, <- Ex. nra.
Qed.
Print Assumptions C29_ssp_k3_partial.

(** Refuted: with the default settings of SSPLMMk3 with five steps, decay q' = -q (for which forward Euler steps
    up to 1, the step that the Courant number cfl_max/sspcoeff allows, keep q >= 0) leaves q >= 0: the
    coefficient delta0 is negative. *)
Definition demo_run5 := multi_runs demo_decay (fun _ _ => 1 # 2) (fun _ q => q) SSPLMMk3 5 false [] [] (@sx _ _)
  (demo_multi 5 (1 # 10) ((5 # 10) * sspcoeff SSPLMMk3 5) ((48 # 100) * sspcoeff SSPLMMk3 5) true) demo_sol (repeat None 5).
Theorem C29_ssp_k3_refuted :
  (forall d t (q : unit -> Q), 0 <= d -> d * (1 # 2) <= ((5 # 10) * sspcoeff SSPLMMk3 5) / sspcoeff SSPLMMk3 5 ->
     0 <= q tt -> 0 <= q tt + d * demo_decay t q tt) /\
  0 <= sq demo_sol tt /\
  exists s' so' tr, demo_run5 = (s', so', tr) /\ forallb ev_accepted tr = true /\ qltb (sq so' tt) 0 = true.
Proof.
  split; [|split].
  - intros d t q H0 H1 H2. assert (E : (5 # 10) * sspcoeff SSPLMMk3 5 / sspcoeff SSPLMMk3 5 == 1 # 2) by reflexivity.
    rewrite E in H1. unfold demo_decay. nra.
  - vm_compute. discriminate.
  - apply triple. split; vm_compute; reflexivity.
Qed.
Print Assumptions C29_ssp_k3_refuted.

(** ** C59: 'LMM' computes the multistep formula given by alpha and beta if lmm_steps is their length. *)
Theorem C59_lmm_formula_partial :
  forall (Idx : Type) dt alpha beta (qs fs : list (Idx -> Q)) k,
  (0 < k)%nat -> length alpha = k -> length beta = k -> length qs = k -> length fs = k ->
  exists q', lmm dt (Z.of_nat k) alpha beta qs fs = Some q' /\
  veq q' (fun x => sum_n k (fun j => nth j alpha 0 * nth j qs (fun _ => 0) x + nth j beta 0 * dt * nth j fs (fun _ => 0) x)).
Proof. intros. apply lmm_correct; assumption. Qed.
Print Assumptions C59_lmm_formula_partial.
(** False otherwise: lmm_steps has the default 4 and is not required to be set for 'LMM', whose number of
    registers is len(alpha).  With three coefficients the last term is counted twice, with five one is left out. *)
Theorem C59_lmm_formula_refuted :
  let formula k alpha beta d (qs fs : list (unit -> Q)) x :=
    sum_n k (fun j => nth j alpha 0 * nth j qs (fun _ => 0) x + nth j beta 0 * d * nth j fs (fun _ => 0) x) in
  (exists alpha beta qs fs q', length alpha = 3%nat /\ length beta = 3%nat /\ length qs = 3%nat /\ length fs = 3%nat /\
     lmm 1 4 alpha beta qs fs = Some q' /\ ~ veq q' (formula 3%nat alpha beta 1 qs fs)) /\
  (exists alpha beta qs fs q', length alpha = 5%nat /\ length beta = 5%nat /\ length qs = 5%nat /\ length fs = 5%nat /\
     lmm 1 4 alpha beta qs fs = Some q' /\ ~ veq q' (formula 5%nat alpha beta 1 qs fs)).
Proof.
  cbv zeta. split.
  - exists [1 # 3; 1 # 3; 1 # 3], [0; 0; 1], (repeat (fun _ => 1) 3), (repeat (fun _ => 0) 3). eexists.
    repeat split. intros H. specialize (H tt). vm_compute in H. discriminate.
  - exists [0; 0; 0; 1; 0], [0; 0; 0; 0; 1], (repeat (fun _ => 1) 5), (repeat (fun _ => 0) 5). eexists.
    repeat split. intros H. specialize (H tt). vm_compute in H. discriminate.
Qed.
Print Assumptions C59_lmm_formula_refuted.
(** The three-step Adams-Bashforth method. *)
Example C59_example :
  exists q', lmm (1 # 2) 3 [0; 0; 1] [5 # 12; -(4 # 3); 23 # 12] (repeat (fun _ : unit => 2) 3) (repeat (fun _ => 4) 3) = Some q' /\
  q' tt == 4.
Proof. eexists. split; [reflexivity|]. vm_compute. reflexivity. Qed.

(** ** C60: 'SSP22', which step() knows, cannot be used: setup raises 'Unrecognized time integrator' for it and
    for no other integrator. *)
Theorem C60_ssp22_refuted : forall nb nalpha steps I, nregisters I nb nalpha steps = None <-> I = SSP22.
Proof. intros nb nalpha steps I. destruct I; cbn; split; intro H; congruence || discriminate. Qed.
Print Assumptions C60_ssp22_refuted.
